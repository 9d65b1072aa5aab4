(** Proofs for C98, continued: the masked fraction. *)
From Coq Require Import ZArith Reals Lra Lia List Bool.
Require Import Flocq.Core.Core Flocq.IEEE754.BinarySingleNaN.
From Verif Require Import Base ProcFloat InterpFloatProofs MeshFloatModel MeshFloatProofs FredModel FredSpec FredProofs FredProofs2 NfltProofs FknnModel FknnSpec FknnProofs FknnProofs2 FknnProofs3.
Import ListNotations. Local Open Scope list_scope. Local Open Scope R_scope.

Lemma leq_finite l l' : Forall2 leq l l' -> finite l.
Proof. induction 1 as [|a b l l' (A & _) _ IH]; constructor; [apply A|exact IH]. Qed.
Lemma leq_same l : Forall nonneg l -> Forall2 leq l l.
Proof. induction 1 as [|v l [F P] _ IH]; constructor; [repeat split; try assumption; lra|exact IH]. Qed.
Section Fraction.
Context (mask : list bool) (weight : option (list b64)) (K : option (b64 -> b64)) (r : option b64) (nb : neighbours).
Notation wt0 := (training_weight (length mask) weight).
Hypothesis (W : weights_ok (length mask) weight) (I : within (length mask) nb) (HK : kernel_ok K nb) (U : upto (B 400) weight K nb) (N : (Z.of_nat (length nb) <= 2 ^ 53)%Z).
Lemma wt0_nonneg : Forall nonneg wt0 /\ length wt0 = length mask.
Proof. apply training_nonneg. exact W. Qed.
Lemma wt0_at p : In p nb -> val (nth (snd p) wt0 zero64) = match weight with None => 1 | Some w => val (nth (snd p) w zero64) end.
Proof.
  intros Hp. destruct weight as [w|]; [reflexivity|]. cbn [training_weight]. assert (L : (snd p < length mask)%nat) by (unfold within in I; rewrite Forall_forall in I; exact (I p Hp)).
  rewrite (nth_indep _ zero64 (of_Z64 1)) by (rewrite repeat_length; exact L). rewrite nth_repeat. destruct (of_Z64_exact 1 ltac:(lia)) as [V _]. exact V.
Qed.
Lemma masked_at p : In p nb -> nonneg (nth (snd p) (masked_weight mask wt0) zero64) /\ val (nth (snd p) (masked_weight mask wt0) zero64) = if nth (snd p) mask false then val (nth (snd p) wt0 zero64) else 0.
Proof.
  intros Hp. destruct wt0_nonneg as [P L]. assert (Lp : (snd p < length mask)%nat) by (unfold within in I; rewrite Forall_forall in I; exact (I p Hp)).
  unfold masked_weight, times. set (f := fun q : b64 * b64 => mul64 (fst q) (snd q)). set (i := snd p) in *.
  assert (G : nth i (map f (combine (map of_bool64 mask) wt0)) zero64 = mul64 (of_bool64 (nth i mask false)) (nth i wt0 zero64)).
  { rewrite (nth_indep _ zero64 (f (of_bool64 false, zero64))) by (rewrite map_length, combine_length, map_length; lia). rewrite map_nth, combine_nth by (rewrite map_length; symmetry; exact L). unfold f. cbn [fst snd]. rewrite (map_nth of_bool64). reflexivity. }
  rewrite G. apply bool_times. rewrite Forall_forall in P. apply P. apply nth_In. lia.
Qed.
Lemma wt0_upto p : In p nb -> Rabs (val (nth (snd p) wt0 zero64)) <= B 400 /\ wt None K p <= B 400.
Proof.
  intros Hp. assert (O : 1 <= B 400) by (apply (bpow_le radix2 0); lia). split.
  - destruct wt0_nonneg as [P L]. rewrite wt0_at by exact Hp. destruct weight as [w|]; [|rewrite Rabs_R1; exact O]. cbn [training_weight] in *. assert (Lp : (snd p < length mask)%nat) by (unfold within in I; rewrite Forall_forall in I; exact (I p Hp)).
    assert (In (nth (snd p) w zero64) w) by (apply nth_In; lia). rewrite Forall_forall in P. destruct (P _ H) as [_ P0]. rewrite Rabs_right by lra. destruct U as [U1 _]. specialize (U1 w eq_refl). rewrite Forall_forall in U1. exact (U1 _ H).
  - destruct K as [k|]; cbn [wt]; [|exact O]. destruct U as [_ U2]. specialize (U2 k eq_refl). rewrite Forall_forall in U2. exact (U2 p Hp).
Qed.
Lemma wt_nonneg p : In p nb -> 0 <= wt None K p.
Proof. intros Hp. destruct K as [k|]; cbn [wt]; [|lra]. specialize (HK k eq_refl). rewrite Forall_forall in HK. apply HK, Hp. Qed.
Lemma total_weighted l : (forall p, In p l -> In p nb) -> weighted wt0 None K l = total weight K l.
Proof.
  intros H. unfold weighted, total. f_equal. apply map_ext_in. intros p Hp. rewrite wt0_at by (apply H, Hp). destruct K; reflexivity.
Qed.
Lemma marked_weighted l : (forall p, In p l -> In p nb) -> weighted (masked_weight mask wt0) None K l = total weight K (marked mask l).
Proof.
  induction l as [|p l IH]; intros H; [reflexivity|]. unfold weighted in *. cbn [map marked filter]. unfold Rsum in *. cbn [fold_right]. rewrite IH by (intros q Hq; apply H; right; exact Hq). assert (Hp : In p nb) by (apply H; left; reflexivity).
  destruct (masked_at p Hp) as [_ ->]. destruct (nth (snd p) mask false); [|rewrite Rmult_0_l, Rplus_0_l; reflexivity]. unfold total, Rsum. cbn [map fold_right]. rewrite wt0_at by exact Hp. destruct K; reflexivity.
Qed.
Lemma size_weighted y l : (forall p, In p l -> 0 <= val (nth (snd p) y zero64) * wt None K p) -> Rsize (map (fun p => val (nth (snd p) y zero64) * wt None K p) l) = weighted y None K l.
Proof.
  intros H. unfold weighted. induction l as [|p l IH]; [reflexivity|]. unfold Rsize, Rsum in *. cbn [map fold_right]. rewrite IH by (intros q Hq; apply H; right; exact Hq). rewrite Rabs_right by (apply Rle_ge, H; left; reflexivity). reflexivity.
Qed.
Lemma total_pos l : (forall p, In p l -> In p nb) -> 0 <= total weight K l.
Proof.
  intros H. rewrite <- total_weighted by exact H. unfold weighted, Rsum. induction l as [|p l IH]; [cbn; lra|]. cbn [map fold_right]. assert (Hp : In p nb) by (apply H; left; reflexivity).
  assert (0 <= val (nth (snd p) wt0 zero64) * wt None K p).
  { apply Rmult_le_pos; [|apply wt_nonneg, Hp]. destruct wt0_nonneg as [P L]. destruct (nth_in_or_default (snd p) wt0 zero64) as [J| ->]; [rewrite Forall_forall in P; apply P, J|destruct zero64_facts as [_ ->]; lra]. }
  specialize (IH (fun q Hq => H q (or_intror Hq))). lra.
Qed.
Notation d := (INR (np_depth (length nb))).
Lemma sum_all : fin (knn_sum wt0 None K r nb) = true /\ 0 <= val (knn_sum wt0 None K r nb) /\
  Rabs (val (knn_sum wt0 None K r nb) - total weight K (near r nb)) <= (d + 1) * eps * total weight K (near r nb) + INR (length nb) * B (-1074).
Proof.
  destruct wt0_nonneg as [P L]. assert (Fy : finite wt0) by (eapply Forall_impl; [|exact P]; intros v [F _]; exact F).
  assert (H : Forall (fun p => Rabs (val (nth (snd p) wt0 zero64)) <= B 400 /\ wt None K p <= B 400) nb) by (apply Forall_forall; intros p Hp; apply wt0_upto, Hp).
  destruct (row_sum (length mask) None K nb r wt0 ltac:(intros ? E; discriminate E) HK ltac:(intros ? ? E; discriminate E) Fy N H) as [F E]. split; [exact F|].
  assert (Ps : forall p, In p (near r nb) -> 0 <= val (nth (snd p) wt0 zero64) * wt None K p).
  { intros p Hp. apply near_incl in Hp. apply Rmult_le_pos; [|apply wt_nonneg, Hp]. destruct (nth_in_or_default (snd p) wt0 zero64) as [J| ->]; [rewrite Forall_forall in P; apply P, J|destruct zero64_facts as [_ ->]; lra]. }
  rewrite size_weighted in E by exact Ps. rewrite total_weighted in E by (intros p; apply near_incl). split; [|exact E].
  assert (Lq : Forall2 leq wt0 wt0) by exact (leq_same _ P).
  destruct (knn_leq wt0 wt0 K r nb Lq HK) as ([[_ Q]|Q] & _); [exact Q|rewrite Q in F; discriminate F].
Qed.
Lemma sum_marked : fin (knn_sum (masked_weight mask wt0) None K r nb) = true /\ 0 <= val (knn_sum (masked_weight mask wt0) None K r nb) <= val (knn_sum wt0 None K r nb) /\
  Rabs (val (knn_sum (masked_weight mask wt0) None K r nb) - total weight K (marked mask (near r nb))) <= (d + 1) * eps * total weight K (marked mask (near r nb)) + INR (length nb) * B (-1074).
Proof.
  destruct wt0_nonneg as [P L]. pose proof (masked_weight_leq mask wt0 P ltac:(symmetry; exact L)) as Lq. destruct sum_all as (Fa & Pa & _).
  destruct (knn_leq (masked_weight mask wt0) wt0 K r nb Lq HK) as (Nm & _ & Q). assert (B0 : fin (knn_sum (masked_weight mask wt0) None K r nb) = true /\ 0 <= val (knn_sum (masked_weight mask wt0) None K r nb) <= val (knn_sum wt0 None K r nb)).
  { destruct Q as [Q|(F & _ & Q)]; [rewrite Q in Fa; discriminate Fa|]. split; [exact F|]. destruct Nm as [[_ Nm]|Nm]; [lra|rewrite Nm in F; discriminate F]. }
  destruct B0 as [F R]. split; [exact F|]. split; [exact R|].
  assert (Fy : finite (masked_weight mask wt0)) by exact (leq_finite _ _ Lq).
  assert (H : Forall (fun p => Rabs (val (nth (snd p) (masked_weight mask wt0) zero64)) <= B 400 /\ wt None K p <= B 400) nb).
  { apply Forall_forall. intros p Hp. destruct (wt0_upto p Hp) as [A C]. split; [|exact C]. destruct (masked_at p Hp) as [_ ->]. destruct (nth (snd p) mask false); [exact A|rewrite Rabs_R0; apply bpow_ge_0]. }
  destruct (row_sum (length mask) None K nb r (masked_weight mask wt0) ltac:(intros ? E; discriminate E) HK ltac:(intros ? ? E; discriminate E) Fy N H) as [_ E].
  assert (Ps : forall p, In p (near r nb) -> 0 <= val (nth (snd p) (masked_weight mask wt0) zero64) * wt None K p).
  { intros p Hp. apply near_incl in Hp. destruct (masked_at p Hp) as [[_ Q'] _]. apply Rmult_le_pos; [exact Q'|apply wt_nonneg, Hp]. }
  rewrite size_weighted in E by exact Ps. rewrite marked_weighted in E by (intros p; apply near_incl). exact E.
Qed.
Lemma fraction_unit k : let f := fst (knn_fraction mask weight K r k nb) in fin f = true /\ 0 <= val f <= 1.
Proof.
  cbn zeta. unfold knn_fraction. cbn [fst]. destruct sum_all as (Fa & Pa & _). destruct sum_marked as (Fm & Rm & _). destruct (clip_facts _ (conj Fa Pa)) as (Fc & Pc & Lc & _).
  destruct (quotient_unit (knn_sum (masked_weight mask wt0) None K r nb) (clip_low (knn_sum wt0 None K r nb)) (conj Fm (proj1 Rm)) Fc Pc ltac:(lra)) as (F & _ & Q). auto.
Qed.
Lemma total_marked l : (forall p, In p l -> In p nb) -> total weight K (marked mask l) <= total weight K l.
Proof.
  induction l as [|p l IH]; intros H; [cbn; lra|]. specialize (IH (fun q Hq => H q (or_intror Hq))). pose proof (total_pos [p]) as P. specialize (P ltac:(intros q [->|[]]; apply H; left; reflexivity)).
  unfold marked in *. cbn [filter]. destruct (nth (snd p) mask false); unfold total, Rsum in *; cbn [map fold_right] in *; lra.
Qed.
Lemma small_count : INR (length nb) * B (-1074) <= B (-1021).
Proof. replace (B (-1021)) with (B 53 * B (-1074)) by (rewrite <- bpow_plus; reflexivity). apply Rmult_le_compat_r; [apply bpow_ge_0|]. rewrite INR_IZR_INZ. change (B 53) with (IZR (2 ^ 53)). apply IZR_le. exact N. Qed.
Lemma all_above : / 1000000000 <= total weight K (near r nb) -> total weight K (near r nb) / 2 <= val (knn_sum wt0 None K r nb) /\ clip_low (knn_sum wt0 None K r nb) = knn_sum wt0 None K r nb.
Proof.
  intros H. destruct sum_all as (Fa & Pa & E). pose proof (depth_small _ N) as D. pose proof small_count as C. assert (E0 : 0 < eps <= / 1024) by (split; [apply bpow_gt_0|]; change (/ 1024) with (B (-10)); apply bpow_le; lia).
  set (T := total weight K (near r nb)) in *. assert (S : (d + 1) * eps * T <= / 4 * T) by (apply Rmult_le_compat_r; [lra|]; lra). assert (C' : B (-1021) <= B (-60)) by (apply bpow_le; lia). change (B (-60)) with (/ 1152921504606846976) in C'.
  apply Rabs_le_inv in E. assert (G : T / 2 <= val (knn_sum wt0 None K r nb)) by lra. split; [exact G|]. destruct (clip_facts _ (conj Fa Pa)) as (_ & _ & _ & Q). apply Q. destruct floor64_facts as (_ & _ & Fl). lra.
Qed.
Lemma fraction_value k : / 1000000000 <= total weight K (near r nb) ->
  Rabs (val (fst (knn_fraction mask weight K r k nb)) - total weight K (marked mask (near r nb)) / total weight K (near r nb)) <= (4 * d + 5) * eps + B (-900).
Proof.
  intros H. destruct (all_above H) as [G C]. unfold knn_fraction. cbn [fst]. rewrite C. destruct sum_all as (Fa & Pa & Ea). destruct sum_marked as (Fm & Rm & Em). pose proof small_count as Cn. pose proof (depth_small _ N) as D.
  pose proof (total_marked (near r nb) ltac:(intros p; apply near_incl)) as MT. pose proof (total_pos (marked mask (near r nb)) ltac:(intros p Hp; apply filter_In in Hp; eapply near_incl; apply Hp)) as M0.
  set (T := total weight K (near r nb)) in *. set (M := total weight K (marked mask (near r nb))) in *. set (a := knn_sum wt0 None K r nb) in *. set (m := knn_sum (masked_weight mask wt0) None K r nb) in *.
  assert (Ap : 0 < val a) by lra. destruct (quotient_unit m a (conj Fm (proj1 Rm)) Fa Ap (proj2 Rm)) as (F & V & Q). rewrite V.
  assert (E0 : 0 < eps <= / 1024) by (split; [apply bpow_gt_0|]; change (/ 1024) with (B (-10)); apply bpow_le; lia). assert (D0 : 0 <= d) by apply pos_INR.
  set (nu := INR (length nb) * B (-1074)) in *. assert (Nu : 0 <= nu) by (apply Rmult_le_pos; [apply pos_INR|apply bpow_ge_0]). set (de := (d + 1) * eps) in *. assert (De : 0 <= de <= / 4) by (unfold de; split; [apply Rmult_le_pos; lra|lra]).
  assert (X : Rabs (val m / val a - M / T) <= 4 * de + 4 * nu / T).
  { replace (val m / val a - M / T) with (((val m - M) * T + M * (T - val a)) / (val a * T)) by (field; lra). unfold Rdiv at 1. rewrite Rabs_mult, Rabs_inv, (Rabs_right (val a * T)) by (apply Rle_ge, Rmult_le_pos; lra).
    assert (AT : 0 < val a * T) by (apply Rmult_lt_0_compat; lra). apply Rmult_le_reg_r with (val a * T); [exact AT|]. rewrite Rmult_assoc, Rinv_l, Rmult_1_r by lra.
    assert (X1 : Rabs ((val m - M) * T) <= (de * M + nu) * T) by (rewrite Rabs_mult, (Rabs_right T) by lra; apply Rmult_le_compat_r; [lra|exact Em]).
    assert (X2 : Rabs (M * (T - val a)) <= M * (de * T + nu)) by (rewrite Rabs_mult, (Rabs_right M), (Rabs_minus_sym T) by lra; apply Rmult_le_compat_l; [lra|exact Ea]).
    eapply Rle_trans; [apply Rabs_triang|]. eapply Rle_trans; [apply Rplus_le_compat; [exact X1|exact X2]|].
    assert (Y0 : M * T <= T * T) by (apply Rmult_le_compat_r; lra). assert (Y1 : de * (M * T) <= de * (T * T)) by (apply Rmult_le_compat_l; lra). assert (Y2 : M * nu <= T * nu) by (apply Rmult_le_compat_r; lra).
    assert (Y3 : (4 * de * T + 4 * nu) * (T / 2) <= (4 * de * T + 4 * nu) * val a) by (apply Rmult_le_compat_l; [|exact G]; apply Rplus_le_le_0_compat; [apply Rmult_le_pos; lra|lra]).
    replace ((4 * de + 4 * nu / T) * (val a * T)) with ((4 * de * T + 4 * nu) * val a) by (field; lra). lra. }
  assert (NT : 4 * nu / T <= B (-950)).
  { apply Rmult_le_reg_r with T; [lra|]. unfold Rdiv. rewrite Rmult_assoc, Rinv_l, Rmult_1_r by lra. apply Rle_trans with (B (-950) * B (-60)); [|apply Rmult_le_compat_l; [apply bpow_ge_0|change (B (-60)) with (/ 1152921504606846976); lra]].
    rewrite <- bpow_plus. apply Rle_trans with (4 * B (-1021)); [lra|]. replace 4 with (B 2) by (cbn; lra). rewrite <- bpow_plus. apply bpow_le. lia. }
  destruct (err64 (val m / val a)) as (d1 & e1 & H1 & G1 & _ & Q1). rewrite Q1. 
  assert (Qv : 0 <= val m / val a <= 1). { split; [apply Rmult_le_pos; [lra|left; apply Rinv_0_lt_compat; lra]|]. apply Rmult_le_reg_r with (val a); [lra|]. unfold Rdiv. rewrite Rmult_assoc, Rinv_l by lra. lra. }
  set (q := val m / val a) in *. replace (q * (1 + d1) + e1 - M / T) with ((q - M / T) + (q * d1 + e1)) by ring. eapply Rle_trans; [apply Rabs_triang|].
  assert (Z1 : Rabs (q * d1 + e1) <= u + B (-1075)). { eapply Rle_trans; [apply Rabs_triang|]. rewrite Rabs_mult, (Rabs_right q) by lra. apply Rplus_le_compat; [|exact G1]. apply Rle_trans with (1 * u); [|lra]. apply Rmult_le_compat; try lra. apply Rabs_pos. }
  assert (Ue : u <= eps) by (apply bpow_le; lia). assert (B9 : B (-950) + B (-1075) <= B (-900)).
  { assert (B (-950) <= B (-901)) by (apply bpow_le; lia). assert (B (-1075) <= B (-901)) by (apply bpow_le; lia). replace (B (-900)) with (2 * B (-901)); [lra|]. change 2 with (B 1). rewrite <- bpow_plus. reflexivity. }
  unfold de in X. lra.
Qed.
Lemma fraction_flag k : snd (knn_fraction mask weight K r k nb) = true <-> (Z.of_nat (length (near r nb)) < k)%Z.
Proof. unfold knn_fraction. cbn [snd]. rewrite count_near by apply map_length. apply Z.ltb_lt. Qed.
End Fraction.

(** Sums depend on the neighbours' values only. *)
Lemma picked_leq y y' K r nb : Forall (fun p => leq (nth (snd p) y zero64) (nth (snd p) y' zero64)) nb -> kernel_ok K nb -> below (knn_sum y None K r nb) (knn_sum y' None K r nb).
Proof.
  intros H HK. apply sum_leq; [|intros w; apply kernel_weights, HK]. unfold pick. apply F2_map. clear HK. induction H as [|p nb Hp _ IH]; constructor; [exact Hp|exact IH].
Qed.
Lemma picked_zero y K r nb : Forall (fun p => fin (nth (snd p) y zero64) = true /\ val (nth (snd p) y zero64) = 0) nb -> kernel_ok K nb -> fin (knn_sum y None K r nb) = true /\ val (knn_sum y None K r nb) = 0.
Proof.
  intros H HK. assert (P : Forall (fun v => fin v = true /\ val v = 0) (pick y nb)) by (apply Forall_map; exact H). unfold knn_sum, f_sum. eapply (sums_zero _ _ _ (np_sum_adds _)). destruct (row_weight None K nb) as [w|] eqn:Ew, (row_mask r nb) as [m|].
  - apply times_zero_list; [exact P|]. apply times_bools. exact (kernel_weights K nb w HK Ew).
  - apply times_zero_list; [exact P|]. exact (kernel_weights K nb w HK Ew).
  - apply times_zero_list; [exact P|apply bools_nonneg].
  - exact P.
Qed.
