(** Proofs for C98, continued: sums and means over the neighbours. *)
From Coq Require Import ZArith Reals Lra Lia List Bool.
Require Import Flocq.Core.Core Flocq.IEEE754.BinarySingleNaN.
From Verif Require Import Base ProcFloat InterpFloatProofs MeshFloatModel MeshFloatProofs FredModel FredSpec FredProofs FredProofs2 NfltProofs FknnModel FknnSpec FknnProofs FknnProofs2.
Import ListNotations. Local Open Scope list_scope. Local Open Scope R_scope.

(** Few additions. *)
Lemma depth_small n : (Z.of_nat n <= 2 ^ 53)%Z -> INR (np_depth n) * eps <= / 8.
Proof.
  intros H. assert (L : (Nat.log2 (n / 56) <= 53)%nat).
  { destruct (Nat.eq_dec (n / 56) 0) as [->|N]; [cbn; lia|]. destruct (Nat.le_gt_cases (Nat.log2 (n / 56)) 53) as [C|C]; [exact C|exfalso]. unfold lt in C. apply (Nat.log2_le_pow2 (n / 56) 54) in C; [|lia].
    assert (D : (n / 56 <= n)%nat) by (apply Nat.div_le_upper_bound; lia). assert (G : (2 ^ 54 <= n)%nat) by (eapply Nat.le_trans; eassumption). apply Nat2Z.inj_le in G. rewrite Nat2Z.inj_pow in G. change (Z.of_nat 2 ^ Z.of_nat 54)%Z with (2 ^ 54)%Z in G. lia. }
  assert (D : INR (np_depth n) <= 79). { replace 79 with (INR 79) by (rewrite INR_IZR_INZ; reflexivity). apply le_INR. unfold np_depth. lia. }
  unfold eps. assert (E : B (-52) <= B (-10)) by (apply bpow_le; lia). change (B (-10)) with (/ 1024) in E. pose proof (bpow_gt_0 radix2 (-52)). apply Rle_trans with (79 * / 1024); [|lra].
  apply Rmult_le_compat; try lra. apply pos_INR.
Qed.

(** The chosen entries of arrays with one entry for each neighbour. *)
Lemma chosen_by {A C} (f : A -> C) (c : A -> bool) l : map fst (filter (fun p => snd p) (combine (map f l) (map c l))) = map f (filter c l).
Proof. induction l as [|p l IH]; [reflexivity|]. cbn [map combine filter snd]. destruct (c p); cbn [map fst]; [f_equal|]; exact IH. Qed.
Lemma chosen_near {A} (f : b64 * nat -> A) r nb : chosen (row_mask r nb) (map f nb) = map f (near r nb).
Proof.
  destruct r as [r|]; cbn [row_mask option_map chosen near]; [|reflexivity]. apply (chosen_by f (fun p => Bltb (fst p) r) nb).
Qed.
Lemma row_none w nb : row_weight w None nb = option_map (fun w => pick w nb) w.
Proof. reflexivity. Qed.
Definition row_of (w : option (list b64)) (K : option (b64 -> b64)) (p : b64 * nat) : b64 :=
  match w, K with
  | None, None => of_Z64 1 | Some w, None => nth (snd p) w zero64 | None, Some k => k (fst p) | Some w, Some k => mul64 (nth (snd p) w zero64) (k (fst p))
  end.
Lemma row_some w K nb ws : row_weight w K nb = Some ws -> ws = map (row_of w K) nb.
Proof.
  unfold row_weight. destruct K as [k|], w as [w|]; cbn [option_map]; intros E; try discriminate; injection E as <-; try reflexivity.
  unfold times, pick. induction nb as [|p nb IH]; [reflexivity|]. cbn [map combine fst snd]. f_equal. exact IH.
Qed.
Lemma row_nothing w K nb : row_weight w K nb = None -> w = None /\ K = None.
Proof. destruct w, K; cbn; intros; try discriminate; auto. Qed.
Lemma row_facts n w K nb : weights_ok n w -> kernel_ok K nb -> moderate w K nb -> Forall (fun p => nonneg (row_of w K p) /\ val (row_of w K p) = wt w K p) nb.
Proof.
  intros W HK M. apply Forall_forall. intros p Hp. destruct w as [w|], K as [k|]; cbn [row_of wt].
  - assert (A : nonneg (nth (snd p) w zero64)) by (destruct (nth_in_or_default (snd p) w zero64) as [I| ->]; [destruct (W w eq_refl) as [F _]; rewrite Forall_forall in F; exact (F _ I)|destruct zero64_facts as [F V]; split; [exact F|rewrite V; lra]]).
    specialize (HK k eq_refl). rewrite Forall_forall in HK. specialize (HK p Hp). specialize (M w k eq_refl eq_refl). rewrite Forall_forall in M. specialize (M p Hp).
    destruct A as [Fa Pa], HK as [Fb Pb]. assert (P : 0 <= val (nth (snd p) w zero64) * val (k (fst p))) by (apply Rmult_le_pos; assumption).
    destruct (mul64_b _ _ Fa Fb) as [F V]; [rewrite Rabs_right by lra; eapply Rle_trans; [exact M|apply bpow_le; lia]|]. split; [split; [exact F|]|exact V]. rewrite V. apply rnd64_pos. exact P.
  - split; [|reflexivity]. destruct (nth_in_or_default (snd p) w zero64) as [I| ->]; [destruct (W w eq_refl) as [F _]; rewrite Forall_forall in F; exact (F _ I)|destruct zero64_facts as [F V]; split; [exact F|rewrite V; lra]].
  - split; [|reflexivity]. specialize (HK k eq_refl). rewrite Forall_forall in HK. exact (HK p Hp).
  - destruct (of_Z64_exact 1 ltac:(lia)) as [V F]. split; [split; [exact F|rewrite V; lra]|exact V].
Qed.
Lemma mask_length r nb m : row_mask r nb = Some m -> length m = length nb.
Proof. destruct r; cbn; intros E; [injection E as <-; apply map_length|discriminate]. Qed.
Lemma near_incl r nb p : In p (near r nb) -> In p nb.
Proof. destruct r; cbn [near]; [|auto]. intros H. apply filter_In in H. apply H. Qed.
Lemma count_by {A} (c : A -> bool) l : length (filter (fun b : bool => b) (map c l)) = length (filter c l).
Proof. induction l as [|p l IH]; [reflexivity|]. cbn [map filter]. destruct (c p); cbn [length]; rewrite IH; reflexivity. Qed.
Lemma count_near x r nb : length x = length nb -> f_count x (row_mask r nb) = length (near r nb).
Proof. intros L. destruct r as [r|]; cbn [row_mask option_map f_count near]; [|exact L]. apply (count_by (fun p : b64 * nat => Bltb (fst p) r) nb). Qed.

Section Row.
Context (n : nat) (w : option (list b64)) (K : option (b64 -> b64)) (nb : neighbours) (r : option b64) (y : list b64).
Hypothesis (W : weights_ok n w) (HK : kernel_ok K nb) (M : moderate w K nb) (Y : finite y) (N : (Z.of_nat (length nb) <= 2 ^ 53)%Z).
Lemma pick_finite : finite (pick y nb).
Proof. apply Forall_forall. intros v Hv. apply in_map_iff in Hv. destruct Hv as (p & <- & _). unfold finite in Y. rewrite Forall_forall in Y. destruct (nth_in_or_default (snd p) y zero64) as [I| ->]; [apply Y, I|apply zero64_facts]. Qed.
Lemma row_formed : well_formed (pick y nb) (row_weight w K nb) (row_mask r nb).
Proof.
  split; [exact pick_finite|]. unfold pick. split; rewrite map_length; [|intros m; apply mask_length]. intros ws E. apply row_some in E. subst ws. rewrite map_length. split; [|reflexivity].
  pose proof (row_facts n w K nb W HK M) as F. apply Forall_forall. intros v Hv. apply in_map_iff in Hv. destruct Hv as (p & <- & Hp). rewrite Forall_forall in F. apply F, Hp.
Qed.
Lemma combine_map {A B C} (f : A -> B) (g : A -> C) l : combine (map f l) (map g l) = map (fun p => (f p, g p)) l.
Proof. induction l as [|a l IH]; [reflexivity|]. cbn. rewrite IH. reflexivity. Qed.
Lemma row_contributions : contributions (pick y nb) (row_weight w K nb) (row_mask r nb) = map (fun p => val (nth (snd p) y zero64) * wt w K p) (near r nb).
Proof.
  pose proof (row_facts n w K nb W HK M) as F. rewrite Forall_forall in F. unfold contributions. destruct (row_weight w K nb) as [ws|] eqn:E.
  - apply row_some in E. subst ws. unfold pick. rewrite combine_map, map_map. cbn [fst snd]. rewrite (chosen_near (fun p => val (nth (snd p) y zero64) * val (row_of w K p))).
    apply map_ext_in. intros p Hp. apply near_incl in Hp. destruct (F p Hp) as [_ ->]. reflexivity.
  - apply row_nothing in E. destruct E as [-> ->]. unfold pick. rewrite map_map, (chosen_near (fun p => val (nth (snd p) y zero64))). apply map_ext. intros p. cbn [wt]. ring.
Qed.
Lemma row_sum : Forall (fun p => Rabs (val (nth (snd p) y zero64)) <= B 400 /\ wt w K p <= B 400) nb ->
  fin (knn_sum y w K r nb) = true /\
  Rabs (val (knn_sum y w K r nb) - weighted y w K (near r nb)) <= (INR (np_depth (length nb)) + 1) * eps * Rsize (map (fun p => val (nth (snd p) y zero64) * wt w K p) (near r nb)) + INR (length nb) * B (-1074).
Proof.
  intros H. pose proof row_formed as Wf. pose proof row_contributions as C. assert (L : length (pick y nb) = length nb) by apply map_length.
  destruct (sum_weighted np_sum np_depth (pick y nb) (row_weight w K nb) (row_mask r nb) np_sum_adds Wf) as [F E]; rewrite ?L, ?C in *.
  - exact N.
  - pose proof (depth_small _ N). lra.
  - assert (Z : forall l, (forall p, In p l -> In p nb) -> Rsize (map (fun p => val (nth (snd p) y zero64) * wt w K p) l) <= INR (length l) * B 800).
    { induction l as [|p l IH]; intros I; [cbn; lra|]. cbn [map length]. unfold Rsize, Rsum. cbn [map fold_right]. rewrite S_INR. fold (Rsum (map Rabs (map (fun p => val (nth (snd p) y zero64) * wt w K p) l))). fold (Rsize (map (fun p => val (nth (snd p) y zero64) * wt w K p) l)).
      specialize (IH (fun q Hq => I q (or_intror Hq))). rewrite Forall_forall in H. destruct (H p (I p (or_introl eq_refl))) as [H1 H2]. pose proof (row_facts n w K nb W HK M) as Fr. rewrite Forall_forall in Fr. destruct (Fr p (I p (or_introl eq_refl))) as [[_ P] V]. rewrite V in P.
      assert (Rabs (val (nth (snd p) y zero64) * wt w K p) <= B 800). { rewrite Rabs_mult, (Rabs_right (wt w K p)) by lra. change 800%Z with (400 + 400)%Z. rewrite bpow_plus. apply Rmult_le_compat; try assumption. apply Rabs_pos. } lra. }
    eapply Rle_trans; [apply Z; intros p; apply near_incl|]. assert (Ln : INR (length (near r nb)) <= B 53).
    { rewrite INR_IZR_INZ. change (B 53) with (IZR (2 ^ 53)). apply IZR_le. destruct r as [r'|]; cbn [near]; [|exact N]. eapply Z.le_trans; [|exact N]. apply Nat2Z.inj_le. apply filter_le. }
    apply Rle_trans with (B 53 * B 800); [apply Rmult_le_compat_r; [apply bpow_ge_0|exact Ln]|]. rewrite <- bpow_plus. apply bpow_le. lia.
  - split; [exact F|exact E].
Qed.
Lemma row_mean fill X : near r nb <> [] -> Forall (fun p => Rabs (val (nth (snd p) y zero64)) <= X) (near r nb) -> B (-900) <= weights w K (near r nb) <= B 510 -> X <= B 510 ->
  fin (knn_mean fill y w K r nb) = true /\ Rabs (val (knn_mean fill y w K r nb) - weighted y w K (near r nb) / weights w K (near r nb)) <= (4 * INR (np_depth (length nb)) + 4) * eps * X + B (-100).
Proof.
  intros Ne HX HS XB. pose proof row_formed as Wf. pose proof row_contributions as C. assert (L : length (pick y nb) = length nb) by apply map_length. unfold knn_mean, weighted.
  pose proof (row_facts n w K nb W HK M) as F. rewrite Forall_forall in F.
  destruct (row_weight w K nb) as [ws|] eqn:E.
  - pose proof (row_some _ _ _ _ E) as Ew.
    assert (S : Rsum (contributions ws None (row_mask r nb)) = weights w K (near r nb)).
    { unfold contributions, weights. rewrite Ew, map_map, (chosen_near (fun p => val (row_of w K p))). f_equal. apply map_ext_in. intros p Hp. apply F. eapply near_incl, Hp. }
    pose proof (mean_weighted np_sum np_depth fill (pick y nb) ws (row_mask r nb) X np_sum_adds Wf) as Q. cbn zeta in Q. rewrite L, S, C in Q. apply Q.
    + exact N.
    + apply depth_small, N.
    + rewrite Ew. apply Forall_forall. intros v Hv. apply in_map_iff in Hv. destruct Hv as (p & <- & Hp). destruct (F p Hp) as [[_ P] _]. exact P.
    + unfold pick. rewrite (chosen_near (fun p => nth (snd p) y zero64)). apply Forall_map. exact HX.
    + exact HS.
    + exact XB.
  - apply row_nothing in E. destruct E as [-> ->]. pose proof (mean_plain np_sum np_depth fill (pick y nb) (row_mask r nb) np_sum_adds Wf) as Q. cbn zeta in Q. rewrite L, C, map_length in Q. pose proof (depth_small _ N) as D.
    assert (K1 : (1 <= length (near r nb))%nat) by (destruct (near r nb); [congruence|cbn; lia]). assert (Kp : 1 <= INR (length (near r nb))) by (apply (le_INR 1); exact K1).
    assert (Sk : weights None None (near r nb) = INR (length (near r nb))). { unfold weights. generalize (near r nb). intros l. induction l as [|p l IH]; [reflexivity|]. cbn [map length]. unfold Rsum in *. cbn [fold_right]. rewrite S_INR, IH. cbn [wt]. ring. }
    assert (Z : Rsize (map (fun p => val (nth (snd p) y zero64) * wt None None p) (near r nb)) <= INR (length (near r nb)) * X).
    { clear - HX. induction HX as [|p l H _ IH]; [cbn; lra|]. cbn [map length]. unfold Rsize, Rsum in *. cbn [map fold_right]. rewrite S_INR. cbn [wt] in *. rewrite Rmult_1_r. lra. }
    set (k := INR (length (near r nb))) in *. rewrite Sk in *. destruct HS as [_ HS]. set (z := Rsize (map (fun p => val (nth (snd p) y zero64) * wt None None p) (near r nb))) in *.
    assert (Z' : z / k <= X) by (apply Rmult_le_reg_r with k; [lra|]; unfold Rdiv; rewrite Rmult_assoc, Rinv_l by lra; lra).
    assert (Zp : 0 <= z / k) by (apply Rmult_le_pos; [apply Rsize_pos|left; apply Rinv_0_lt_compat; lra]).
    destruct Q as [Fm Em].
    + exact N.
    + lra.
    + intros En. apply map_eq_nil in En. congruence.
    + eapply Rle_trans; [exact Z|]. apply Rle_trans with (B 510 * B 510); [apply Rmult_le_compat; lra|]. rewrite <- bpow_plus. apply bpow_le. lia.
    + split; [exact Fm|]. eapply Rle_trans; [exact Em|]. set (d := INR (np_depth (length nb))) in *. assert (D0 : 0 <= d) by apply pos_INR. assert (E0 : 0 < eps) by apply bpow_gt_0.
      apply Rplus_le_compat; [|apply bpow_le; lia]. apply Rmult_le_compat; [apply Rmult_le_pos; lra|exact Zp| |exact Z']. apply Rmult_le_compat_r; lra.
Qed.
End Row.

Lemma weighted_range y w K l lo hi : Forall (fun p => 0 <= wt w K p /\ lo <= val (nth (snd p) y zero64) <= hi) l -> 0 < weights w K l -> lo <= weighted y w K l / weights w K l <= hi.
Proof.
  intros H P. assert (Sb : lo * weights w K l <= weighted y w K l <= hi * weights w K l).
  { clear P. induction H as [|p l [Hp [H1 H2]] _ IH]; [cbn; lra|]. unfold weighted, weights, Rsum in *. cbn [map fold_right]. assert (lo * wt w K p <= val (nth (snd p) y zero64) * wt w K p <= hi * wt w K p) by (split; apply Rmult_le_compat_r; assumption). lra. }
  split; (apply Rmult_le_reg_r with (weights w K l); [exact P|]); unfold Rdiv; rewrite Rmult_assoc, Rinv_l by lra; lra.
Qed.
