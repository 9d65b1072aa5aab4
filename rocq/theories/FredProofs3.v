(** Proofs for C89: standard deviations. *)
From Coq Require Import ZArith Reals Lra Lia List Permutation.
Require Import Flocq.Core.Core Flocq.IEEE754.BinarySingleNaN.
From Verif Require Import Base ProcFloat InterpFloatProofs MeshFloatProofs BinFloatProofs FredModel FredSpec FredProofs FredProofs2.
Import ListNotations. Local Open Scope list_scope. Local Open Scope R_scope.

Lemma sqrt64_val x : fin x = true -> 0 <= val x -> fin (sqrt64 x) = true /\ val (sqrt64 x) = rnd64 (sqrt (val x)).
Proof.
  intros F P. destruct (Bsqrt_correct 53 1024 p53 pe53 mode_NE x) as (V & Fs & _). split; [|exact V]. unfold fin, sqrt64 in *. rewrite Fs. destruct x as [s|s| |s m e h]; try discriminate; [reflexivity|]. destruct s; [|reflexivity].
  exfalso. unfold val in P. cbn [B2R] in P. pose proof (F2R_lt_0 radix2 (Float radix2 (cond_Zopp true (Zpos m)) e)) as N. cbn [Fnum] in N. cbn [cond_Zopp] in *. specialize (N ltac:(lia)). lra.
Qed.
Lemma chosen_map {A B} (f : A -> B) m (l : list A) : chosen m (map f l) = map f (chosen m l).
Proof. destruct m as [m|]; cbn [chosen]; [|reflexivity]. revert m. induction l as [|a l IH]; intros [|b m]; try reflexivity. cbn [map combine filter snd]. destruct b; cbn [map fst]; rewrite IH; reflexivity. Qed.
Lemma chosen_In {A} m (l : list A) a : In a (chosen m l) -> In a l.
Proof. destruct m as [m|]; cbn [chosen]; [|tauto]. intros H. apply in_map_iff in H. destruct H as ((a' & b) & <- & Hin). apply filter_In in Hin. destruct Hin as [Hin _]. apply in_combine_l in Hin. exact Hin. Qed.
Lemma chosen_ext {A B} (f : A -> B) (P : B -> Prop) m l : (forall a, In a (chosen m l) -> P (f a)) -> Forall P (chosen m (map f l)).
Proof. rewrite chosen_map. intros H. apply Forall_map, Forall_forall. exact H. Qed.
Lemma Rsum_le l M : Forall (fun v => v <= M) l -> Rsum l <= INR (length l) * M.
Proof. unfold Rsum. induction 1 as [|v l H _ IH]; [cbn; lra|]. cbn [fold_right length]. rewrite S_INR. lra. Qed.
Lemma Rsize_le l M : Forall (fun v => Rabs v <= M) l -> Rsize l <= INR (length l) * M.
Proof. intros H. unfold Rsize. rewrite <- (map_length Rabs l). apply Rsum_le, Forall_map. exact H. Qed.
Lemma Rsum_const l c : Forall (fun v => v = c) l -> Rsum l = INR (length l) * c.
Proof. unfold Rsum. induction 1 as [|v l -> _ IH]; [cbn; ring|]. cbn [fold_right length]. rewrite S_INR, IH. ring. Qed.
Lemma Rsize_const l c : Forall (fun v => v = c) l -> Rsize l = INR (length l) * Rabs c.
Proof. intros H. unfold Rsize. rewrite <- (map_length Rabs l). apply Rsum_const, Forall_map. eapply Forall_impl; [|exact H]. cbn. intros a ->. reflexivity. Qed.

Definition deviations (mu : b64) (x : list b64) : list b64 := map (fun v => sub64 v mu) x.
Lemma squares_map dx : times dx dx = map (fun v => mul64 v v) dx.
Proof. unfold times. induction dx as [|v dx IH]; [reflexivity|]. cbn [combine map fst snd]. rewrite IH. reflexivity. Qed.
Lemma contrib_length x m : well_formed x None m -> length (contributions x None m) = length (chosen m x).
Proof. intros W. unfold contributions. rewrite chosen_map, map_length. reflexivity. Qed.

Lemma same_nonneg P T : Forall2 same P T -> Forall (fun v => 0 <= v) T -> Forall (fun p => fin p = true /\ 0 <= val p) P.
Proof. induction 1 as [|p t P T [F V] H IH]; intros MN; constructor; inversion MN; subst; [split; assumption|apply IH; assumption]. Qed.

Lemma masked_nonneg m t : Forall (fun v => 0 <= v) t -> Forall (fun v => 0 <= v) (masked m t).
Proof. intros H. destruct m as [m|]; [|exact H]. cbn [masked]. apply Forall_map, Forall_forall. intros (v & b) Hv. cbn [fst snd]. destruct b; [|lra]. apply in_combine_l in Hv. rewrite Forall_forall in H. apply H, Hv. Qed.

Section Std.
  Variables (total : list b64 -> b64) (D : nat -> nat) (fill : b64) (x : list b64) (m : option (list bool)).
  Hypothesis A : adds total D.
  Hypothesis W : well_formed x None m.
  Hypothesis Hn : (Z.of_nat (length x) <= 2 ^ 53)%Z.
  Hypothesis Hd : INR (D (length x)) * eps <= / 8.
  Hypothesis Hx : Forall (fun v => Rabs (val v) <= B 480) x.
  Hypothesis Ne : chosen m x <> [].
  Let c := contributions x None m.
  Let k := INR (length c).
  Let mu := f_mean total fill x None m.
  Let sq v := mul64 (sub64 v mu) (sub64 v mu).
  Lemma cne : c <> [].
  Proof. intros E. apply Ne. unfold c in E. apply (f_equal (@length R)) in E. rewrite (contrib_length _ _ W) in E. destruct (chosen m x); [reflexivity|discriminate]. Qed.
  Lemma k1 : 1 <= k.
  Proof. pose proof cne as H. unfold k. apply (le_INR 1). destruct c; [congruence|cbn; lia]. Qed.
  Lemma k53 : k <= B 53.
  Proof. unfold k. rewrite INR_IZR_INZ. change (B 53) with (IZR (2 ^ 53)). apply IZR_le. pose proof (count_contrib _ _ _ W) as C. fold c in C. pose proof (count_le _ _ W). lia. Qed.
  Lemma size480 : Rsize c <= k * B 480.
  Proof. apply Rsize_le. unfold c, contributions. apply chosen_ext. intros a Ha. apply chosen_In in Ha. rewrite Forall_forall in Hx. apply Hx, Ha. Qed.
  Lemma mean_val : fin mu = true /\ Rabs (val mu - Rsum c / k) <= (INR (D (length x)) + 1) * eps * (Rsize c / k) + eta.
  Proof.
    apply mean_plain; try assumption; [lra|exact cne|]. fold c. eapply Rle_trans; [exact size480|]. apply Rle_trans with (B 53 * B 480); [apply Rmult_le_compat_r; [apply bpow_ge_0|exact k53]|]. rewrite <- bpow_plus. apply bpow_le. lia.
  Qed.
  Lemma mean_480 : Rabs (val mu) <= 2 * B 480.
  Proof.
    destruct mean_val as [_ E]. pose proof k1 as K. pose proof size480 as S. pose proof (Rsize_pos c) as S0. pose proof (Rsum_size c) as Sz. assert (T0 : 0 <= INR (D (length x)) * eps) by (apply Rmult_le_pos; [apply pos_INR|unfold eps; apply bpow_ge_0]).
    assert (Q : Rsize c / k <= B 480) by (apply (Rmult_le_reg_r k); [lra|]; unfold Rdiv; rewrite Rmult_assoc, Rinv_l by lra; lra). assert (Q0 : 0 <= Rsize c / k) by (apply Rmult_le_pos; [exact S0|left; apply Rinv_0_lt_compat; lra]).
    assert (M : Rabs (Rsum c / k) <= B 480). { unfold Rdiv. rewrite Rabs_mult, (Rabs_right (/ k)) by (left; apply Rinv_0_lt_compat; lra). eapply Rle_trans; [|exact Q]. apply Rmult_le_compat_r; [left; apply Rinv_0_lt_compat; lra|exact Sz]. }
    pose proof eps_u as EU. pose proof small_facts as (F1 & _). assert (ET : eta <= / 4 * B 480). { replace (/ 4) with (B (-2)) by reflexivity. rewrite <- bpow_plus. apply bpow_le. lia. }
    assert (T : (INR (D (length x)) + 1) * eps * (Rsize c / k) <= / 4 * B 480). { apply Rmult_le_compat; try lra; rewrite Rmult_plus_distr_r, Rmult_1_l, EU in *; lra. }
    replace (val mu) with ((val mu - Rsum c / k) + Rsum c / k) by ring. eapply Rle_trans; [apply Rabs_triang|]. lra.
  Qed.
  Lemma dev_val v : In v x -> fin (sub64 v mu) = true /\ Rabs (val (sub64 v mu)) <= (1 + u) * Rabs (val v - val mu) /\ Rabs (val (sub64 v mu)) <= B 482.
  Proof.
    intros Hv. destruct mean_val as [Fm _]. pose proof mean_480 as Mb. rewrite Forall_forall in Hx. specialize (Hx v Hv). destruct W as (Fx & _). unfold finite in Fx. rewrite Forall_forall in Fx. specialize (Fx v Hv).
    assert (DB : Rabs (val v - val mu) <= 3 * B 480) by (eapply Rle_trans; [apply Rabs_triang|]; rewrite Rabs_Ropp; lra).
    assert (B482 : B 482 = 4 * B 480) by (change 482%Z with (2 + 480)%Z; rewrite bpow_plus; reflexivity). pose proof (bpow_gt_0 radix2 480).
    destruct (sub64_b v mu Fx Fm) as [F V]; [eapply Rle_trans; [exact DB|]; apply Rle_trans with (B 482); [lra|apply bpow_le; lia]|]. split; [exact F|]. rewrite V. split; [|apply rnd64_bound; [lia|lra]].
    destruct (minus_rel v mu) as (d & Hd' & E). rewrite E, Rabs_mult, Rmult_comm. apply Rmult_le_compat_r; [apply Rabs_pos|]. eapply Rle_trans; [apply Rabs_triang|]. rewrite Rabs_R1. lra.
  Qed.
  Lemma sq_val v : In v x -> fin (sq v) = true /\ 0 <= val (sq v) <= (1 + u) ^ 3 * (val v - val mu) ^ 2 + eta /\ val (sq v) <= B 964.
  Proof.
    intros Hv. destruct (dev_val v Hv) as (F & E1 & E2). set (a := val (sub64 v mu)) in *. assert (SQ : Rabs (a * a) <= B 964). { rewrite Rabs_mult. change 964%Z with (482 + 482)%Z. rewrite bpow_plus. apply Rmult_le_compat; try apply Rabs_pos; assumption. }
    assert (N : 0 <= a * a) by apply Rle_0_sqr. destruct (mul64_b (sub64 v mu) (sub64 v mu) F F) as [Fs Vs]; [eapply Rle_trans; [exact SQ|apply bpow_le; lia]|]. split; [exact Fs|]. fold a in Vs. unfold sq. rewrite Vs.
    split; [split|].
    - apply rnd64_pos, N.
    - destruct (err64 (a * a)) as (d & e & H1 & H2 & _ & E). rewrite E. apply Rabs_le_inv in H1, H2. assert (Q : a * a <= (1 + u) ^ 2 * (val v - val mu) ^ 2).
      { replace (a * a) with (Rabs a * Rabs a) by (rewrite <- Rabs_mult, Rabs_right; [reflexivity|lra]). replace ((val v - val mu) ^ 2) with (Rabs (val v - val mu) * Rabs (val v - val mu)) by (rewrite <- Rabs_mult, Rabs_right; [ring|apply Rle_ge, Rle_0_sqr]).
        replace ((1 + u) ^ 2 * (Rabs (val v - val mu) * Rabs (val v - val mu))) with (((1 + u) * Rabs (val v - val mu)) * ((1 + u) * Rabs (val v - val mu))) by ring. apply Rmult_le_compat; try apply Rabs_pos; assumption. }
      pose proof u0 as U. apply Rle_trans with (a * a * (1 + u) + eta); [apply Rplus_le_compat; [apply Rmult_le_compat_l; lra|lra]|]. apply Rplus_le_compat_r. replace ((1 + u) ^ 3 * (val v - val mu) ^ 2) with ((1 + u) ^ 2 * (val v - val mu) ^ 2 * (1 + u)) by ring. apply Rmult_le_compat_r; [lra|exact Q].
    - pose proof (rnd64_bound (a * a) 964 ltac:(lia) SQ) as Bd. apply Rabs_le_inv in Bd. lra.
  Qed.
  Let y := map sq x.
  Lemma std_is : f_std total fill x None m = sqrt64 (f_mean total fill y None m).
  Proof. unfold f_std. fold mu. rewrite squares_map, map_map. reflexivity. Qed.
  Lemma wf_y : well_formed y None m.
  Proof. destruct W as (F & _ & L). split; [|split; [discriminate|]]. - apply Forall_map, Forall_forall. intros v Hv. apply sq_val, Hv. - intros m' E. unfold y. rewrite map_length. apply L, E. Qed.
  Lemma y_contrib : contributions y None m = map (fun v => val (sq v)) (chosen m x).
  Proof. unfold contributions, y. rewrite map_map, chosen_map. reflexivity. Qed.
  Lemma y_nonneg : Forall (fun v => 0 <= v) (contributions y None m).
  Proof. rewrite y_contrib. apply Forall_map, Forall_forall. intros v Hv. apply sq_val. eapply chosen_In; exact Hv. Qed.
  Lemma y_size M : Forall (fun v => val (sq v) <= M) (chosen m x) -> Rsize (contributions y None m) <= k * M.
  Proof. intros H. rewrite Rsum_nonneg by exact y_nonneg. replace k with (INR (length (contributions y None m))); [|unfold k, c; rewrite (contrib_length _ _ wf_y), (contrib_length _ _ W); unfold y; rewrite chosen_map, map_length; reflexivity]. apply Rsum_le. rewrite y_contrib. apply Forall_map. exact H. Qed.
  Lemma var_val M : Forall (fun v => val (sq v) <= M) (chosen m x) -> M <= B 964 -> let v := f_mean total fill y None m in fin v = true /\ 0 <= val v /\ val v <= 5 / 4 * M + eta.
  Proof.
    intros HM MB v. pose proof k1 as K. pose proof k53 as K2. pose proof (y_size M HM) as Sz. set (cy := contributions y None m) in *.
    assert (Lc : length cy = length c). { unfold cy, c. rewrite (contrib_length _ _ wf_y), (contrib_length _ _ W). unfold y. rewrite chosen_map, map_length. reflexivity. }
    assert (SB : Rsize cy <= B 1022). { eapply Rle_trans; [exact Sz|]. apply Rle_trans with (k * B 964); [apply Rmult_le_compat_l; lra|]. apply Rle_trans with (B 53 * B 964); [apply Rmult_le_compat_r; [apply bpow_ge_0|exact K2]|]. rewrite <- bpow_plus. apply bpow_le; lia. }
    assert (Ly : length y = length x) by (unfold y; apply map_length).
    destruct (mean_plain total D fill y m A wf_y) as [Fv Ev]; [rewrite Ly; exact Hn|rewrite Ly; lra|fold cy; intros E; apply cne; unfold cy in E; apply length_zero_iff_nil; rewrite <- Lc; unfold cy; rewrite E; reflexivity|exact SB|]. fold cy in Ev. fold v in Fv, Ev. split; [exact Fv|]. rewrite Lc, Ly in Ev. fold k in Ev.
    split.
    - unfold v, f_mean. pose proof (count_contrib _ _ _ wf_y) as C. fold cy in C. rewrite C, Lc. assert (1 <= length c)%nat by (apply INR_le; exact K). destruct (Nat.ltb_spec (length c) 1); [lia|].
      destruct (sum_plain total D y m A wf_y) as [Fs Es]; [rewrite Ly; lra|exact SB|]. rewrite f_sum_products in *. pose proof (products_same _ _ wf_y) as P. pose proof (same_sum _ _ P) as (Fp & Ep & Sp & Lp). rewrite (masked_length _ _ _ wf_y) in Lp.
      assert (PN : Forall (fun p => fin p = true /\ 0 <= val p) (products y None m)).
      { assert (MN : Forall (fun v => 0 <= v) (masked m (base y None))). { apply masked_nonneg. unfold base. apply Forall_map, Forall_forall. intros q Hq. unfold y in Hq. apply in_map_iff in Hq. destruct Hq as (z & <- & Hz). apply sq_val, Hz. }
        exact (same_nonneg _ _ P MN). }
      destruct (sums_nonneg _ _ _ (A (products y None m)) PN Fs) as [N _].
      destruct (of_Z64_exact (Z.of_nat (length c))) as [Vk Fk]; [pose proof (count_le _ _ W) as CL; rewrite (count_contrib _ _ _ W) in CL; fold c in CL; lia|]. rewrite <- INR_IZR_INZ in Vk. fold k in Vk.
      set (s := total (products y None m)) in *. assert (Sb : Rabs (val s / k) <= B 1023).
      { unfold Rdiv. rewrite Rabs_mult, (Rabs_right (/ k)) by (left; apply Rinv_0_lt_compat; lra). apply Rle_trans with (Rabs (val s) * 1); [apply Rmult_le_compat_l; [apply Rabs_pos|]; rewrite <- Rinv_1; apply Rinv_le_contravar; lra|]. rewrite Rmult_1_r.
        replace (val s) with ((val s - Rsum (contributions y None m)) + Rsum (contributions y None m)) by ring. eapply Rle_trans; [apply Rabs_triang|]. pose proof (Rsum_size (contributions y None m)) as Z. fold cy in Z, Es |- *. rewrite Ly in Es.
        assert (INR (D (length x)) * eps * Rsize cy <= 1 * Rsize cy) by (apply Rmult_le_compat_r; [apply Rsize_pos|lra]). replace (B 1023) with (2 * B 1022); [lra|]. change 1023%Z with (1 + 1022)%Z. rewrite bpow_plus. reflexivity. }
      destruct (div64_b s (of_Z64 (Z.of_nat (length c))) Fs) as [_ Vm]; rewrite ?Vk; [lra|exact Sb|]. rewrite Vm, Vk. apply rnd64_pos. apply Rmult_le_pos; [exact N|left; apply Rinv_0_lt_compat; lra].
    - assert (Q : Rsize cy / k <= M) by (apply (Rmult_le_reg_r k); [lra|]; unfold Rdiv; rewrite Rmult_assoc, Rinv_l by lra; lra). assert (Q0 : 0 <= Rsize cy / k) by (apply Rmult_le_pos; [apply Rsize_pos|left; apply Rinv_0_lt_compat; lra]).
      rewrite <- (Rsum_nonneg cy y_nonneg) in Ev. pose proof eps_u as EU. pose proof small_facts as (F1 & _). assert (T0 : 0 <= INR (D (length x)) * eps) by (apply Rmult_le_pos; [apply pos_INR|unfold eps; apply bpow_ge_0]).
      assert (T : (INR (D (length x)) + 1) * eps * (Rsize cy / k) <= / 4 * M). { apply Rmult_le_compat; try lra; rewrite Rmult_plus_distr_r, Rmult_1_l, EU in *; lra. }
      apply Rabs_le_inv in Ev. lra.
  Qed.
  Lemma std_ok : let sd := f_std total fill x None m in fin sd = true /\ 0 <= val sd.
  Proof.
    intros sd. unfold sd. rewrite std_is. destruct (var_val (B 964)) as (F & P & _); [apply Forall_forall; intros v Hv; apply sq_val; eapply chosen_In; exact Hv|lra|].
    destruct (sqrt64_val _ F P) as [Fs Vs]. split; [exact Fs|]. rewrite Vs. apply rnd64_pos, sqrt_pos.
  Qed.
  Lemma std_constant v0 : Forall (fun v => val v = v0) (chosen m x) -> val (f_std total fill x None m) <= 2 * (INR (D (length x)) + 1) * eps * Rabs v0 + B (-534).
  Proof.
    intros Hc. assert (Cc : Forall (fun v => v = v0) c) by (unfold c, contributions; apply chosen_ext; rewrite Forall_forall in Hc; exact Hc).
    pose proof k1 as K. destruct mean_val as [_ E]. rewrite (Rsum_const _ _ Cc), (Rsize_const _ _ Cc) in E. fold k in E. replace (k * v0 / k) with v0 in E by (field; lra). replace (k * Rabs v0 / k) with (Rabs v0) in E by (field; lra).
    set (t := (INR (D (length x)) + 1) * eps) in *. pose proof eps_u as EU. pose proof small_facts as (F1 & _). pose proof u0 as U. assert (D0 : 0 <= INR (D (length x)) * eps) by (apply Rmult_le_pos; [apply pos_INR|unfold eps; apply bpow_ge_0]).
    assert (T0 : 0 <= t <= / 4) by (unfold t; rewrite Rmult_plus_distr_r, Rmult_1_l; rewrite EU in *; lra).
    set (dl := t * Rabs v0 + eta) in *. assert (ET : 0 < eta) by apply bpow_gt_0. assert (DL : 0 < dl) by (unfold dl; pose proof (Rabs_pos v0); assert (0 <= t * Rabs v0) by (apply Rmult_le_pos; lra); lra).
    set (M := 33 / 32 * dl ^ 2 + eta).
    assert (P3 : (1 + u) ^ 3 <= 33 / 32). { apply Rle_trans with ((1 + / 1024) ^ 3); [apply pow_incr; lra|lra]. }
    assert (HM : Forall (fun v => val (sq v) <= M) (chosen m x)).
    { apply Forall_forall. intros v Hv. rewrite Forall_forall in Hc. destruct (sq_val v (chosen_In _ _ _ Hv)) as (_ & [_ L] & _). eapply Rle_trans; [exact L|]. unfold M. apply Rplus_le_compat_r. rewrite (Hc v Hv).
      apply Rmult_le_compat; [apply pow_le; lra|apply pow2_ge_0|exact P3|]. replace (dl ^ 2) with (dl * dl) by ring. replace ((v0 - val mu) ^ 2) with (Rabs (val mu - v0) * Rabs (val mu - v0)) by (rewrite <- Rabs_mult, Rabs_right; [ring|apply Rle_ge, Rle_0_sqr]). apply Rmult_le_compat; try apply Rabs_pos; assumption. }
    assert (V0 : Rabs v0 <= B 480). { destruct (chosen m x) as [|v l] eqn:Ec; [congruence|]. inversion Hc; subst. rewrite Forall_forall in Hx. apply Hx. apply (chosen_In m). rewrite Ec. left. reflexivity. }
    assert (MB : M <= B 964). { unfold M. assert (dl <= B 480). { unfold dl. assert (t * Rabs v0 <= / 4 * B 480) by (apply Rmult_le_compat; try lra; apply Rabs_pos). assert (eta <= / 4 * B 480); [|lra]. replace (/ 4) with (B (-2)) by reflexivity. rewrite <- bpow_plus. apply bpow_le. lia. }
      assert (dl ^ 2 <= B 960) by (change 960%Z with (480 + 480)%Z; rewrite bpow_plus; replace (dl ^ 2) with (dl * dl) by ring; apply Rmult_le_compat; lra). assert (eta <= B 960) by (apply bpow_le; lia).
      replace (B 964) with (16 * B 960); [lra|]. change 964%Z with (4 + 960)%Z. rewrite bpow_plus. reflexivity. }
    destruct (var_val M HM MB) as (F & P & L). rewrite std_is. destruct (sqrt64_val _ F P) as [_ Vs]. rewrite Vs. set (w := val (f_mean total fill y None m)) in *.
    assert (R1 : B (-536) ^ 2 = 8 * eta) by (replace (B (-536) ^ 2) with (B (-536) * B (-536)) by ring; rewrite <- bpow_plus; change (-536 + -536)%Z with (3 + -1075)%Z; rewrite bpow_plus; reflexivity).
    assert (B536 : 0 < B (-536)) by apply bpow_gt_0.
    assert (SQ : sqrt w <= 3 / 2 * dl + B (-536)). { rewrite <- (sqrt_pow2 (3 / 2 * dl + B (-536))) by lra. apply sqrt_le_1_alt. unfold M in L. assert (0 <= 3 / 2 * dl * B (-536)) by (apply Rmult_le_pos; lra). replace ((3 / 2 * dl + B (-536)) ^ 2) with (9 / 4 * dl ^ 2 + 2 * (3 / 2 * dl * B (-536)) + B (-536) ^ 2) by field. rewrite R1. assert (0 <= dl ^ 2) by apply pow2_ge_0. lra. }
    destruct (err64 (sqrt w)) as (d & e & H1 & H2 & _ & E3). rewrite E3. apply Rabs_le_inv in H1, H2. pose proof (sqrt_pos w) as SP.
    apply Rle_trans with (sqrt w * (1 + / 1024) + eta); [apply Rplus_le_compat; [apply Rmult_le_compat_l; lra|lra]|].
    assert (E4 : B (-534) = 4 * B (-536)) by (change (-534)%Z with (2 + -536)%Z; rewrite bpow_plus; reflexivity). assert (E5 : eta <= / 4 * B (-536)). { replace (/ 4) with (B (-2)) by reflexivity. rewrite <- bpow_plus. apply bpow_le. lia. }
    replace (2 * (INR (D (length x)) + 1) * eps * Rabs v0) with (2 * (dl - eta)) by (unfold dl, t; ring). lra.
  Qed.
End Std.
