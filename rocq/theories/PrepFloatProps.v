(** Property theorems C90: Standardize in double precision. *)
From Coq Require Import ZArith Reals Lra Lia List.
Require Import Flocq.Core.Core Flocq.IEEE754.BinarySingleNaN.
From Verif Require Import Base ProcFloat InterpFloatProofs MeshFloatProofs BinFloatProofs FredModel FredSpec FredProofs FredProofs2 FredProofs3 FredProofs4 FredProps PrepFloatModel PrepFloatSpec PrepFloatProofs.
Import ListNotations. Local Open Scope list_scope. Local Open Scope R_scope.

(** Stored are, per column, the mean and the standard deviation raised to the floor, with the errors of C89; never less than the floor. *)
Theorem C90_fit total D lb c rows : adds total D -> good_table c rows -> good_floor lb -> INR (D (length rows)) * eps <= / 8 -> let t := f_fit total lb c rows in
  length (fs_mean t) = c /\ length (fs_sd t) = c /\ forall j, (j < c)%nat ->
  let mu := entry (fs_mean t) j in let sd := entry (fs_sd t) j in let v := values rows j in let d := INR (D (length rows)) in
  let err := (d + 1) * eps * (Rsize v / INR (length v)) + bpow radix2 (-1075) in let s := sqrt (variance_of v) in
  fin mu = true /\ fin sd = true /\ val lb <= val sd /\ Rabs (val mu - mean_of v) <= err /\
  Rabs (val sd - Rmax s (val lb)) <= (d + 4) * eps * s + 2 * err + bpow radix2 (-534).
Proof.
  intros A G L Hd t. destruct (fit_len total lb c rows) as [L1 L2]. split; [exact L1|]. split; [exact L2|]. intros j Hj.
  destruct (fit_vals total D lb c rows A G L Hd j Hj) as (F1 & F2 & _ & [S1 _] & E1 & E2). unfold entry. rewrite <- zero_is. repeat (split; [assumption|]). assumption.
Qed.
Print Assumptions C90_fit.
(** Forward, entry by entry: (x - mean) / sd with a relative error of 2^-51, for every row, not only training rows. *)
Theorem C90_forward total D lb c rows r : adds total D -> good_table c rows -> good_floor lb -> INR (D (length rows)) * eps <= / 8 -> good_row c r -> let t := f_fit total lb c rows in
  length (f_forward t r) = c /\ forall j, (j < c)%nat -> let q := (val (entry r j) - val (entry (fs_mean t) j)) / val (entry (fs_sd t) j) in
  fin (entry (f_forward t r) j) = true /\ Rabs (val (entry (f_forward t r) j) - q) <= bpow radix2 (-51) * Rabs q + bpow radix2 (-1075).
Proof.
  intros A G L Hd [Lr Gr] t. destruct (fit_len total lb c rows) as [L1 L2]. fold t in L1, L2. split; [apply zip3_length; assumption|]. intros j Hj.
  destruct (fit_vals total D lb c rows A G L Hd j Hj) as (F1 & F2 & B1 & B2 & _). fold t in F1, F2, B1, B2. unfold entry. rewrite <- zero_is. unfold f_forward. rewrite zip3_nth by lia.
  rewrite Forall_forall in Gr. destruct (Gr (nth j r zero64) (nth_In r zero64 (eq_ind_r (fun n => (j < n)%nat) Hj Lr))) as [Fv Bv]. assert (Bv' : Rabs (val (nth j r zero64)) <= bpow radix2 481) by (eapply Rle_trans; [exact Bv|apply bpow_le; lia]).
  destruct L as [_ [Lb _]]. assert (Bs : bpow radix2 (-480) <= val (nth j (fs_sd t) zero64) <= bpow radix2 484) by (split; lra).
  split; [destruct (fwd_val _ _ F1 B1 Bs _ Fv Bv') as (? & ? & ? & _ & _ & _ & F & _); exact F|]. exact (fwd_err _ _ F1 B1 Bs _ Fv Bv').
Qed.
Print Assumptions C90_forward.
(** Backward undoes forward up to 2^-50 of the entry and the column's mean; forward undoes backward up to 2^-50 of the entry and mean / sd. *)
Theorem C90_round_trip total D lb c rows r : adds total D -> good_table c rows -> good_floor lb -> INR (D (length rows)) * eps <= / 8 -> length r = c -> let t := f_fit total lb c rows in
  let mu j := val (entry (fs_mean t) j) in let sd j := val (entry (fs_sd t) j) in let x j := val (entry r j) in
  (good_row c r -> let b := f_backward t (f_forward t r) in length b = c /\
   forall j, (j < c)%nat -> fin (entry b j) = true /\ Rabs (val (entry b j) - x j) <= bpow radix2 (-50) * (Rabs (x j) + Rabs (mu j)) + bpow radix2 (-589)) /\
  ((forall j, (j < c)%nat -> fin (entry r j) = true /\ Rabs (x j) * sd j <= bpow radix2 480) -> let f := f_forward t (f_backward t r) in length f = c /\
   forall j, (j < c)%nat -> fin (entry f j) = true /\ Rabs (val (entry f j) - x j) <= bpow radix2 (-50) * (Rabs (x j) + Rabs (mu j) / sd j) + bpow radix2 (-590)).
Proof.
  intros A G L Hd Lr t mu sd x. destruct (fit_len total lb c rows) as [L1 L2]. fold t in L1, L2.
  assert (E : forall j, (j < c)%nat -> fin (nth j (fs_mean t) zero64) = true /\ fin (nth j (fs_sd t) zero64) = true /\ Rabs (val (nth j (fs_mean t) zero64)) <= bpow radix2 481 /\ bpow radix2 (-480) <= val (nth j (fs_sd t) zero64) <= bpow radix2 484).
  { intros j Hj. destruct (fit_vals total D lb c rows A G L Hd j Hj) as (F1 & F2 & B1 & B2 & _). fold t in F1, F2, B1, B2. destruct L as [_ [Lb _]]. repeat (split; [assumption|]). split; lra. }
  split.
  - intros [_ Gr] b. assert (Lf : length (f_forward t r) = c) by (apply zip3_length; assumption). split; [apply zip3_length; assumption|]. intros j Hj. destruct (E j Hj) as (F1 & F2 & B1 & B2).
    unfold b, x, mu, entry. rewrite <- zero_is. unfold f_backward. rewrite zip3_nth by lia. unfold f_forward. rewrite zip3_nth by lia.
    rewrite Forall_forall in Gr. destruct (Gr (nth j r zero64) (nth_In r zero64 (eq_ind_r (fun n => (j < n)%nat) Hj Lr))) as [Fv Bv]. apply there_and_back; try assumption. eapply Rle_trans; [exact Bv|apply bpow_le; lia].
  - intros Gr f. assert (Lf : length (f_backward t r) = c) by (apply zip3_length; assumption). split; [apply zip3_length; assumption|]. intros j Hj. destruct (E j Hj) as (F1 & F2 & B1 & B2). destruct (Gr j Hj) as [Fv Bv].
    unfold f, x, mu, sd, entry in *. rewrite <- zero_is in *. unfold f_forward. rewrite zip3_nth by lia. unfold f_backward. rewrite zip3_nth by lia. apply back_and_there; assumption.
Qed.
Print Assumptions C90_round_trip.
(** The order in each column is kept in both directions (not strictly: see the finding). *)
Theorem C90_order total D lb c rows r r' j : adds total D -> good_table c rows -> good_floor lb -> INR (D (length rows)) * eps <= / 8 -> good_row c r -> good_row c r' -> (j < c)%nat -> let t := f_fit total lb c rows in
  val (entry r j) <= val (entry r' j) ->
  val (entry (f_forward t r) j) <= val (entry (f_forward t r') j) /\ val (entry (f_backward t r) j) <= val (entry (f_backward t r') j).
Proof.
  intros A G L Hd [Lr Gr] [Lr' Gr'] Hj t. destruct (fit_len total lb c rows) as [L1 L2]. fold t in L1, L2. destruct (fit_vals total D lb c rows A G L Hd j Hj) as (F1 & F2 & B1 & B2 & _). fold t in F1, F2, B1, B2. destruct L as [_ [Lb _]].
  rewrite Forall_forall in Gr, Gr'. destruct (Gr (nth j r zero64) (nth_In r zero64 (eq_ind_r (fun n => (j < n)%nat) Hj Lr))) as [Fv Bv]. destruct (Gr' (nth j r' zero64) (nth_In r' zero64 (eq_ind_r (fun n => (j < n)%nat) Hj Lr'))) as [Fw Bw].
  unfold entry. rewrite <- zero_is. intros H. unfold f_forward, f_backward. rewrite !zip3_nth by lia.
  assert (Q : forall v, Rabs v <= bpow radix2 480 -> Rabs v <= bpow radix2 481) by (intros v Hv; eapply Rle_trans; [exact Hv|apply bpow_le; lia]).
  split; [apply fwd_mono; try assumption; try (apply Q; assumption); split; lra|]. apply bwd_mono; try assumption; try (apply Q; assumption); split; lra.
Qed.
Print Assumptions C90_order.
(** A constant training column becomes nearly 0: at most twice the error of the mean over the floor. *)
Theorem C90_constant total D lb c rows r j : adds total D -> good_table c rows -> good_floor lb -> INR (D (length rows)) * eps <= / 8 -> (j < c)%nat -> In r rows -> (forall r', In r' rows -> val (entry r' j) = val (entry r j)) ->
  let out := entry (f_forward (f_fit total lb c rows) r) j in
  Rabs (val out) <= 2 * ((INR (D (length rows)) + 1) * eps * Rabs (val (entry r j)) + bpow radix2 (-1075)) / val lb + bpow radix2 (-1075).
Proof.
  intros A G L Hd Hj Hr Hc out. set (t := f_fit total lb c rows) in *. set (a := val (entry r j)) in *. destruct (fit_vals total D lb c rows A G L Hd j Hj) as (F1 & F2 & B1 & [S1 S2] & E1 & _). fold t in F1, F2, B1, S1, S2, E1.
  assert (Gr : good_row c r) by (destruct G as (_ & _ & G'); rewrite Forall_forall in G'; apply G', Hr). destruct (C90_forward total D lb c rows r A G L Hd Gr) as [_ Fw]. destruct (Fw j Hj) as [_ E]. fold t in E. fold out in E. fold a in E.
  unfold entry in E at 1 2 3 4. rewrite <- zero_is in E. set (m := val (nth j (fs_mean t) zero64)) in *. set (s := val (nth j (fs_sd t) zero64)) in *.
  assert (V : Forall (fun v => v = a) (values rows j)). { unfold values. apply Forall_map, Forall_forall. intros r' Hr'. apply Hc, Hr'. }
  assert (K : 0 < INR (length (values rows j))). { apply lt_0_INR. unfold values. rewrite map_length. destruct rows; [destruct Hr|cbn; lia]. }
  unfold mean_of in E1. rewrite (Rsum_const _ _ V), (Rsize_const _ _ V) in E1. set (k := INR (length (values rows j))) in *. replace (k * a / k) with a in E1 by (field; lra). replace (k * Rabs a / k) with (Rabs a) in E1 by (field; lra).
  set (dl := (INR (D (length rows)) + 1) * eps * Rabs a + bpow radix2 (-1075)) in *. destruct L as [_ [Lb _]]. pose proof (bpow_gt_0 radix2 (-480)) as B0. assert (SP : 0 < s) by lra. assert (LP : 0 < val lb) by lra.
  assert (Q : Rabs ((a - m) / s) <= dl / val lb). { unfold Rdiv. rewrite Rabs_mult, (Rabs_right (/ s)) by (left; apply Rinv_0_lt_compat, SP). apply Rmult_le_compat; [apply Rabs_pos|left; apply Rinv_0_lt_compat, SP|rewrite Rabs_minus_sym; exact E1|apply Rinv_le_contravar; [exact LP|exact S1]]. }
  set (q := (a - m) / s) in *. replace (val out) with ((val out - q) + q) by ring. eapply Rle_trans; [apply Rabs_triang|].
  assert (U : bpow radix2 (-51) <= 1) by (change 1 with (bpow radix2 0); apply bpow_le; lia). assert (bpow radix2 (-51) * Rabs q <= 1 * Rabs q) by (apply Rmult_le_compat_r; [apply Rabs_pos|exact U]). replace (2 * dl / val lb) with (2 * (dl / val lb)) by (unfold Rdiv; ring). lra.
Qed.
Print Assumptions C90_constant.

(** 1e-10, the default floor; a tenth of 2^30. *)
Definition floor_1e10 : b64 := @B754_finite 53 1024 false 7737125245533627 (-86) eq_refl.
Definition big_tenth : b64 := @B754_finite 53 1024 false 7205759403792794 (-26) eq_refl.
Lemma map_inj {A B} (f : A -> B) : (forall x y, f x = f y -> x = y) -> forall l l', map f l = map f l' -> l = l'.
Proof. intros H. induction l as [|a l IH]; intros [|b l'] E; try discriminate; [reflexivity|]. cbn in E. injection E as E1 E2. rewrite (H _ _ E1), (IH _ E2). reflexivity. Qed.
Lemma row_eq (l l' : list b64) : map B2SF l = map B2SF l' -> l = l'. Proof. apply map_inj. exact (@B2SF_inj 53 1024). Qed.
Lemma table_eq (l l' : list (list b64)) : map (map B2SF) l = map (map B2SF) l' -> l = l'. Proof. apply map_inj. exact row_eq. Qed.
Lemma floor_ok : good_floor floor_1e10.
Proof.
  split; [reflexivity|]. unfold floor_1e10, val. cbn [B2R cond_Zopp]. unfold F2R. cbn [Fnum Fexp]. split.
  - apply Rle_trans with (1 * bpow radix2 (-86)); [rewrite Rmult_1_l; apply bpow_le; lia|apply Rmult_le_compat_r; [apply bpow_ge_0|apply IZR_le; lia]].
  - apply Rle_trans with (bpow radix2 53 * bpow radix2 (-86)); [apply Rmult_le_compat_r; [apply bpow_ge_0|change (bpow radix2 53) with (IZR (2 ^ 53)); apply IZR_le; lia]|rewrite <- bpow_plus; apply bpow_le; lia].
Qed.
(** Finding: a constant column is not standardized to zeros: three rows 107374182.4 become -1, -1, -1. *)
Theorem C90_constant_refuted : let rows := [[big_tenth]; [big_tenth]; [big_tenth]] in good_table 1 rows /\ good_floor floor_1e10 /\
  map (f_forward (f_fit (add_up zero64) floor_1e10 1 rows)) rows = [[of_Z64 (-1)]; [of_Z64 (-1)]; [of_Z64 (-1)]].
Proof.
  intros rows.
  assert (B1 : Rabs (val big_tenth) <= bpow radix2 480). { unfold big_tenth, val. cbn [B2R cond_Zopp]. unfold F2R. cbn [Fnum Fexp]. rewrite Rabs_right by (apply Rle_ge, Rmult_le_pos; [apply IZR_le; lia|apply bpow_ge_0]). apply Rle_trans with (bpow radix2 53 * bpow radix2 (-26)); [apply Rmult_le_compat_r; [apply bpow_ge_0|change (bpow radix2 53) with (IZR (2 ^ 53)); apply IZR_le; lia]|rewrite <- bpow_plus; apply bpow_le; lia]. }
  split; [|split].
  - split; [discriminate|]. split; [cbn; lia|]. repeat (apply Forall_cons; [split; [reflexivity|apply Forall_cons; [split; [reflexivity|exact B1]|constructor]]|]). constructor.
  - exact floor_ok.
  - apply table_eq. vm_compute. reflexivity.
Qed.
Print Assumptions C90_constant_refuted.
(** Finding: different numbers can be standardized to the same one, from which neither comes back: trained on 0 and 2, both 2^-60 and 2^-59
    become -1 and come back as 0. *)
Definition tiny (e : Z) : b64 := @Bldexp 53 1024 p53 pe53 mode_NE (of_Z64 1) e.
Theorem C90_collapse_refuted : let rows := [[of_Z64 0]; [of_Z64 2]] in let t := f_fit (add_up zero64) floor_1e10 1 rows in
  val (tiny (-60)) < val (tiny (-59)) /\ f_forward t [tiny (-60)] = [of_Z64 (-1)] /\ f_forward t [tiny (-59)] = [of_Z64 (-1)] /\ f_backward t [of_Z64 (-1)] = [of_Z64 0].
Proof.
  intros rows t. split; [|split; [|split]]; try (apply row_eq; vm_compute; reflexivity).
  replace (tiny (-60)) with (@B754_finite 53 1024 false 4503599627370496 (-112) eq_refl) by (apply B2SF_inj; vm_compute; reflexivity).
  replace (tiny (-59)) with (@B754_finite 53 1024 false 4503599627370496 (-111) eq_refl) by (apply B2SF_inj; vm_compute; reflexivity).
  unfold val. cbn [B2R cond_Zopp]. unfold F2R. cbn [Fnum Fexp]. apply Rmult_lt_compat_l; [apply IZR_lt; lia|]. apply bpow_lt. lia.
Qed.
Print Assumptions C90_collapse_refuted.
(** Non-vacuity: the hypotheses hold for the table above with numpy's sum; a table with two columns. *)
Example C90_ex : let rows := [[of_Z64 1; of_Z64 10]; [of_Z64 3; of_Z64 20]] in good_table 2 rows /\ good_floor floor_1e10 /\ INR (np_depth (length rows)) * eps <= / 8 /\
  map (f_forward (f_fit np_sum floor_1e10 2 rows)) rows = [[of_Z64 (-1); of_Z64 (-1)]; [of_Z64 1; of_Z64 1]].
Proof.
  intros rows. split; [|split; [exact floor_ok|split]].
  - split; [discriminate|]. split; [cbn; lia|]. assert (E : forall z, (Z.abs z <= 100)%Z -> fin (of_Z64 z) = true /\ Rabs (val (of_Z64 z)) <= bpow radix2 480).
    { intros z Hz. destruct (of_Z64_exact z ltac:(lia)) as [-> F]. split; [exact F|]. rewrite <- abs_IZR. apply Rle_trans with (bpow radix2 7); [change (bpow radix2 7) with (IZR 128); apply IZR_le; lia|apply bpow_le; lia]. }
    repeat (apply Forall_cons; [split; [reflexivity|repeat (apply Forall_cons; [apply E; cbn; lia|]); constructor]|]). constructor.
  - unfold eps. apply Rle_trans with (bpow radix2 5 * bpow radix2 (-52)); [apply Rmult_le_compat_r; [apply bpow_ge_0|]; rewrite INR_IZR_INZ; change (bpow radix2 5) with (IZR 32); apply IZR_le; vm_compute; discriminate|].
    rewrite <- bpow_plus. change (/ 8) with (bpow radix2 (-3)). apply bpow_le. lia.
  - apply table_eq. vm_compute. reflexivity.
Qed.
