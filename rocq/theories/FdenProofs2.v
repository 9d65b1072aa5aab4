(** Proofs for C100: volume, weights, sums. *)
From Coq Require Import ZArith Reals Lra Lia List Bool.
Require Import Flocq.Core.Core Flocq.IEEE754.BinarySingleNaN.
From Verif Require Import Base ProcFloat InterpFloatProofs MeshFloatModel MeshFloatProofs FredModel FredSpec FredProofs FredProofs2 NfltProofs FknnModel FknnSpec FknnProofs FknnProofs3 FdenModel FdenSpec FdenProofs PiBound.
Import ListNotations. Local Open Scope list_scope. Local Open Scope R_scope.

Lemma depth_le n : (Z.of_nat n <= 2 ^ 53)%Z -> (np_depth n <= 79)%nat.
Proof.
  intros H. assert (L : (Nat.log2 (n / 56) <= 53)%nat).
  { destruct (Nat.eq_dec (n / 56) 0) as [->|N]; [cbn; lia|]. destruct (Nat.le_gt_cases (Nat.log2 (n / 56)) 53) as [C|C]; [exact C|exfalso]. unfold lt in C. apply (Nat.log2_le_pow2 (n / 56) 54) in C; [|lia].
    assert (D : (n / 56 <= n)%nat) by (apply Nat.div_le_upper_bound; lia). assert (G : (2 ^ 54 <= n)%nat) by (eapply Nat.le_trans; eassumption). apply Nat2Z.inj_le in G. rewrite Nat2Z.inj_pow in G. change (Z.of_nat 2 ^ Z.of_nat 54)%Z with (2 ^ 54)%Z in G. lia. }
  unfold np_depth. lia.
Qed.
(** Sums. *)
Lemma sum_medium k l : (0 <= k)%Z -> (Z.of_nat (length l) <= 2 ^ 53)%Z -> Forall (medium k) l -> medium (k + 53) (Rsum l).
Proof.
  intros Hk Hl H. assert (U : Rsum l <= INR (length l) * bpow radix2 k).
  { clear Hl. induction H as [|x l Hx _ IH]; [cbn; lra|]. unfold Rsum in *. cbn [fold_right length]. rewrite S_INR. assert (x <= bpow radix2 k) by (destruct Hx as [->|[_ Hx]]; [apply bpow_ge_0|exact Hx]). lra. }
  assert (L : Rsum l = 0 \/ bpow radix2 (- k) <= Rsum l).
  { clear - H. induction H as [|x l Hx _ IH]; [left; reflexivity|]. unfold Rsum in *. cbn [fold_right]. pose proof (bpow_gt_0 radix2 (- k)). destruct Hx as [->|[Hx _]]; [rewrite Rplus_0_l; exact IH|]. right. destruct IH; lra. }
  destruct L as [L|L]; [left; exact L|right]. split; [eapply Rle_trans; [apply bpow_le|exact L]; lia|]. eapply Rle_trans; [exact U|]. rewrite Z.add_comm, bpow_plus. apply Rmult_le_compat_r; [apply bpow_ge_0|]. rewrite INR_IZR_INZ. change (bpow radix2 53) with (IZR (2 ^ 53)). apply IZR_le. exact Hl.
Qed.
Lemma Rsum_pos {A} (f : A -> R) l : (forall p, In p l -> 0 <= f p) -> 0 <= Rsum (map f l).
Proof. induction l as [|p l IH]; intros H; [cbn; lra|]. unfold Rsum in *. cbn [map fold_right]. pose proof (H p (or_introl eq_refl)). specialize (IH (fun q Hq => H q (or_intror Hq))). lra. Qed.
Lemma sum_close {A} (x : A -> b64) (X : A -> R) n k l : (0 <= k <= 900)%Z -> (Z.of_nat (length l) <= 2 ^ 53)%Z -> (n <= 1000)%nat -> (forall p, In p l -> close n (x p) (X p) /\ medium k (X p)) ->
  close (n + np_depth (length l)) (np_sum (map x l)) (Rsum (map X l)) /\ medium (k + 53) (Rsum (map X l)).
Proof.
  intros Hk Hl Hn H. assert (M : medium (k + 53) (Rsum (map X l))).
  { apply sum_medium; [lia|rewrite map_length; exact Hl|]. apply Forall_map, Forall_forall. intros p Hp. apply H, Hp. }
  split; [|exact M]. assert (Q : exists q, exact (map x l) = Rsum (map X l) * q /\ fac n q).
  { destruct (Req_dec (Rsum (map X l)) 0) as [Z|NZ].
    - exists 1. split; [|apply fac_1]. rewrite Z, Rmult_0_l. clear M Hl. induction l as [|p l IH]; [reflexivity|]. unfold exact, Rsum in *. cbn [map fold_right] in *. destruct (H p (or_introl eq_refl)) as [(_ & f & V & _) Mp]. pose proof (medium_pos _ _ Mp) as P0.
      pose proof (Rsum_pos X l (fun q Hq => medium_pos _ _ (proj2 (H q (or_intror Hq))))) as P1. unfold Rsum in P1. assert (X p = 0 /\ fold_right Rplus 0 (map X l) = 0) as [Z1 Z2] by lra. rewrite V, Z1, IH; [ring|intros q Hq; apply H; right; exact Hq|exact Z2].
    - assert (T0 : 0 < Rsum (map X l)) by (pose proof (medium_pos _ _ M); lra).
      assert (E : Rsum (map X l) * / (1 + ee) ^ n <= exact (map x l) <= Rsum (map X l) * (1 + ee) ^ n).
      { clear - H. induction l as [|p l IH]; [cbn; lra|]. unfold exact, Rsum in *. cbn [map fold_right] in *. destruct (H p (or_introl eq_refl)) as [(_ & f & V & F1 & F2) Mp]. pose proof (medium_pos _ _ Mp) as P0. specialize (IH (fun q Hq => H q (or_intror Hq))). rewrite V.
        assert (X p * / (1 + ee) ^ n <= X p * f) by (apply Rmult_le_compat_l; assumption). assert (X p * f <= X p * (1 + ee) ^ n) by (apply Rmult_le_compat_l; assumption). lra. }
      exists (exact (map x l) / Rsum (map X l)). split; [field; exact NZ|]. split; (apply Rmult_le_reg_r with (Rsum (map X l)); [exact T0|]; unfold Rdiv; rewrite (Rmult_assoc (exact _)), Rinv_l, Rmult_1_r by exact NZ; lra). }
  destruct Q as (q & Eq & Fq). pose proof (depth_le _ Hl) as D. pose proof (fac_pos _ _ Fq) as Pq.
  assert (Sb : exact (map x l) <= B 1000).
  { rewrite Eq. pose proof (scaled _ _ n q M ltac:(lia) Fq) as S. pose proof (in_range _ _ S ltac:(lia)) as _. destruct S as [->|[_ S]]; [apply bpow_ge_0|]. eapply Rle_trans; [exact S|apply bpow_le; lia]. }
  assert (Fa : Forall (fun x => fin x = true /\ 0 <= val x) (map x l)).
  { apply Forall_map, Forall_forall. intros p Hp. destruct (H p Hp) as [(F & f & V & G) Mp]. split; [exact F|]. rewrite V. apply Rmult_le_pos; [apply (medium_pos _ _ Mp)|]. apply Rlt_le, (fac_pos _ _ G). }
  destruct (sums_rel _ _ _ (np_sum_adds (map x l)) Fa Sb) as [(F & g & V & G) _]; [rewrite map_length; lia|]. rewrite map_length in G. split; [exact F|]. exists (q * g). split; [rewrite V, Eq; ring|]. apply (fac_mul _ _ _ _ Fq G).
Qed.
(** The volume. *)
Lemma nat_close n : (Z.of_nat n <= 2 ^ 53)%Z -> close 0 (of_Z64 (Z.of_nat n)) (INR n) /\ (n <> O -> medium 53 (INR n)).
Proof.
  intros H. destruct (of_Z64_exact (Z.of_nat n) ltac:(lia)) as [V F]. rewrite <- INR_IZR_INZ in V. split; [rewrite <- V; apply close_exact, F|]. intros N. right. split; [apply Rle_trans with 1; [apply (bpow_le radix2 (- (53)) 0); lia|apply (le_INR 1); lia]|]. rewrite INR_IZR_INZ. change (bpow radix2 53) with (IZR (2 ^ 53)). apply IZR_le, H.
Qed.
Lemma pi_facts : fin pi64 = true /\ 3 <= val pi64 <= 4.
Proof.
  split; [reflexivity|]. unfold val, pi64. cbn [B2R cond_Zopp]. unfold F2R. cbn [Fnum Fexp]. change (bpow radix2 (-51)) with (/ IZR (2 ^ 51)). change (2 ^ 51)%Z with 2251799813685248%Z. split; apply Rmult_le_reg_r with 2251799813685248; try lra; rewrite Rmult_assoc, Rinv_l by lra; lra.
Qed.
Lemma pi_val : val pi64 = 7074237752028440 / 2251799813685248.
Proof. unfold val, pi64. cbn [B2R cond_Zopp]. unfold F2R. cbn [Fnum Fexp]. change (bpow radix2 (-51)) with (/ IZR (2 ^ 51)). change (2 ^ 51)%Z with 2251799813685248%Z. reflexivity. Qed.
Lemma pi_close : close 1 pi64 PI.
Proof.
  split; [reflexivity|]. pose proof PI_20 as P. exists (val pi64 / PI). split; [field; lra|]. rewrite pi_val, pow_1. change (bpow radix2 (-52)) with (/ 4503599627370496). split; apply Rmult_le_reg_r with PI; try lra; unfold Rdiv; rewrite ?(Rmult_assoc _ (/ PI) PI), ?Rinv_l, ?Rmult_1_r by lra; lra.
Qed.
Lemma medium_1 k : (0 <= k)%Z -> medium k 1.
Proof. intros H. right. split; [apply (bpow_le radix2 (- k) 0); lia|apply (bpow_le radix2 0 k); lia]. Qed.
Lemma volume_pos n r : 0 < r -> 0 < volume n r.
Proof.
  intros H. assert (G : 0 < volume n r /\ 0 < volume (S n) r); [|apply G]. induction n as [|n [I1 I2]]; [cbn; lra|]. split; [exact I2|]. change (volume (S (S n)) r) with (2 * PI / INR (S (S n)) * r * r * volume n r).
  pose proof PI_20 as P. assert (I : 0 < / INR (S (S n))) by (apply Rinv_0_lt_compat, lt_0_INR; lia). unfold Rdiv. set (q := / INR (S (S n))) in *. assert (J : 0 < 2 * PI) by lra. set (a := 2 * PI) in *. clearbody q a. repeat apply Rmult_lt_0_compat; assumption.
Qed.
Lemma ball_step m k r : (2 <= m <= 150)%nat -> (0 <= k <= 350)%Z -> fin r = true -> bpow radix2 (- k) <= val r <= bpow radix2 k ->
  close 5 (mul64 (mul64 (div64 (mul64 (of_Z64 2) pi64) (of_Z64 (Z.of_nat m))) r) r) (2 * PI / INR m * val r * val r) /\ medium (2 * (k + 3)) (2 * PI / INR m * val r * val r) /\ 0 < 2 * PI / INR m * val r * val r.
Proof.
  intros Hm Hk Fr Hr. pose proof PI_20 as Vp. pose proof (bpow_gt_0 radix2 (- k)) as R0. destruct (of_Z64_exact 2 ltac:(lia)) as [V2 F2].
  assert (C2 : close 0 (of_Z64 2) 2) by (apply (close_eq 0 _ _ _ V2), close_exact, F2). assert (M1 : medium 3 (2 * PI)) by (right; change (bpow radix2 3) with 8; change (bpow radix2 (- (3))) with (/ 8); lra).
  pose proof (close_mul 3 0 1 _ _ _ _ C2 pi_close M1 ltac:(lia) ltac:(lia)) as C3. cbn [Nat.add] in C3.
  destruct (nat_close m ltac:(lia)) as [Cm _]. assert (Im : 2 <= INR m <= 150) by (split; [apply (le_INR 2); lia|replace 150 with (INR 150) by (rewrite INR_IZR_INZ; reflexivity); apply le_INR; lia]).
  assert (M2 : medium 5 (2 * PI / INR m)).
  { right. change (bpow radix2 5) with 32. change (bpow radix2 (- (5))) with (/ 32). split; apply Rmult_le_reg_r with (INR m); try lra; unfold Rdiv; rewrite ?(Rmult_assoc (2 * PI)), ?Rinv_l, ?Rmult_1_r by lra; lra. }
  pose proof (close_div 5 2 0 _ _ _ _ C3 Cm ltac:(lra) M2 ltac:(lia) ltac:(lia)) as C4. cbn [Nat.add] in C4. assert (Mr : medium k (val r)) by (right; lra).
  pose proof (medium_mul _ _ _ _ M2 Mr) as M3. pose proof (close_mul _ _ _ _ _ _ _ C4 (close_exact _ Fr) M3 ltac:(lia) ltac:(lia)) as C5. cbn [Nat.add] in C5.
  pose proof (medium_mul _ _ _ _ M3 Mr) as M4. pose proof (close_mul _ _ _ _ _ _ _ C5 (close_exact _ Fr) M4 ltac:(lia) ltac:(lia)) as C6. cbn [Nat.add] in C6.
  split; [exact C6|]. split; [eapply medium_more; [|exact M4]; lia|]. assert (I : 0 < / INR m) by (apply Rinv_0_lt_compat; lra). unfold Rdiv. assert (J : 0 < 2 * PI) by lra. assert (K : 0 < val r) by lra. clear - I J K. set (a := 2 * PI) in *. set (q := / INR m) in *. clearbody q a. repeat apply Rmult_lt_0_compat; assumption.
Qed.
Lemma ball_close n r : radius_fit n r -> close (3 * n) (ball64 n r) (volume n (val r)) /\ medium 350 (volume n (val r)).
Proof.
  intros (k & Hk & Hn & Fr & Hr). pose proof (bpow_gt_0 radix2 (- k)) as R0.
  assert (G : forall m, (m <= n)%nat -> close (3 * m) (ball64 m r) (volume m (val r)) /\ medium (Z.of_nat m * (k + 3)) (volume m (val r))).
  { intros m. induction m as [m IH] using (well_founded_induction lt_wf). intros L. destruct m as [|[|m]].
    - split; [|apply medium_1; lia]. cbn [ball64 volume]. destruct (of_Z64_exact 1 ltac:(lia)) as [V F]. apply (close_eq 0 _ _ _ V), close_exact, F.
    - destruct (of_Z64_exact 2 ltac:(lia)) as [V2 F2]. assert (C2 : close 0 (of_Z64 2) 2) by (apply (close_eq 0 _ _ _ V2), close_exact, F2). assert (M : medium (1 + k) (2 * val r)) by (apply medium_mul; [right; change (bpow radix2 1) with 2; change (bpow radix2 (- (1))) with (/ 2); lra|right; lra]).
      split; [|eapply medium_more; [|exact M]; lia]. cbn [ball64 volume]. eapply close_more; [|apply (close_mul _ 0 0 _ _ _ _ C2 (close_exact _ Fr) M); lia]. lia.
    - destruct (IH m ltac:(lia) ltac:(lia)) as [C M]. assert (N : (Z.of_nat (S (S m)) * 3 <= 350)%Z) by nia. assert (Kk : (k + 3 <= 350)%Z) by nia. destruct (ball_step (S (S m)) k r ltac:(lia) ltac:(lia) Fr Hr) as (C' & M' & _).
      change (ball64 (S (S m)) r) with (mul64 (mul64 (mul64 (div64 (mul64 (of_Z64 2) pi64) (of_Z64 (Z.of_nat (S (S m))))) r) r) (ball64 m r)).
      change (volume (S (S m)) (val r)) with (2 * PI / INR (S (S m)) * val r * val r * volume m (val r)).
      pose proof (medium_mul _ _ _ _ M' M) as M2. split; [|eapply medium_more; [|exact M2]; lia]. eapply close_more; [|apply (close_mul _ _ _ _ _ _ _ C' C M2); [nia|lia]]. lia. }
  destruct (G n ltac:(lia)) as [C M]. split; [exact C|eapply medium_more; [|exact M]; lia].
Qed.
(** The weights. *)
Lemma weight_seq l : map (fun i => val (nth i l zero64)) (seq 0 (length l)) = map val l.
Proof. induction l as [|a l IH]; [reflexivity|]. cbn [length seq map nth]. f_equal. rewrite <- seq_shift, map_map. exact IH. Qed.
Lemma ones n : Rsum (map (weight_at None) (seq 0 n)) = INR n.
Proof. generalize 0%nat. induction n as [|n IH]; intros a; [reflexivity|]. cbn [seq map]. unfold Rsum in *. cbn [fold_right]. rewrite IH, S_INR. cbn [weight_at]. ring. Qed.
Lemma fit_close n w i : weights_fit n w -> (i < n)%nat -> length (fit64 n w) = n /\ close (np_depth n + 1) (nth i (fit64 n w) zero64) (share n w i) /\ medium 253 (share n w i) /\ 0 < all_weight n w.
Proof.
  intros (N1 & N2 & W) Hi. unfold share. destruct w as [w|]; cbn [fit64].
  - destruct (W w eq_refl) as (L & F & E). clear W. rewrite map_length. split; [exact L|].
    assert (A : all_weight n (Some w) = Rsum (map val w)) by (unfold all_weight; rewrite <- L; cbn [weight_at]; f_equal; apply weight_seq). rewrite Forall_forall in F.
    destruct (sum_close (fun v => v) val 0 100 w ltac:(lia) ltac:(rewrite L; lia) ltac:(lia)) as [C M]; [intros v Hv; destruct (F v Hv) as [Fv Mv]; split; [apply close_exact, Fv|exact Mv]|]. rewrite map_id in C. rewrite <- A in C, M. change (100 + 53)%Z with 153%Z in M.
    assert (P : 0 < all_weight n (Some w)).
    { rewrite A. clear - E F. induction E as [v l H|v l _ IH]; unfold Rsum in *; cbn [map fold_right].
      - pose proof (Rsum_pos val l (fun q Hq => medium_pos _ _ (proj2 (F q (or_intror Hq))))) as Q. unfold Rsum in Q. lra.
      - pose proof (medium_pos _ _ (proj2 (F v (or_introl eq_refl)))). specialize (IH (fun q Hq => F q (or_intror Hq))). lra. }
    set (Sx := all_weight n (Some w)) in *. cbn [weight_at]. destruct (F (nth i w zero64) ltac:(apply nth_In; lia)) as [Fi Mi].
    pose proof (medium_div _ _ _ _ Mi M ltac:(lra)) as Md. split; [|split; [exact Md|exact P]].
    rewrite (nth_indep _ zero64 (div64 zero64 (np_sum w))) by (rewrite map_length; lia). rewrite (map_nth (fun v => div64 v (np_sum w))). rewrite L in C. cbn [Nat.add] in C. apply (close_div 253 0 (np_depth n) _ _ _ _ (close_exact _ Fi) C ltac:(lra) Md); [lia|pose proof (depth_le n ltac:(lia)); lia].
  - rewrite repeat_length. split; [reflexivity|]. unfold all_weight. rewrite ones. cbn [weight_at]. destruct (nat_close n ltac:(lia)) as [C M]. specialize (M ltac:(lia)). assert (P : 1 <= INR n) by (apply (le_INR 1); lia). pose proof (medium_div 0 53 1 _ (medium_1 0 ltac:(lia)) M ltac:(lra)) as Md.
    split; [|split; [eapply medium_more; [|exact Md]; lia|lra]]. rewrite (nth_indep _ zero64 (div64 (of_Z64 1) (of_Z64 (Z.of_nat n)))) by (rewrite repeat_length; exact Hi). rewrite nth_repeat. destruct (of_Z64_exact 1 ltac:(lia)) as [V1 F1].
    assert (C1 : close 0 (of_Z64 1) 1) by (apply (close_eq 0 _ _ _ V1), close_exact, F1). eapply close_more; [|apply (close_div _ 0 0 _ _ _ _ C1 C ltac:(lra) Md); lia]. unfold np_depth. lia.
Qed.
