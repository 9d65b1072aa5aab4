(** Proofs for C91: weighted quantiles, the cumulative shares. *)
From Coq Require Import ZArith Reals Lra Lia List Permutation Bool.
Require Import Flocq.Core.Core Flocq.IEEE754.BinarySingleNaN.
From Verif Require Import Base ProcFloat InterpFloatProofs MeshFloatModel MeshFloatProofs BinFloatProofs FredModel FredSpec FredProofs FredProofs2 FredProofs3 FredProofs4 PrepFloatProofs FquaModel FquaSpec FquaProofs FquaProofs2 FquaProofs3 FquaProofs4.
Import ListNotations. Local Open Scope list_scope. Local Open Scope R_scope.

(** ** Running sums *)
Lemma cumsum_from_length l : forall acc, length (f_cumsum_from acc l) = length l.
Proof. induction l as [|a l IH]; intros acc; [reflexivity|]. cbn. rewrite IH. reflexivity. Qed.
Lemma cumsum_length l : length (f_cumsum l) = length l.
Proof. destruct l as [|a l]; [reflexivity|]. cbn. rewrite cumsum_from_length. reflexivity. Qed.
Lemma cumsum_from_sums l : forall d l0 acc k, sums d l0 acc -> (k < length l)%nat -> sums (d + k + 1) (l0 ++ firstn (S k) l) (nth k (f_cumsum_from acc l) zero64).
Proof.
  induction l as [|a l IH]; intros d l0 acc k H K; [cbn in K; lia|]. cbn [f_cumsum_from].
  assert (A : sums (d + 1) (l0 ++ [a]) (add64 acc a)). { rewrite Nat.add_1_r. apply sums_add; [exact H|]. apply (sums_more 0); [constructor|lia]. }
  destruct k as [|k]; cbn [nth firstn]. { rewrite Nat.add_0_r. exact A. }
  specialize (IH (d + 1)%nat (l0 ++ [a]) (add64 acc a) k A). cbn [length] in K. replace (d + S k + 1)%nat with (d + 1 + k + 1)%nat by lia. rewrite <- app_assoc in IH. cbn [app] in IH. apply IH. lia.
Qed.
Lemma cumsum_sums l k : (k < length l)%nat -> sums k (firstn (S k) l) (nth k (f_cumsum l) zero64).
Proof.
  destruct l as [|a l]; intros K; [cbn in K; lia|]. cbn [f_cumsum firstn]. destruct k as [|k]; cbn [nth]. { cbn [firstn]. apply sums_one. }
  pose proof (cumsum_from_sums l 0 [a] a k (sums_one a)) as H. cbn [length] in K. specialize (H ltac:(lia)). replace (S k) with (0 + k + 1)%nat at 1 by lia. exact H.
Qed.
Lemma cumsum_step l k : (S k < length l)%nat -> nth (S k) (f_cumsum l) zero64 = add64 (nth k (f_cumsum l) zero64) (nth (S k) l zero64).
Proof.
  assert (G : forall l acc k, (k < length l)%nat -> nth k (f_cumsum_from acc l) zero64 = add64 (nth k (acc :: f_cumsum_from acc l) zero64) (nth k l zero64)).
  { induction l0 as [|a l0 IH]; intros acc j J; [cbn in J; lia|]. cbn [f_cumsum_from]. destruct j as [|j]; [reflexivity|]. cbn [nth]. cbn [length] in J. rewrite IH by lia. reflexivity. }
  destruct l as [|a l]; intros K; [cbn in K; lia|]. cbn [f_cumsum nth]. cbn [length] in K. rewrite (G l a k) by lia. destruct k; reflexivity.
Qed.
Definition rawsum (l : list b64) : R := Rsum (map val l).
Lemma exact_raw l : exact l = rawsum l.
Proof. unfold rawsum. induction l as [|a l IH]; [reflexivity|]. change (val a + exact l = val a + Rsum (map val l)). rewrite IH. reflexivity. Qed.
Definition good (f : b64) : Prop := fin f = true /\ 0 <= val f.
Lemma size_good l : Forall good l -> size l = rawsum l /\ 0 <= rawsum l.
Proof. unfold rawsum. induction 1 as [|a l [F A] H [I1 I2]]; [cbn; lra|]. change (Rabs (val a) + size l = val a + Rsum (map val l) /\ 0 <= val a + Rsum (map val l)). rewrite I1, Rabs_right by lra. lra. Qed.
Lemma firstn_good l k : Forall good l -> Forall good (firstn k l).
Proof. intros H. rewrite Forall_forall in *. intros x I. apply H. rewrite <- (firstn_skipn k l). apply in_or_app. left. exact I. Qed.
Lemma rawsum_app a b : rawsum (a ++ b) = rawsum a + rawsum b.
Proof. unfold rawsum. rewrite map_app. apply Rsum_app. Qed.
Lemma rawsum_firstn l k : Forall good l -> rawsum (firstn k l) <= rawsum l.
Proof. intros H. rewrite <- (firstn_skipn k l) at 2. rewrite rawsum_app. assert (0 <= rawsum (skipn k l)); [|lra]. apply size_good. rewrite Forall_forall in *. intros x I. apply H. rewrite <- (firstn_skipn k l). apply in_or_app. right. exact I. Qed.
Lemma rawsum_perm a b : Permutation a b -> rawsum a = rawsum b.
Proof. rewrite <- !exact_raw. apply exact_perm. Qed.
Lemma good_finite l : Forall good l -> finite l.
Proof. unfold finite. rewrite !Forall_forall. intros H x I. apply (H x I). Qed.
Lemma rawsum_nth l : forall k, Forall good l -> (k < length l)%nat -> val (nth k l zero64) <= rawsum l.
Proof.
  induction l as [|a l IH]; intros k G K; [cbn in K; lia|]. inversion G as [|? ? [Fa Pa] G' E1]. subst. destruct (size_good l G') as [_ S2]. change (rawsum (a :: l)) with (val a + rawsum l). destruct k as [|k]; cbn [nth]; [lra|]. cbn [length] in K. specialize (IH k G' ltac:(lia)). lra.
Qed.
(** Running sums of numbers that are not negative. *)
Section running.
Variable l : list b64.
Hypothesis Gl : Forall good l.
Hypothesis Nl : INR (length l) * eps <= / 8.
Hypothesis Bl : rawsum l <= B 1000.
Notation c k := (nth k (f_cumsum l) zero64).
Lemma eps0 : 0 < eps. Proof. apply bpow_gt_0. Qed.
Lemma run_ok k : (k < length l)%nat -> fin (c k) = true /\ Rabs (val (c k) - rawsum (firstn (S k) l)) <= INR (length l) * eps * rawsum (firstn (S k) l).
Proof.
  intros K. pose proof eps0 as E0. destruct (size_good _ (firstn_good l (S k) Gl)) as [Z1 Z2]. assert (KN : INR k <= INR (length l)) by (apply le_INR; lia).
  destruct (sums_bound k _ _ (cumsum_sums l k K)) as [F H]; [apply good_finite, firstn_good, Gl|eapply Rle_trans; [apply Rmult_le_compat_r; [lra|exact KN]|lra]|rewrite Z1; eapply Rle_trans; [apply rawsum_firstn, Gl|]; eapply Rle_trans; [exact Bl|apply bpow_le; lia]|]. split; [exact F|].
  rewrite exact_raw, Z1 in H. eapply Rle_trans; [exact H|]. apply Rmult_le_compat_r; [exact Z2|]. apply Rmult_le_compat_r; lra.
Qed.
Lemma run_pos k : (k < length l)%nat -> 0 <= val (c k).
Proof. intros K. destruct (run_ok k K) as [F _]. destruct (sums_nonneg _ _ _ (cumsum_sums l k K)) as [H _]; [|exact F|exact H]. pose proof (firstn_good l (S k) Gl) as G. rewrite Forall_forall in *. intros x I. apply G, I. Qed.
Lemma run_up k : (S k < length l)%nat -> val (c k) <= val (c (S k)) /\ val (c (S k)) = rnd64 (val (c k) + val (nth (S k) l zero64)).
Proof.
  intros K. destruct (run_ok k ltac:(lia)) as [F H]. destruct (run_ok (S k) K) as [F' _]. assert (G : good (nth (S k) l zero64)) by (rewrite Forall_forall in Gl; apply Gl, nth_In, K). destruct G as [Fn Pn].
  assert (NB : rawsum (firstn (S k) l) <= B 1000) by (eapply Rle_trans; [apply rawsum_firstn, Gl|exact Bl]). destruct (size_good _ (firstn_good l (S k) Gl)) as [_ Z2].
  assert (V : val (c (S k)) = rnd64 (val (c k) + val (nth (S k) l zero64))).
  { rewrite cumsum_step by exact K. apply add64_b; [exact F|exact Fn|]. assert (A : val (nth (S k) l zero64) <= B 1000). { apply Rle_trans with (rawsum l); [|exact Bl]. apply rawsum_nth; assumption. }
    assert (CK : val (c k) <= 2 * B 1000). { apply Rabs_le_inv in H. assert (INR (length l) * eps * rawsum (firstn (S k) l) <= / 8 * rawsum (firstn (S k) l)) by (apply Rmult_le_compat_r; lra). lra. } pose proof (run_pos k ltac:(lia)). rewrite Rabs_right by lra.
    assert (4 * B 1000 <= B 1023) by (replace (4 * B 1000) with (B 1002) by (change 1002%Z with (2 + 1000)%Z; rewrite bpow_plus; reflexivity); apply bpow_le; lia). lra. }
  split; [|exact V]. rewrite V, <- rnd64_val at 1. apply rnd64_le. lra.
Qed.
Lemma run_sorted i j : (i <= j < length l)%nat -> val (c i) <= val (c j).
Proof. intros [H1 H2]. induction H1 as [|j H1 IH]; [lra|]. eapply Rle_trans; [apply IH; lia|]. apply run_up. exact H2. Qed.
(** Steps are not tiny. *)
Hypothesis T400 : Forall (fun f => val f = 0 \/ B (-400) <= val f) l.
Lemma run_400 k : (k < length l)%nat -> val (c k) = 0 \/ B (-400) <= val (c k).
Proof.
  rewrite Forall_forall in T400. induction k as [|k IH]; intros K.
  - assert (E : c 0%nat = nth 0 l zero64) by (destruct l; reflexivity). rewrite E. apply T400, nth_In, K.
  - destruct (run_up k K) as [U V]. destruct (IH ltac:(lia)) as [Z|Z]; [|right; lra]. rewrite V, Z, Rplus_0_l, rnd64_val. apply T400, nth_In, K.
Qed.
End running.
Lemma grid400 x : val x = 0 \/ B (-400) <= val x -> exists k, val x = IZR k * B (-452).
Proof.
  intros [H|H]; [exists 0%Z; rewrite H; ring|]. pose proof (format64 x) as G. rewrite fexp_FLT in G. unfold generic_format in G. set (e := cexp radix2 FX (val x)) in *. assert (E : (-452 <= e)%Z).
  { unfold e, cexp, FLT_exp. assert ((-400 + 1 <= mag radix2 (val x))%Z); [|lia]. apply mag_ge_bpow. pose proof (bpow_gt_0 radix2 (-400)). rewrite Rabs_right by lra. replace (-400 + 1 - 1)%Z with (-400)%Z by lia. exact H. }
  set (m := Ztrunc (scaled_mantissa radix2 FX (val x))) in G. exists (m * 2 ^ (e - -452))%Z. rewrite G. unfold F2R. cbn [Fnum Fexp]. rewrite mult_IZR, IZR_bpow by lia. rewrite Rmult_assoc, <- bpow_plus. f_equal. f_equal. unfold cexp in e. lia.
Qed.
Lemma apart x y : (val x = 0 \/ B (-400) <= val x) -> (val y = 0 \/ B (-400) <= val y) -> val x < val y -> B (-500) <= val y - val x.
Proof.
  intros Hx Hy L. destruct (grid400 x Hx) as [i I]. destruct (grid400 y Hy) as [j J]. rewrite I, J in *. pose proof (bpow_gt_0 radix2 (-452)) as P. assert (IJ : (i < j)%Z). { apply lt_IZR. apply (Rmult_lt_reg_r (B (-452))); assumption. }
  assert (Q : IZR 1 <= IZR (j - i)) by (apply IZR_le; lia). rewrite minus_IZR in Q. apply Rle_trans with (B (-452)); [apply bpow_le; lia|]. assert (1 * B (-452) <= (IZR j - IZR i) * B (-452)) by (apply Rmult_le_compat_r; lra). lra.
Qed.
