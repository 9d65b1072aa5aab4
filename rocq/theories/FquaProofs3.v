(** Proofs for C91: median, error bar, order of equal samples. *)
From Coq Require Import ZArith Reals Lra Lia List Permutation Bool Sorted.
Require Import Flocq.Core.Core Flocq.IEEE754.BinarySingleNaN.
From Verif Require Import Base ProcFloat InterpFloatProofs MeshFloatModel MeshFloatProofs BinFloatProofs FredModel FredSpec FredProofs FredProofs2 FredProofs3 FredProofs4 PrepFloatProofs FquaModel FquaSpec FquaProofs FquaProofs2.
Import ListNotations. Local Open Scope list_scope. Local Open Scope R_scope.

Lemma Rdiv_1 r : r / 1 = r. Proof. field. Qed.
Lemma dbl x : rnd64 (2 * val x) = 2 * val x.
Proof.
  pose proof (format64 x) as G. rewrite fexp_FLT in G. apply FLT_format_generic in G; [|reflexivity]. destruct G as [[k e] E1 E2 E3]. cbn [Fexp Fnum] in *.
  replace (2 * val x) with (IZR k * B (e + 1)); [apply format_int; [|lia]|]. { change (2 ^ 53)%Z with (Zpower radix2 53). lia. } rewrite E1. unfold F2R. cbn [Fnum Fexp]. rewrite bpow_plus. change (B 1) with 2. ring.
Qed.
Lemma sum1 a : fin a = true -> fin (np_sum [a]) = true /\ val (np_sum [a]) = val a.
Proof.
  intros F. destruct zero64_facts as [Fz Vz]. assert (Z : fin (add64 zero64 a) = true /\ val (add64 zero64 a) = val a). { destruct (add64_ok zero64 a a Fz F F) as [A C]; [rewrite Vz, Rplus_0_l, rnd64_val; lra|]. rewrite Vz, Rplus_0_l, rnd64_val in C. split; assumption. }
  change (np_sum [a]) with (add64 zero64 (add64 zero64 a)). destruct Z as [F1 V1]. destruct (add64_ok zero64 (add64 zero64 a) a Fz F1 F) as [A C]; [rewrite Vz, V1, Rplus_0_l, rnd64_val; lra|]. rewrite Vz, V1, Rplus_0_l, rnd64_val in C. split; assumption.
Qed.
Lemma zero_plus a : fin a = true -> fin (add64 zero64 a) = true /\ val (add64 zero64 a) = val a.
Proof. intros F. destruct zero64_facts as [Fz Vz]. destruct (add64_ok zero64 a a Fz F F) as [A C]; [rewrite Vz, Rplus_0_l, rnd64_val; lra|]. rewrite Vz, Rplus_0_l, rnd64_val in C. split; assumption. Qed.
Lemma sum2 a b : fin a = true -> fin b = true -> Rabs (val a) <= B 1022 -> Rabs (val b) <= B 1022 -> fin (np_sum [a; b]) = true /\ val (np_sum [a; b]) = rnd64 (val a + val b).
Proof.
  intros Fa Fb Ma Mb. change (np_sum [a; b]) with (add64 zero64 (add64 (add64 zero64 a) b)). destruct (zero_plus a Fa) as [F1 V1].
  destruct (add64_b (add64 zero64 a) b F1 Fb) as [F2 V2]. { rewrite V1. eapply Rle_trans; [apply Rabs_triang|]. change 1023%Z with (1 + 1022)%Z. rewrite bpow_plus. change (B 1) with 2. lra. }
  destruct (zero_plus _ F2) as [F3 V3]. split; [exact F3|]. rewrite V3, V2, V1. reflexivity.
Qed.
Lemma middle a b : fin a = true -> fin b = true -> Rabs (val a) <= B 1022 -> Rabs (val b) <= B 1022 -> val a <= val b ->
  let q := div64 (np_sum [a; b]) (of_Z64 2) in fin q = true /\ val a <= val q <= val b /\ forall M, Rabs (val a) <= M -> Rabs (val b) <= M -> Rabs (val q - (val a + val b) / 2) <= B (-52) * M + B (-1074).
Proof.
  intros Fa Fb Ma Mb AB q. destruct (sum2 a b Fa Fb Ma Mb) as [Fs Vs]. destruct (of_Z64_exact 2) as [V2 F2]; [lia|].
  assert (R1 : 2 * val a <= val (np_sum [a; b]) <= 2 * val b). { rewrite Vs, <- (dbl a), <- (dbl b). split; apply rnd64_le; lra. }
  assert (R2 : val a <= val (np_sum [a; b]) / 2 <= val b) by lra.
  destruct (div64_b (np_sum [a; b]) (of_Z64 2) Fs) as [Fq Vq]; [rewrite V2; lra|rewrite V2; apply (in_range_abs a b Ma Mb); assumption|]. fold q in Fq, Vq. rewrite V2 in Vq. split; [exact Fq|]. split; [rewrite Vq; apply between; assumption|].
  intros M Na Nb. pose proof (err_abs (val (np_sum [a; b]) / 2)) as E1. rewrite <- Vq in E1. destruct (plus_rel a b) as (d & Hd & Ed). rewrite Ed in Vs.
  assert (A1 : Rabs (val (np_sum [a; b]) / 2) <= M) by (apply Rabs_le; apply Rabs_le_inv in Na, Nb; lra). destruct small_facts as (S1 & _ & _ & S4 & _). pose proof (Rabs_pos (val a)).
  assert (A2 : B (-53) * Rabs (val (np_sum [a; b]) / 2) <= B (-53) * M) by (apply Rmult_le_compat_l; lra).
  assert (A3 : Rabs ((val a + val b) / 2 * d) <= M * B (-53)). { rewrite Rabs_mult. apply Rmult_le_compat; try apply Rabs_pos; [|exact Hd]. apply Rabs_le_inv in Na, Nb. apply Rabs_le. lra. }
  replace (val q - (val a + val b) / 2) with ((val q - val (np_sum [a; b]) / 2) + (val a + val b) / 2 * d) by (rewrite Vs; field). eapply Rle_trans; [apply Rabs_triang|]. rewrite S4.
  assert (B (-1075) <= B (-1074)) by (apply bpow_le; lia). lra.
Qed.
Section med.
Variable s : list b64.
Hypothesis Ss : forall i j, (i <= j < length s)%nat -> val (nth i s zero64) <= val (nth j s zero64).
Hypothesis Ms : moderate s.
Hypothesis Ns : s <> [].
Notation at_i i := (nth i s zero64).
Lemma len0 : (0 < length s)%nat. Proof. destruct s; [congruence|cbn; lia]. Qed.
Lemma median_odd : Nat.even (length s) = false -> fin (f_median s) = true /\ val (f_median s) = val (at_i (length s / 2)).
Proof.
  intros E. unfold f_median. rewrite E. pose proof len0. assert (length s / 2 < length s)%nat by (apply Nat.div_lt; lia). destruct (at_ok s Ms (length s / 2) H0) as [Fa Ma]. destruct (sum1 _ Fa) as [F1 V1]. destruct val_1 as [V11 F11].
  destruct (div64_b (np_sum [at_i (length s / 2)]) (of_Z64 1) F1) as [Fq Vq]; [rewrite V11; lra|rewrite V11, Rdiv_1, V1; eapply Rle_trans; [exact Ma|apply bpow_le; lia]|]. split; [exact Fq|]. rewrite Vq, V11, Rdiv_1, V1. apply rnd64_val.
Qed.
Lemma median_even : Nat.even (length s) = true -> let a := at_i (length s / 2 - 1) in let b := at_i (length s / 2) in fin (f_median s) = true /\ val a <= val (f_median s) <= val b /\
  forall M, Rabs (val a) <= M -> Rabs (val b) <= M -> Rabs (val (f_median s) - (val a + val b) / 2) <= B (-52) * M + B (-1074).
Proof.
  intros E a b. unfold f_median. rewrite E. pose proof len0. apply Nat.even_spec in E. destruct E as [k K]. assert (K2 : (length s / 2 = k)%nat) by (rewrite K, Nat.mul_comm; apply Nat.div_mul; lia). 
  destruct (at_ok s Ms (length s / 2 - 1)) as [Fa Ma]; [lia|]. destruct (at_ok s Ms (length s / 2)) as [Fb Mb]; [lia|]. apply middle; try assumption. apply Ss. lia.
Qed.
End med.

(** ** Arrangements agree on the values *)
Lemma sorted_unique (l : list R) : forall l', Permutation l l' -> (forall i j, (i <= j < length l)%nat -> nth i l 0 <= nth j l 0) -> (forall i j, (i <= j < length l')%nat -> nth i l' 0 <= nth j l' 0) -> l = l'.
Proof.
  induction l as [|a l IH]; intros l' P S S'; [apply Permutation_nil in P; auto|].
  destruct l' as [|b l']; [apply Permutation_sym, Permutation_nil in P; discriminate|].
  assert (AB : a = b).
  { apply Rle_antisym.
    - assert (I : In b (a :: l)) by (apply (Permutation_in b (Permutation_sym P)); left; reflexivity). destruct (In_nth _ _ 0 I) as (k & K & E). specialize (S 0%nat k ltac:(lia)). rewrite E in S. exact S.
    - assert (I : In a (b :: l')) by (apply (Permutation_in a P); left; reflexivity). destruct (In_nth _ _ 0 I) as (k & K & E). specialize (S' 0%nat k ltac:(lia)). rewrite E in S'. exact S'. }
  subst b. f_equal. apply IH; [exact (Permutation_cons_inv P)| |].
  - intros i j H. apply (S (Datatypes.S i) (Datatypes.S j)). cbn [length]. lia.
  - intros i j H. apply (S' (Datatypes.S i) (Datatypes.S j)). cbn [length]. lia.
Qed.
Lemma arranged_vals x s s' : smallest_first x s -> smallest_first x s' -> map val s = map val s'.
Proof.
  intros [P S] [P' S']. destruct zero64_facts as [_ Vz]. apply sorted_unique.
  - apply Permutation_map. eapply Permutation_trans; [apply Permutation_sym, P|exact P'].
  - intros i j H. rewrite map_length in H. rewrite <- Vz, !(map_nth val). apply S, H.
  - intros i j H. rewrite map_length in H. rewrite <- Vz, !(map_nth val). apply S', H.
Qed.
Lemma nth_vals s s' i : map val s = map val s' -> val (nth i s zero64) = val (nth i s' zero64).
Proof. intros E. rewrite <- (map_nth val s zero64 i), <- (map_nth val s' zero64 i), E. reflexivity. Qed.
Lemma f_at_vals s s' v : map val s = map val s' -> (forall i j, (i <= j < length s)%nat -> val (nth i s zero64) <= val (nth j s zero64)) -> moderate s -> moderate s' -> s <> [] -> (Z.of_nat (length s) <= 2 ^ 53)%Z -> fin v = true -> 0 <= val v -> val (f_at s v) = val (f_at s' v).
Proof.
  intros E Ss Ms Ms' Ns Ls F V. assert (EL : length s = length s') by (rewrite <- (map_length val s), E; apply map_length). assert (Ss' : forall i j, (i <= j < length s')%nat -> val (nth i s' zero64) <= val (nth j s' zero64)) by (intros i j H; rewrite <- !(nth_vals s s' _ E); apply Ss; lia).
  assert (Ns' : s' <> []) by (intros C; subst s'; destruct s; [congruence|discriminate]). assert (Ls' : (Z.of_nat (length s') <= 2 ^ 53)%Z) by lia. pose proof (len_pos s Ss Ms Ns Ls) as LP.
  destruct (Rlt_or_le (val v) (INR (length s - 1))) as [H|H].
  - rewrite (f_at_cell s Ss Ms Ns Ls v F (conj V H)). rewrite (f_at_cell s' Ss' Ms' Ns' Ls' v F) by (rewrite <- EL; lra). destruct (cell s Ss Ms Ns Ls v F (conj V H)) as (C1 & C2 & C3 & C4 & C5 & C6 & C7). set (i := Z.to_nat (ffloor v)) in *.
    destruct (at_ok s Ms i ltac:(lia)) as [Fa Ma]. destruct (at_ok s Ms (S i) ltac:(lia)) as [Fb Mb]. destruct (at_ok s' Ms' i ltac:(lia)) as [Fa' Ma']. destruct (at_ok s' Ms' (S i) ltac:(lia)) as [Fb' Mb'].
    destruct (lerp_ok _ _ Fa Fb Ma Mb (Ss i (S i) ltac:(lia)) _ C4 C6) as (_ & W & _). destruct (lerp_ok _ _ Fa' Fb' Ma' Mb' (Ss' i (S i) ltac:(lia)) _ C4 C6) as (_ & W' & _). rewrite W, W', !(nth_vals s s' _ E). reflexivity.
  - rewrite (f_at_end s Ss Ms Ns Ls v F H), (f_at_end s' Ss' Ms' Ns' Ls' v F) by (rewrite <- EL; exact H). rewrite <- EL. apply nth_vals, E.
Qed.

Section half.
Variable s : list b64.
Hypothesis Ss : forall i j, (i <= j < length s)%nat -> val (nth i s zero64) <= val (nth j s zero64).
Hypothesis Ms : moderate s.
Hypothesis Ns : s <> [].
Hypothesis Ls : (Z.of_nat (length s) <= 2 ^ 53)%Z.
Notation at_i i := (nth i s zero64).
Lemma half_index p : fin p = true -> val p = / 2 -> val (mul64 (of_Z64 (Z.of_nat (length s - 1))) p) = INR (length s - 1) / 2.
Proof.
  intros F P. destruct (index_ok s Ss Ms Ns Ls p F ltac:(lra)) as (_ & V & _). rewrite V, P, INR_IZR_INZ. change (/ 2) with (B (-1)). rewrite format_int by lia. change (B (-1)) with (/ 2). reflexivity.
Qed.
Lemma half_odd p k : (length s = 2 * k + 1)%nat -> fin p = true -> val p = / 2 -> exists q, f_quantile s p = Ok q /\ val q = val (at_i k).
Proof.
  intros L F P. exists (f_at s (mul64 (of_Z64 (Z.of_nat (length s - 1))) p)). split; [apply quantile_is; try assumption; lra|]. pose proof (half_index p F P) as V. destruct (index_ok s Ss Ms Ns Ls p F ltac:(lra)) as (Fv & _ & _). set (v := mul64 _ p) in *.
  assert (VK : val v = INR k). { rewrite V. replace (length s - 1)%nat with (2 * k)%nat by lia. rewrite mult_INR. cbn [INR]. field. }
  destruct (Nat.eq_dec k 0) as [K|K].
  - rewrite (f_at_end s Ss Ms Ns Ls v Fv) by (rewrite VK; apply le_INR; lia). f_equal. f_equal. lia.
  - assert (C : 0 <= val v < INR (length s - 1)) by (rewrite VK; split; [apply pos_INR|apply lt_INR; lia]). rewrite (f_at_cell s Ss Ms Ns Ls v Fv C). destruct (cell s Ss Ms Ns Ls v Fv C) as (C1 & C2 & C3 & C4 & C5 & C6 & C7). set (i := Z.to_nat (ffloor v)) in *.
    assert (IK : i = k). { rewrite VK in C3. rewrite INR_IZR_INZ, Zfloor_IZR in C3. lia. } rewrite IK in *. rewrite VK in C5. replace (INR k - INR k) with 0 in C5 by ring. rewrite rnd64_0 in C5.
    destruct (at_ok s Ms k ltac:(lia)) as [Fa Ma]. destruct (at_ok s Ms (S k) ltac:(lia)) as [Fb Mb]. apply lerp_0; try assumption. apply Ss. lia.
Qed.
Lemma half_even p k : (length s = 2 * S k)%nat -> fin p = true -> val p = / 2 -> exists q t, f_quantile s p = Ok q /\ q = f_lerp (at_i k) (at_i (S k)) t /\ fin t = true /\ val t = / 2.
Proof.
  intros L F P. exists (f_at s (mul64 (of_Z64 (Z.of_nat (length s - 1))) p)). set (v := mul64 _ p). exists (sub64 v (of_Z64 (ffloor v))). split; [apply quantile_is; try assumption; lra|]. pose proof (half_index p F P) as V. destruct (index_ok s Ss Ms Ns Ls p F ltac:(lra)) as (Fv & _ & _). fold v in V, Fv.
  assert (VK : val v = INR k + / 2). { rewrite V. replace (length s - 1)%nat with (2 * k + 1)%nat by lia. rewrite plus_INR, mult_INR. cbn [INR]. field. }
  assert (C : 0 <= val v < INR (length s - 1)). { rewrite VK. replace (length s - 1)%nat with (2 * k + 1)%nat by lia. rewrite plus_INR, mult_INR. cbn [INR]. pose proof (pos_INR k). split; lra. }
  rewrite (f_at_cell s Ss Ms Ns Ls v Fv C). destruct (cell s Ss Ms Ns Ls v Fv C) as (C1 & C2 & C3 & C4 & C5 & C6 & C7). set (i := Z.to_nat (ffloor v)) in *.
  assert (IK : i = k). { assert (INR i < INR (S k)) by (rewrite S_INR; lra). assert (INR k < INR (S i)) by (rewrite S_INR; lra). apply INR_lt in H, H0. lia. } rewrite IK in *. split; [reflexivity|]. split; [exact C4|]. rewrite C5, VK. replace (INR k + / 2 - INR k) with (B (-1)) by (change (B (-1)) with (/ 2); ring). apply bpow64. lia.
Qed.
End half.
