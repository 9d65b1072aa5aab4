(** Proofs for C89. *)
From Coq Require Import ZArith Reals Lra Lia List Permutation.
Require Import Flocq.Core.Core Flocq.IEEE754.BinarySingleNaN.
From Verif Require Import Base ProcFloat InterpFloatProofs MeshFloatProofs FredModel FredSpec.
Import ListNotations. Local Open Scope list_scope. Local Open Scope R_scope.

Lemma exact_app a b : exact (a ++ b) = exact a + exact b.
Proof. unfold exact. induction a as [|x a IH]; cbn [app fold_right]; [ring|]. rewrite IH. ring. Qed.
Lemma size_app a b : size (a ++ b) = size a + size b.
Proof. unfold size. induction a as [|x a IH]; cbn [app fold_right]; [ring|]. rewrite IH. ring. Qed.
Lemma size_pos l : 0 <= size l.
Proof. unfold size. induction l as [|x l IH]; cbn [fold_right]; [lra|]. pose proof (Rabs_pos (val x)). lra. Qed.
Lemma exact_size l : Rabs (exact l) <= size l.
Proof. unfold exact, size. induction l as [|x l IH]; cbn [fold_right]; [rewrite Rabs_R0; lra|]. eapply Rle_trans; [apply Rabs_triang|]. lra. Qed.
Lemma exact_perm a b : Permutation a b -> exact a = exact b.
Proof. unfold exact. induction 1; cbn [fold_right]; lra. Qed.
Lemma size_perm a b : Permutation a b -> size a = size b.
Proof. unfold size. induction 1; cbn [fold_right]; lra. Qed.
Lemma finite_app a b : finite (a ++ b) <-> finite a /\ finite b.
Proof. apply Forall_app. Qed.
Lemma finite_perm a b : Permutation a b -> finite b -> finite a.
Proof. intros P F. apply Forall_forall. intros x X. unfold finite in F. rewrite Forall_forall in F. apply F. apply (Permutation_in x P X). Qed.

Notation u := (B (-53)).
Lemma u0 : 0 < u. Proof. apply bpow_gt_0. Qed.
Lemma p_ge d : 1 <= (1 + u) ^ d.
Proof. apply pow_R1_Rle. pose proof u0. lra. Qed.
Lemma p_mono d d' : (d <= d')%nat -> (1 + u) ^ d <= (1 + u) ^ d'.
Proof. intros H. apply Rle_pow; [pose proof u0; lra|exact H]. Qed.

Lemma sums_err d l s : sums d l s -> finite l -> (1 + u) ^ d * size l <= B 1023 ->
  fin s = true /\ Rabs (val s - exact l) <= ((1 + u) ^ d - 1) * size l.
Proof.
  intros H. induction H as [z Fz Vz|x|d l1 s1 l2 s2 H1 IH1 H2 IH2|d l l' s H IH P|d d' l s H IH L]; intros F Ov.
  - split; [exact Fz|]. cbn [exact size fold_right pow]. rewrite Vz, Rminus_0_r, Rabs_R0. lra.
  - split; [inversion F; assumption|]. cbn [exact size fold_right pow]. replace (val x - (val x + 0)) with 0 by ring. rewrite Rabs_R0. lra.
  - apply finite_app in F. destruct F as [F1 F2]. rewrite size_app in *. rewrite exact_app. pose proof (size_pos l1) as P1. pose proof (size_pos l2) as P2. pose proof (p_ge d) as Pd. pose proof u0 as U.
    cbn [pow] in Ov |- *. set (p := (1 + u) ^ d) in *.
    assert (Ov' : p * (size l1 + size l2) <= B 1023) by (eapply Rle_trans; [|exact Ov]; rewrite Rmult_assoc; rewrite <- (Rmult_1_l (p * _)) at 1; apply Rmult_le_compat_r; [apply Rmult_le_pos; lra|lra]).
    destruct (IH1 F1) as [Fs1 E1]; [eapply Rle_trans; [|exact Ov']; apply Rmult_le_compat_l; lra|].
    destruct (IH2 F2) as [Fs2 E2]; [eapply Rle_trans; [|exact Ov']; apply Rmult_le_compat_l; lra|].
    pose proof (exact_size l1) as X1. pose proof (exact_size l2) as X2.
    assert (T : Rabs (val s1 + val s2 - (exact l1 + exact l2)) <= (p - 1) * (size l1 + size l2)).
    { replace (val s1 + val s2 - (exact l1 + exact l2)) with ((val s1 - exact l1) + (val s2 - exact l2)) by ring. eapply Rle_trans; [apply Rabs_triang|]. lra. }
    assert (X : Rabs (exact l1 + exact l2) <= size l1 + size l2) by (eapply Rle_trans; [apply Rabs_triang|]; lra).
    destruct (add64_b s1 s2 Fs1 Fs2) as [Fa Va].
    { replace (val s1 + val s2) with ((val s1 + val s2 - (exact l1 + exact l2)) + (exact l1 + exact l2)) by ring. eapply Rle_trans; [apply Rabs_triang|]. lra. }
    split; [exact Fa|]. destruct (plus_rel s1 s2) as (e & He & Ee). rewrite Va, Ee.
    replace ((val s1 + val s2) * (1 + e) - (exact l1 + exact l2)) with ((val s1 + val s2 - (exact l1 + exact l2)) * (1 + e) + (exact l1 + exact l2) * e) by ring.
    eapply Rle_trans; [apply Rabs_triang|]. rewrite !Rabs_mult.
    assert (A1 : Rabs (1 + e) <= 1 + u) by (eapply Rle_trans; [apply Rabs_triang|]; rewrite Rabs_R1; lra).
    apply Rle_trans with ((p - 1) * (size l1 + size l2) * (1 + u) + (size l1 + size l2) * u).
    + apply Rplus_le_compat; apply Rmult_le_compat; try apply Rabs_pos; assumption.
    + apply Req_le. ring.
  - rewrite <- (exact_perm _ _ P), <- (size_perm _ _ P) in *. apply IH; [exact (finite_perm _ _ P F)|exact Ov].
  - pose proof (p_mono _ _ L) as M. pose proof (size_pos l) as S0. destruct IH as [Fs E].
    + exact F.
    + eapply Rle_trans; [|exact Ov]. apply Rmult_le_compat_r; assumption.
    + split; [exact Fs|]. eapply Rle_trans; [exact E|]. apply Rmult_le_compat_r; [exact S0|lra].
Qed.

Lemma pow_lin d : INR d * eps <= 1 -> (1 + u) ^ d <= 1 + INR d * eps.
Proof.
  assert (E : eps = 2 * u) by (unfold eps; pose proof small_facts as (_ & _ & _ & H & _); exact H). rewrite E. pose proof u0 as U.
  induction d as [|d IH]; intros H; [cbn; lra|]. rewrite S_INR in *. assert (0 <= INR d) by apply pos_INR. cbn [pow].
  assert (Hd : INR d * (2 * u) <= 1) by nra. specialize (IH Hd). apply Rle_trans with ((1 + u) * (1 + INR d * (2 * u))); [apply Rmult_le_compat_l; lra|]. nra.
Qed.
Lemma sums_bound d l s : sums d l s -> finite l -> INR d * eps <= 1 -> size l <= B 1022 ->
  fin s = true /\ Rabs (val s - exact l) <= INR d * eps * size l.
Proof.
  intros H F D Z. pose proof (pow_lin d D) as P. pose proof (size_pos l) as S0. destruct (sums_err d l s H F) as [Fs E].
  - apply Rle_trans with (2 * B 1022); [apply Rmult_le_compat; [pose proof (p_ge d); lra|exact S0|lra|exact Z]|]. replace (2 * B 1022) with (B 1023); [lra|]. replace 1023%Z with (1 + 1022)%Z by reflexivity. rewrite bpow_plus. reflexivity.
  - split; [exact Fs|]. eapply Rle_trans; [exact E|]. apply Rmult_le_compat_r; [exact S0|lra].
Qed.

(** ** integers, signs *)
Lemma sums_multiples d l s (e : Z) (z : b64 -> Z) : sums d l s -> (-1074 <= e <= 970)%Z -> (forall x, In x l -> fin x = true /\ val x = IZR (z x) * B e) ->
  (fold_right Z.add 0 (map (fun x => Z.abs (z x)) l) <= 2 ^ 53)%Z -> fin s = true /\ val s = IZR (fold_right Z.add 0%Z (map z l)) * B e.
Proof.
  intros H He. assert (Nn : forall l, (Z.abs (fold_right Z.add 0 (map z l)) <= fold_right Z.add 0 (map (fun x => Z.abs (z x)) l))%Z) by (induction l0; cbn; lia).
  assert (App : forall f (a b : list b64), fold_right Z.add 0%Z (map f (a ++ b)) = (fold_right Z.add 0 (map f a) + fold_right Z.add 0 (map f b))%Z) by (intros f a b; rewrite map_app; induction (map f a); cbn; lia).
  assert (Per : forall f (a b : list b64), Permutation a b -> fold_right Z.add 0%Z (map f a) = fold_right Z.add 0%Z (map f b)) by (intros f a b P; induction P; cbn; lia).
  induction H as [z0 Fz Vz|x|d l1 s1 l2 s2 H1 IH1 H2 IH2|d l l' s H IH P|d d' l s H IH L]; intros F Ov.
  - split; [exact Fz|]. cbn [map fold_right]. rewrite Vz. ring.
  - destruct (F x (or_introl eq_refl)) as [Fx Vx]. split; [exact Fx|]. cbn [map fold_right]. rewrite Z.add_0_r. exact Vx.
  - rewrite App in Ov. rewrite App. pose proof (Nn l1) as N1. pose proof (Nn l2) as N2.
    destruct IH1 as [F1 V1]; [intros x X; apply F, in_or_app; left; exact X|lia|]. destruct IH2 as [F2 V2]; [intros x X; apply F, in_or_app; right; exact X|lia|].
    set (a := fold_right Z.add 0%Z (map z l1)) in *. set (b := fold_right Z.add 0%Z (map z l2)) in *.
    assert (E : val s1 + val s2 = IZR (a + b) * B e) by (rewrite V1, V2, plus_IZR; ring).
    destruct (add64_b s1 s2 F1 F2) as [Fa Va].
    + rewrite E, Rabs_mult, <- abs_IZR, (Rabs_right (B e)) by (pose proof (bpow_ge_0 radix2 e); lra). apply Rle_trans with (B 53 * B 970).
      * apply Rmult_le_compat; [apply IZR_le; lia|apply bpow_ge_0| |apply bpow_le; lia]. change (B 53) with (IZR (2 ^ 53)). apply IZR_le. lia.
      * rewrite <- bpow_plus. apply Rle_refl.
    + split; [exact Fa|]. rewrite Va, E. apply format_int; [lia|lia].
  - rewrite <- !(Per _ _ _ P) in *. apply IH; [|exact Ov]. intros x X. apply F. apply (Permutation_in x P X).
  - apply IH; assumption.
Qed.
Lemma sums_nonneg d l s : sums d l s -> Forall (fun x => fin x = true /\ 0 <= val x) l -> fin s = true -> 0 <= val s /\ forall x, In x l -> val x <= val s.
Proof.
  intros H. induction H as [z Fz Vz|x|d l1 s1 l2 s2 H1 IH1 H2 IH2|d l l' s H IH P|d d' l s H IH L]; intros F Fs.
  - rewrite Vz. split; [lra|intros ? []].
  - inversion F as [|? ? [? ?] _]; subst. split; [assumption|]. intros y [->|[]]. lra.
  - apply Forall_app in F. destruct F as [F1 F2].
    assert (Fin2 : fin s1 = true /\ fin s2 = true).
    { unfold add64, fin in *. destruct s1 as [b1|b1| |b1 m1 e1 h1], s2 as [b2|b2| |b2 m2 e2 h2]; cbn in *; try (split; [reflexivity|reflexivity]); try discriminate; destruct (Bool.eqb b1 b2); discriminate. }
    destruct Fin2 as [Fs1 Fs2]. destruct (IH1 F1 Fs1) as [P1 M1]. destruct (IH2 F2 Fs2) as [P2 M2].
    assert (Va : val (add64 s1 s2) = rnd64 (val s1 + val s2)).
    { pose proof (Bplus_correct 53 1024 p53 pe53 mode_NE s1 s2 Fs1 Fs2) as C. destruct (Rlt_bool _ _); [apply C|]. destruct C as [C _]. exfalso. unfold fin, add64 in Fs. unfold overflow_to_inf in C. cbn in C.
      destruct (Bplus mode_NE s1 s2); cbn in *; discriminate. }
    rewrite Va. assert (G1 : val s1 <= rnd64 (val s1 + val s2)) by (rewrite <- (rnd64_val s1) at 1; apply rnd64_le; lra). assert (G2 : val s2 <= rnd64 (val s1 + val s2)) by (rewrite <- (rnd64_val s2) at 1; apply rnd64_le; lra).
    split; [lra|]. intros x X. apply in_app_or in X. destruct X as [X|X]; [specialize (M1 x X)|specialize (M2 x X)]; lra.
  - destruct IH as [I1 I2]; [|exact Fs|].
    + apply Forall_forall. intros x X. rewrite Forall_forall in F. apply F, (Permutation_in x P X).
    + split; [exact I1|]. intros x X. apply I2. apply (Permutation_in x (Permutation_sym P) X).
  - apply IH; assumption.
Qed.

(** ** numpy's order *)
Lemma add_up_sums l : forall d l0 s, sums d l0 s -> sums (d + length l) (l0 ++ l) (add_up s l).
Proof.
  induction l as [|x l IH]; intros d l0 s H; cbn [add_up fold_left length].
  - rewrite app_nil_r, Nat.add_0_r. exact H.
  - replace (d + S (length l))%nat with (S d + length l)%nat by lia. replace (l0 ++ x :: l) with ((l0 ++ [x]) ++ l) by (rewrite <- app_assoc; reflexivity).
    apply IH. apply sums_add; [exact H|]. eapply sums_more; [apply sums_one|lia].
Qed.
Lemma add_row_sums d parts acc row : Forall2 (sums d) parts acc -> length row = length acc ->
  exists parts', Forall2 (sums (S d)) parts' (add_row acc row) /\ length parts' = length parts /\ Permutation (concat parts') (concat parts ++ row).
Proof.
  intros H. revert row. induction H as [|p a parts acc Hp H IH]; intros row L; destruct row as [|r row]; try discriminate.
  - exists []. repeat split; constructor.
  - injection L as L. destruct (IH row L) as (ps & F & Len & P). exists ((p ++ [r]) :: ps). split; [|split].
    + unfold add_row in *. cbn [combine map fst snd]. constructor; [|exact F]. apply sums_add; [exact Hp|]. eapply sums_more; [apply sums_one|lia].
    + cbn. lia.
    + cbn [concat]. rewrite P. rewrite <- !app_assoc. apply Permutation_app_head. cbn [app]. apply Permutation_middle.
Qed.
Lemma add_row_length acc row : length row = length acc -> length (add_row acc row) = length acc.
Proof. intros H. unfold add_row. rewrite map_length, combine_length, H. lia. Qed.
Lemma add_rows_sums k : forall d parts acc l, Forall2 (sums d) parts acc -> length acc = 8%nat -> (8 * k <= length l)%nat ->
  exists parts', Forall2 (sums (d + k)) parts' (fst (add_rows k acc l)) /\ length (fst (add_rows k acc l)) = 8%nat /\
    snd (add_rows k acc l) = skipn (8 * k) l /\ Permutation (concat parts') (concat parts ++ firstn (8 * k) l).
Proof.
  induction k as [|k IH]; intros d parts acc l H L8 Lk.
  - exists parts. cbn [add_rows fst snd Nat.mul]. rewrite Nat.add_0_r, app_nil_r. repeat split; try assumption. apply Permutation_refl.
  - cbn [add_rows]. assert (Lr : length (firstn 8 l) = length acc) by (rewrite firstn_length; lia).
    destruct (add_row_sums d parts acc (firstn 8 l) H Lr) as (ps & F & Len & P).
    destruct (IH (S d) ps (add_row acc (firstn 8 l)) (skipn 8 l) F) as (qs & Fq & L8' & Sk & Pq); [rewrite add_row_length by exact Lr; exact L8|rewrite skipn_length; lia|].
    exists qs. replace (d + S k)%nat with (S d + k)%nat by lia. split; [exact Fq|]. split; [exact L8'|]. split.
    + rewrite Sk. clear. replace (8 * S k)%nat with (8 + 8 * k)%nat by lia. revert l. generalize (8 * k)%nat as j. intros j l. do 8 (destruct l as [|? l]; [rewrite !skipn_nil; reflexivity|]). reflexivity.
    + rewrite Pq, P, <- app_assoc. apply Permutation_app_head. replace (8 * S k)%nat with (8 + 8 * k)%nat by lia.
      rewrite <- (firstn_skipn 8 l) at 3. rewrite firstn_app, firstn_firstn. rewrite Nat.min_r by lia. apply Permutation_app_head. rewrite firstn_length. replace (8 + 8 * k - Nat.min 8 (length l))%nat with (8 * k)%nat by lia. reflexivity.
Qed.
Lemma add_eight_sums d parts acc : Forall2 (sums d) parts acc -> length acc = 8%nat -> sums (d + 3) (concat parts) (add_eight acc).
Proof.
  intros H L. destruct acc as [|a0 [|a1 [|a2 [|a3 [|a4 [|a5 [|a6 [|a7 [|? ?]]]]]]]]]; try discriminate. clear L.
  inversion H as [|p0 ? ? ? H0 T0]; subst. inversion T0 as [|p1 ? ? ? H1 T1]; subst. inversion T1 as [|p2 ? ? ? H2 T2]; subst. inversion T2 as [|p3 ? ? ? H3 T3]; subst.
  inversion T3 as [|p4 ? ? ? H4 T4]; subst. inversion T4 as [|p5 ? ? ? H5 T5]; subst. inversion T5 as [|p6 ? ? ? H6 T6]; subst. inversion T6 as [|p7 ? ? ? H7 T7]; subst. inversion T7; subst.
  cbn [concat]. unfold add_eight. cbn [nth].
  replace (p0 ++ p1 ++ p2 ++ p3 ++ p4 ++ p5 ++ p6 ++ p7 ++ []) with (((p0 ++ p1) ++ (p2 ++ p3)) ++ ((p4 ++ p5) ++ (p6 ++ p7))) by (rewrite <- !app_assoc, app_nil_r; reflexivity).
  replace (d + 3)%nat with (S (S (S d))) by lia. repeat apply sums_add; assumption.
Qed.
Lemma zero64_facts : fin zero64 = true /\ val zero64 = 0.
Proof. split; [reflexivity|]. unfold zero64. destruct (of_Z64_exact 0) as [V _]; [cbn; lia|]. exact V. Qed.
Lemma concat_singles {A} (l : list A) : concat (map (fun x => [x]) l) = l.
Proof. induction l as [|x l IH]; [reflexivity|]. cbn [map concat app]. rewrite IH. reflexivity. Qed.
Lemma add_block_sums l : (8 <= length l <= 128)%nat -> sums 25 l (add_block l).
Proof.
  intros L. unfold add_block. set (k := (length l / 8 - 1)%nat). assert (K : (8 * (k + 1) + length l mod 8 = length l)%nat). { unfold k. pose proof (Nat.div_mod_eq (length l) 8). assert (1 <= length l / 8)%nat by (apply (Nat.div_le_mono 8 (length l) 8); lia). lia. }
  assert (Kb : (k <= 15)%nat). { unfold k. assert (length l / 8 <= 16)%nat by (apply (Nat.div_le_mono (length l) 128 8); lia). lia. }
  pose proof (Nat.mod_upper_bound (length l) 8 ltac:(lia)) as Rb.
  assert (H0 : Forall2 (sums 0) (map (fun x => [x]) (firstn 8 l)) (firstn 8 l)) by (induction (firstn 8 l); constructor; [apply sums_one|assumption]).
  destruct (add_rows_sums k 0 _ (firstn 8 l) (skipn 8 l) H0) as (ps & F & L8 & Sk & P); [rewrite firstn_length; lia|rewrite skipn_length; lia|].
  destruct (add_rows k (firstn 8 l) (skipn 8 l)) as [acc rest] eqn:E. cbn [fst snd] in *.
  pose proof (add_eight_sums _ _ _ F L8) as H8. apply (add_up_sums rest) in H8.
  apply (sums_order _ (concat ps ++ rest)).
  - eapply sums_more; [exact H8|]. rewrite Sk, !skipn_length. lia.
  - rewrite P, Sk. rewrite <- app_assoc, firstn_skipn. replace (concat (map (fun x => [x]) (firstn 8 l))) with (firstn 8 l) by (symmetry; apply concat_singles). rewrite firstn_skipn. reflexivity.
Qed.
Lemma pairwise_sums fuel : forall l k, (length l <= fuel + 128)%nat -> (length l <= 112 * 2 ^ k + 16)%nat -> sums (25 + k) l (pairwise fuel l).
Proof.
  induction fuel as [|fuel IH]; intros l k Lf Lk.
  - cbn [pairwise]. destruct (Nat.ltb_spec (length l) 8).
    + apply (sums_more (0 + length l)); [|lia]. apply (add_up_sums l 0 []). apply sums_nothing; apply zero64_facts.
    + destruct (Nat.leb_spec (length l) 128); [|lia]. apply (sums_more 25); [apply add_block_sums; lia|lia].
  - cbn [pairwise]. destruct (Nat.ltb_spec (length l) 8).
    + apply (sums_more (0 + length l)); [|lia]. apply (add_up_sums l 0 []). apply sums_nothing; apply zero64_facts.
    + destruct (Nat.leb_spec (length l) 128); [apply (sums_more 25); [apply add_block_sums; lia|lia]|].
      set (n := length l) in *. set (n2 := (n / 2 - (n / 2) mod 8)%nat).
      pose proof (Nat.div_mod_eq n 2) as D. pose proof (Nat.mod_upper_bound n 2 ltac:(lia)). pose proof (Nat.mod_upper_bound (n / 2) 8 ltac:(lia)). assert (N2 : (n2 <= n / 2 /\ n / 2 <= n2 + 7)%nat) by (unfold n2; lia).
      destruct k as [|k]; [cbn [Nat.pow] in Lk; lia|]. rewrite Nat.pow_succ_r' in Lk.
      rewrite <- (firstn_skipn n2 l) at 1. replace (25 + S k)%nat with (S (25 + k)) by lia.
      apply sums_add; apply IH; rewrite ?firstn_length, ?skipn_length; fold n; lia.
Qed.
Lemma np_sum_adds : adds np_sum np_depth.
Proof.
  intros l. unfold np_sum, np_depth. replace (26 + Nat.log2 (length l / 56))%nat with (S (25 + Nat.log2 (length l / 56))) by lia. change l with ([] ++ l) at 2. apply sums_add.
  - eapply sums_more; [apply sums_nothing; apply zero64_facts|lia].
  - apply pairwise_sums; [lia|]. pose proof (Nat.div_mod_eq (length l) 56). pose proof (Nat.mod_upper_bound (length l) 56 ltac:(lia)).
    destruct (Nat.eq_dec (length l / 56) 0) as [E|E]; [rewrite E; cbn; lia|]. pose proof (Nat.log2_spec (length l / 56) ltac:(lia)) as [_ U]. rewrite Nat.pow_succ_r' in U. lia.
Qed.
