(** Proofs for C100: relative errors. *)
From Coq Require Import ZArith Reals Lra Lia List Bool.
Require Import Flocq.Core.Core Flocq.IEEE754.BinarySingleNaN.
From Verif Require Import Base ProcFloat InterpFloatProofs MeshFloatModel MeshFloatProofs FredModel FredSpec FredProofs FredProofs2 NfltProofs FknnModel FknnSpec FknnProofs FknnProofs3 FdenModel FdenSpec.
Import ListNotations. Local Open Scope list_scope. Local Open Scope R_scope.

Notation ee := (bpow radix2 (-52)).
Lemma pw n : 1 <= (1 + ee) ^ n.
Proof. apply pow_R1_Rle. pose proof (bpow_gt_0 radix2 (-52)). lra. Qed.
Lemma pw_pos n : 0 < / (1 + ee) ^ n.
Proof. apply Rinv_0_lt_compat. pose proof (pw n). lra. Qed.
Lemma pw_inv n : / (1 + ee) ^ n <= 1.
Proof. apply Rle_trans with (/ 1); [apply Rinv_le_contravar; [lra|apply pw]|lra]. Qed.
Lemma pw_two n : (Z.of_nat n <= 2 ^ 50)%Z -> (1 + ee) ^ n <= 2.
Proof.
  intros H. assert (G : forall m, INR m * ee <= / 2 -> (1 + ee) ^ m <= 1 + 2 * (INR m * ee)).
  { induction m as [|m IH]; intros Hm; [cbn; lra|]. rewrite S_INR in *. pose proof (bpow_gt_0 radix2 (-52)) as P. specialize (IH ltac:(lra)). cbn [pow]. pose proof (pos_INR m) as M.
    apply Rle_trans with ((1 + ee) * (1 + 2 * (INR m * ee))); [apply Rmult_le_compat_l; lra|]. assert (ee * (2 * (INR m * ee)) <= ee * 1) by (apply Rmult_le_compat_l; lra). lra. }
  assert (X : INR n * ee <= / 4).
  { apply Rle_trans with (bpow radix2 50 * ee); [|rewrite <- bpow_plus; cbn; lra]. apply Rmult_le_compat_r; [apply bpow_ge_0|]. rewrite INR_IZR_INZ. change (bpow radix2 50) with (IZR (2 ^ 50)). apply IZR_le. exact H. }
  specialize (G n ltac:(lra)). lra.
Qed.
(** Factors. *)
Definition fac (n : nat) (f : R) : Prop := / (1 + ee) ^ n <= f <= (1 + ee) ^ n.
Lemma fac_pos n f : fac n f -> 0 < f.
Proof. intros [H _]. pose proof (pw_pos n). lra. Qed.
Lemma fac_more n m f : (n <= m)%nat -> fac n f -> fac m f.
Proof.
  intros L [H1 H2]. assert (E : (1 + ee) ^ n <= (1 + ee) ^ m) by (apply Rle_pow; [pose proof (bpow_gt_0 radix2 (-52)); lra|exact L]). split; [|lra]. eapply Rle_trans; [|exact H1]. apply Rinv_le_contravar; [pose proof (pw n); lra|exact E].
Qed.
Lemma fac_mul n m f g : fac n f -> fac m g -> fac (n + m) (f * g).
Proof.
  intros [A1 A2] [B1 B2]. pose proof (pw_pos n). pose proof (pw_pos m). split.
  - rewrite pow_add, Rinv_mult. apply Rmult_le_compat; lra.
  - rewrite pow_add. apply Rmult_le_compat; lra.
Qed.
Lemma fac_inv n f : fac n f -> fac n (/ f).
Proof.
  intros H. pose proof (fac_pos _ _ H) as P. destruct H as [A1 A2]. split; [apply Rinv_le_contravar; assumption|]. rewrite <- (Rinv_inv ((1 + ee) ^ n)). apply Rinv_le_contravar; [apply pw_pos|exact A1].
Qed.
Lemma fac_1 n : fac n 1.
Proof. split; [apply pw_inv|apply pw]. Qed.
Lemma fac_two n f : (Z.of_nat n <= 2 ^ 50)%Z -> fac n f -> / 2 <= f <= 2.
Proof. intros H [A1 A2]. pose proof (pw_two n H) as P. split; [|lra]. eapply Rle_trans; [|exact A1]. apply Rinv_le_contravar; [pose proof (pw n); lra|exact P]. Qed.
Lemma fac_d d : Rabs d <= B (-53) -> fac 1 (1 + d).
Proof.
  intros Hd. apply Rabs_le_inv in Hd. assert (E : B (-53) = ee / 2) by (replace (-52)%Z with (1 + -53)%Z by reflexivity; rewrite bpow_plus; change (bpow radix2 1) with 2; field). rewrite E in Hd. pose proof (bpow_gt_0 radix2 (-52)) as E0. assert (E1 : ee <= 1) by (apply (bpow_le radix2 (-52) 0); lia).
  unfold fac. rewrite pow_1. split; [|lra]. apply Rmult_le_reg_r with (1 + ee); [lra|]. rewrite Rinv_l by lra. assert ((1 - ee / 2) * (1 + ee) <= (1 + d) * (1 + ee)) by (apply Rmult_le_compat_r; lra). assert (ee * ee <= ee * 1) by (apply Rmult_le_compat_l; lra). lra.
Qed.
Lemma fac_round x : x = 0 \/ B (-1020) <= x -> exists f, fac 1 f /\ rnd64 x = x * f.
Proof.
  intros [->|H]; [exists 1; split; [apply fac_1|rewrite rnd64_0; ring]|]. pose proof (bpow_gt_0 radix2 (-1020)) as P. destruct (err64 x) as (d & e & Hd & _ & Hz & ->). exists (1 + d). split.
  - apply fac_d, Hd.
  - rewrite Hz; [ring|]. rewrite Rabs_right by lra. eapply Rle_trans; [|exact H]. apply bpow_le. lia.
Qed.
Lemma medium_pos k X : medium k X -> 0 <= X.
Proof. intros [->|[H _]]; [lra|]. pose proof (bpow_gt_0 radix2 (- k)). lra. Qed.
Lemma medium_more k m X : (k <= m)%Z -> medium k X -> medium m X.
Proof. intros L [H|[H1 H2]]; [left; exact H|right]. split; [eapply Rle_trans; [apply bpow_le|exact H1]; lia|eapply Rle_trans; [exact H2|apply bpow_le; lia]]. Qed.
Lemma medium_mul k m X Y : medium k X -> medium m Y -> medium (k + m) (X * Y).
Proof.
  intros [->|[A1 A2]]; [left; ring|]. intros [->|[B1 B2]]; [left; ring|]. right. pose proof (bpow_gt_0 radix2 (- k)). pose proof (bpow_gt_0 radix2 (- m)). split; [replace (- (k + m))%Z with (- k + - m)%Z by lia|]; rewrite bpow_plus; apply Rmult_le_compat; lra.
Qed.
Lemma medium_inv k Y : medium k Y -> Y <> 0 -> medium k (/ Y).
Proof.
  intros [->|[B1 B2]] N; [congruence|]. right. pose proof (bpow_gt_0 radix2 (- k)). split; [rewrite bpow_opp; apply Rinv_le_contravar; [lra|exact B2]|]. rewrite <- (Z.opp_involutive k) at 1. rewrite (bpow_opp radix2 (- k)). apply Rinv_le_contravar; assumption.
Qed.
Lemma medium_div k m X Y : medium k X -> medium m Y -> Y <> 0 -> medium (k + m) (X / Y).
Proof. intros A C N. apply medium_mul; [exact A|apply medium_inv; assumption]. Qed.
(** A value close to a medium one is in range. *)
Lemma scaled k X n f : medium k X -> (Z.of_nat n <= 2 ^ 50)%Z -> fac n f -> medium (k + 1) (X * f).
Proof.
  intros H Hn F. apply medium_mul; [exact H|]. right. destruct (fac_two n f Hn F) as [A1 A2]. change (- (1))%Z with (-1)%Z. change (bpow radix2 (-1)) with (/ 2). change (bpow radix2 1) with 2. lra.
Qed.
Lemma round_close k X n f y : medium k X -> (k <= 1010)%Z -> (Z.of_nat n <= 2 ^ 50)%Z -> fac n f -> fin y = true -> val y = rnd64 (X * f) -> close (n + 1) y X.
Proof.
  intros M Hk Hn F Fy V. split; [exact Fy|]. pose proof (scaled k X n f M Hn F) as S. destruct (fac_round (X * f)) as (g & G & E).
  { destruct S as [S|[S _]]; [left; exact S|right]. eapply Rle_trans; [apply bpow_le|exact S]. lia. }
  exists (f * g). split; [rewrite V, E; ring|]. apply fac_mul; assumption.
Qed.
Lemma in_range k X : medium k X -> (k <= 1023)%Z -> Rabs X <= B 1023.
Proof. intros [->|[H1 H2]] Hk; [rewrite Rabs_R0; apply bpow_ge_0|]. pose proof (bpow_gt_0 radix2 (- k)). rewrite Rabs_right by lra. eapply Rle_trans; [exact H2|apply bpow_le; exact Hk]. Qed.
Lemma close_mul k n m x y X Y : close n x X -> close m y Y -> medium k (X * Y) -> (k <= 1010)%Z -> (Z.of_nat (n + m) <= 2 ^ 50)%Z -> close (n + m + 1) (mul64 x y) (X * Y).
Proof.
  intros (Fx & f & Vx & F) (Fy & g & Vy & G) M Hk Hn. pose proof (fac_mul _ _ _ _ F G) as FG. assert (E : val x * val y = X * Y * (f * g)) by (rewrite Vx, Vy; ring).
  pose proof (scaled k _ _ _ M Hn FG) as S. destruct (mul64_b x y Fx Fy) as [Fm Vm]; [rewrite E; apply (in_range (k + 1) _ S); lia|]. rewrite E in Vm. exact (round_close k _ _ _ _ M Hk Hn FG Fm Vm).
Qed.
Lemma close_div k n m x y X Y : close n x X -> close m y Y -> Y <> 0 -> medium k (X / Y) -> (k <= 1010)%Z -> (Z.of_nat (n + m) <= 2 ^ 50)%Z -> close (n + m + 1) (div64 x y) (X / Y).
Proof.
  intros (Fx & f & Vx & F) (Fy & g & Vy & G) N M Hk Hn. pose proof (fac_mul _ _ _ _ F (fac_inv _ _ G)) as FG. pose proof (fac_pos _ _ G) as Gp.
  assert (Ny : val y <> 0) by (rewrite Vy; apply Rmult_integral_contrapositive; split; [exact N|lra]).
  assert (E : val x / val y = X / Y * (f * / g)) by (rewrite Vx, Vy; field; split; [lra|exact N]).
  pose proof (scaled k _ _ _ M Hn FG) as S. destruct (div64_b x y Fx Ny) as [Fm Vm]; [rewrite E; apply (in_range (k + 1) _ S); lia|]. rewrite E in Vm. exact (round_close k _ _ _ _ M Hk Hn FG Fm Vm).
Qed.
Lemma close_exact x : fin x = true -> close 0 x (val x).
Proof. intros F. split; [exact F|]. exists 1. split; [ring|apply fac_1]. Qed.
Lemma close_more n m x X : (n <= m)%nat -> close n x X -> close m x X.
Proof. intros L (F & f & V & G). split; [exact F|]. exists f. split; [exact V|]. exact (fac_more n m f L G). Qed.
Lemma close_eq n x X Y : X = Y -> close n x X -> close n x Y.
Proof. intros ->. auto. Qed.
(** Sums of numbers that are not negative. *)
Lemma exact_app l l' : exact (l ++ l') = exact l + exact l'.
Proof. unfold exact. induction l as [|a l IHl]; [cbn; ring|]. cbn [app fold_right]. rewrite IHl. ring. Qed.
Lemma sums_rel d l s : sums d l s -> Forall (fun x => fin x = true /\ 0 <= val x) l -> exact l <= B 1000 -> (d <= 100)%nat -> close d s (exact l) /\ 0 <= exact l.
Proof.
  intros H. induction H as [z F V|x|d l s l' s' _ IH _ IH'|d l l' s _ IH P|d d' l s _ IH L]; intros Hl Hb Hd.
  - split; [|cbn; lra]. split; [exact F|]. exists 1. split; [rewrite V; cbn; ring|apply fac_1].
  - inversion Hl as [|? ? [F P] _]; subst. cbn [exact fold_right] in *. rewrite Rplus_0_r in *. split; [apply close_exact, F|exact P].
  - apply Forall_app in Hl. destruct Hl as [Hl Hl']. assert (E : exact (l ++ l') = exact l + exact l') by apply exact_app.
    assert (P0 : forall m, Forall (fun x => fin x = true /\ 0 <= val x) m -> 0 <= exact m) by (induction 1 as [|x m [_ Hx] _ IHm]; [cbn; lra|]; unfold exact in *; cbn [fold_right]; lra).
    pose proof (P0 _ Hl). pose proof (P0 _ Hl'). rewrite E in *. destruct (IH Hl ltac:(lra) ltac:(lia)) as [(F & f & V & G) _]. destruct (IH' Hl' ltac:(lra) ltac:(lia)) as [(F' & f' & V' & G') _]. split; [|lra].
    assert (Z : (Z.of_nat d <= 2 ^ 50)%Z) by lia. destruct (fac_two d f Z G) as [f1 f2]. destruct (fac_two d f' Z G') as [f1' f2'].
    assert (Vb : 0 <= val s <= 2 * exact l) by (rewrite V; split; [apply Rmult_le_pos; lra|rewrite Rmult_comm; apply Rmult_le_compat_r; lra]). assert (Vb' : 0 <= val s' <= 2 * exact l') by (rewrite V'; split; [apply Rmult_le_pos; lra|rewrite Rmult_comm; apply Rmult_le_compat_r; lra]).
    destruct (add64_b s s' F F') as [Fs Vs]; [rewrite Rabs_right by lra; apply Rle_trans with (2 * B 1000); [lra|]; change 2 with (B 1); rewrite <- bpow_plus; apply bpow_le; lia|].
    destruct (plus_rel s s') as (dl & Hd' & Ed).
    split; [exact Fs|]. destruct (Req_dec (exact l + exact l') 0) as [Z0|NZ].
    + exists 1. assert (exact l = 0 /\ exact l' = 0) as [Z1 Z2] by lra. split; [rewrite Vs, V, V', Z1, Z2, !Rmult_0_l, Rplus_0_l, rnd64_0; ring|apply fac_1].
    + assert (T0 : 0 < exact l + exact l') by lra. set (T := exact l + exact l') in *. set (q := (exact l * f + exact l' * f') / T). assert (Q : fac d q).
      { destruct G as [g1 g2], G' as [g1' g2']. split.
        - apply Rmult_le_reg_r with T; [exact T0|]. unfold q, Rdiv. rewrite Rmult_assoc, Rinv_l, Rmult_1_r by exact NZ. assert (exact l * / (1 + ee) ^ d <= exact l * f) by (apply Rmult_le_compat_l; lra). assert (exact l' * / (1 + ee) ^ d <= exact l' * f') by (apply Rmult_le_compat_l; lra). unfold T. lra.
        - apply Rmult_le_reg_r with T; [exact T0|]. unfold q, Rdiv. rewrite Rmult_assoc, Rinv_l, Rmult_1_r by exact NZ. assert (exact l * f <= exact l * (1 + ee) ^ d) by (apply Rmult_le_compat_l; lra). assert (exact l' * f' <= exact l' * (1 + ee) ^ d) by (apply Rmult_le_compat_l; lra). unfold T. lra. }
      exists (q * (1 + dl)). split.
      * rewrite Vs, Ed, V, V'. unfold q. field. exact NZ.
      * replace (S d) with (d + 1)%nat by lia. apply fac_mul; [exact Q|apply fac_d, Hd'].
  - assert (E : exact l = exact l') by (clear - P; unfold exact; induction P; cbn [fold_right]; lra). rewrite <- E. rewrite <- E in Hb. apply IH; [|exact Hb|exact Hd]. eapply Permutation.Permutation_Forall; [apply Permutation.Permutation_sym; exact P|exact Hl].
  - destruct (IH Hl Hb ltac:(lia)) as [C Q]. split; [eapply close_more; eassumption|exact Q].
Qed.
