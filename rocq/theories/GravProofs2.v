From Coq Require Import Reals Lra Lia List ZArith Psatz.
From Verif Require Import Base GravSpec GravModel GravProofs.
Local Open Scope R_scope.

(** ** the backward transform undoes the forward one (even side) *)
Lemma ortho_sq N : (0 < N)%nat -> / sqrt (INR N) * / sqrt (INR N) = / INR N.
Proof. intros H. assert (0 < INR N) by (apply lt_0_INR; exact H). rewrite <- Rinv_mult. rewrite sqrt_sqrt; lra. Qed.
Lemma triple_cos n h d0 d1 d2 : (0 < n)%nat -> (0 < h)%nat ->
  sum3 n n (S h) (fun k0 k1 k2 => cw h k2 * cos (2 * PI * IZR d0 * INR k0 / INR n + 2 * PI * IZR d1 * INR k1 / INR n + 2 * PI * IZR d2 * INR k2 / INR (2 * h))) = G n d0 * G n d1 * G (2 * h) d2.
Proof.
  intros Hn Hh. unfold sum3.
  transitivity (sumn n (fun k0 => sumn (S h) (fun k2 => cw h k2 * (G n d1 * cos (2 * PI * IZR d2 * INR k2 / INR (2 * h) + 2 * PI * IZR d0 * INR k0 / INR n))))).
  { apply sumn_ext. intros k0 _. rewrite sumn_swap. apply sumn_ext. intros k2 _. rewrite <- (cos_sum n d1) by assumption. rewrite <- sumn_mul. apply sumn_ext. intros k1 _. f_equal. f_equal. ring. }
  rewrite sumn_swap. transitivity (sumn (S h) (fun k2 => (G n d0 * G n d1) * (cw h k2 * cos (2 * PI * IZR d2 * INR k2 / INR (2 * h))))).
  { apply sumn_ext. intros k2 _. transitivity (cw h k2 * G n d1 * sumn n (fun k0 => cos (2 * PI * IZR d2 * INR k2 / INR (2 * h) + 2 * PI * IZR d0 * INR k0 / INR n))).
    - rewrite <- sumn_mul. apply sumn_ext. intros; ring.
    - rewrite cos_sum by assumption. ring. }
  rewrite sumn_mul, half_sum by assumption. reflexivity.
Qed.
Lemma fft_inverse h x : (0 < h)%nat -> same (2 * h) (2 * h) (2 * h) (irfftn (2 * h) h (rfftn (2 * h) x)) x.
Proof.
  intros Hh j0 j1 j2 H0 H1 H2. set (n := (2 * h)%nat). fold n in H0, H1, H2. assert (Hn : (0 < n)%nat) by lia. assert (Pn : 0 < INR n) by (apply lt_0_INR; exact Hn).
  assert (Nn : (0 < n * n * n)%nat) by nia.
  unfold irfftn. fold n. cbn zeta.
  transitivity (/ sqrt (INR (n * n * n)) * / sqrt (INR (n * n * n)) * sum3 n n (S h) (fun k0 k1 k2 => sum3 n n n (fun i0 i1 i2 =>
     x i0 i1 i2 * (cw h k2 * cos (2 * PI * IZR (Z.of_nat j0 - Z.of_nat i0) * INR k0 / INR n + 2 * PI * IZR (Z.of_nat j1 - Z.of_nat i1) * INR k1 / INR n + 2 * PI * IZR (Z.of_nat j2 - Z.of_nat i2) * INR k2 / INR n))))).
  { rewrite Rmult_assoc. f_equal. rewrite <- sum3_mul. apply sum3_ext. intros k0 k1 k2 _ _ _. unfold rfftn. cbn [fst snd]. fold (cw h k2).
    set (ps := 2 * PI * (INR k0 * INR j0 / INR n + INR k1 * INR j1 / INR n + INR k2 * INR j2 / INR n)).
    transitivity (/ sqrt (INR (n * n * n)) * (cw h k2 * (cos ps * sum3 n n n (fun i0 i1 i2 => x i0 i1 i2 * cos (2 * PI * (INR k0 * INR i0 + INR k1 * INR i1 + INR k2 * INR i2) / INR n)) -
       sin ps * sum3 n n n (fun i0 i1 i2 => - (x i0 i1 i2 * sin (2 * PI * (INR k0 * INR i0 + INR k1 * INR i1 + INR k2 * INR i2) / INR n)))))).
    { ring. }
    f_equal. rewrite <- !sum3_mul, <- sum3_sub, <- sum3_mul. apply sum3_ext. intros i0 i1 i2 _ _ _.
    replace (2 * PI * IZR (Z.of_nat j0 - Z.of_nat i0) * INR k0 / INR n + 2 * PI * IZR (Z.of_nat j1 - Z.of_nat i1) * INR k1 / INR n + 2 * PI * IZR (Z.of_nat j2 - Z.of_nat i2) * INR k2 / INR n)
      with (ps - 2 * PI * (INR k0 * INR i0 + INR k1 * INR i1 + INR k2 * INR i2) / INR n).
    2:{ unfold ps. rewrite !minus_IZR, <- !INR_IZR_INZ. field. lra. }
    rewrite cos_minus. ring. }
  rewrite sum3_swap, ortho_sq by exact Nn.
  transitivity (/ INR (n * n * n) * sum3 n n n (fun i0 i1 i2 => x i0 i1 i2 * ((if Nat.eqb j0 i0 then INR n else 0) * (if Nat.eqb j1 i1 then INR n else 0) * (if Nat.eqb j2 i2 then INR n else 0)))).
  { f_equal. apply sum3_ext. intros i0 i1 i2 I0 I1 I2. rewrite sum3_mul. f_equal. unfold n at 5 6 7. fold n. 
    pose proof (triple_cos n h (Z.of_nat j0 - Z.of_nat i0) (Z.of_nat j1 - Z.of_nat i1) (Z.of_nat j2 - Z.of_nat i2) Hn Hh) as T. fold n in T. rewrite T. rewrite !G_diff by assumption. reflexivity. }
  rewrite (sum3_pick n n n _ j0 j1 j2 H0 H1 H2).
  - rewrite !Nat.eqb_refl, !mult_INR. field. lra.
  - intros i0 i1 i2 _ _ _ N. destruct (Nat.eqb_spec j0 i0); [|ring]. destruct (Nat.eqb_spec j1 i1); [|ring]. destruct (Nat.eqb_spec j2 i2); [|ring]. exfalso. intuition congruence.
Qed.
(** ** linearity of the backward transform *)
Lemma irfftn_ext n h X Y : same n n (S h) X Y -> forall i j k, irfftn n h X i j k = irfftn n h Y i j k.
Proof. intros H i j k. unfold irfftn. f_equal. apply sum3_ext. intros a b c Ha Hb Hc. rewrite (H a b c Ha Hb Hc). reflexivity. Qed.
Lemma irfftn_add3 n h X Y Z i j k : irfftn n h (fun a b c => (fst (X a b c) + fst (Y a b c) + fst (Z a b c), snd (X a b c) + snd (Y a b c) + snd (Z a b c))) i j k =
  irfftn n h X i j k + irfftn n h Y i j k + irfftn n h Z i j k.
Proof.
  unfold irfftn. rewrite <- !Rmult_plus_distr_l. f_equal. rewrite <- !sum3_add. apply sum3_ext. intros a b c _ _ _. cbn [fst snd]. ring.
Qed.
(** ** the mean is the zero component *)
Lemma triple_cos_j n h k0 k1 k2 a : (0 < n)%nat -> (0 < h)%nat ->
  sum3 n n (2 * h) (fun j0 j1 j2 => cos (a + 2 * PI * IZR k0 * INR j0 / INR n + 2 * PI * IZR k1 * INR j1 / INR n + 2 * PI * IZR k2 * INR j2 / INR (2 * h))) = G n k0 * G n k1 * G (2 * h) k2 * cos a.
Proof.
  intros Hn Hh. unfold sum3.
  transitivity (sumn n (fun j0 => sumn n (fun j1 => G (2 * h) k2 * cos (a + 2 * PI * IZR k0 * INR j0 / INR n + 2 * PI * IZR k1 * INR j1 / INR n)))).
  { apply sumn_ext. intros. apply sumn_ext. intros. apply cos_sum. lia. }
  transitivity (sumn n (fun j0 => G (2 * h) k2 * G n k1 * cos (a + 2 * PI * IZR k0 * INR j0 / INR n))).
  { apply sumn_ext. intros. rewrite sumn_mul, cos_sum by assumption. ring. }
  rewrite sumn_mul, cos_sum by assumption. ring.
Qed.
Lemma irfftn_sum n h X : (0 < n)%nat -> (0 < h)%nat -> sum3 n n (2 * h) (irfftn n h X) = sqrt (INR (n * n * (2 * h))) * fst (X O O O).
Proof.
  intros Hn Hh. assert (Nn : (0 < n * n * (2 * h))%nat) by nia. assert (Pn : 0 < INR n) by (apply lt_0_INR; exact Hn). assert (Ph : 0 < INR (2 * h)) by (apply lt_0_INR; lia).
  unfold irfftn. cbn zeta. rewrite sum3_mul, sum3_swap.
  assert (GK : forall k N, (k < N)%nat -> G N (Z.of_nat k) = if Nat.eqb k 0 then INR N else 0).
  { intros k N Hk. pose proof (G_diff N k 0 Hk ltac:(lia)) as E. rewrite Z.sub_0_r in E. exact E. }
  assert (K0 : forall a d, sum3 n n (2 * h) (fun j0 j1 j2 => cos (a + 2 * PI * IZR (Z.of_nat d) * 0)) = sum3 n n (2 * h) (fun j0 j1 j2 => cos a)) by (intros; apply sum3_ext; intros; f_equal; ring). clear K0.
  rewrite (sum3_pick n n (S h) _ 0 0 0); [|lia|lia|lia|].
  2:{ intros k0 k1 k2 L0 L1 L2 N.
      transitivity (sum3 n n (2 * h) (fun j0 j1 j2 => cw h k2 * fst (X k0 k1 k2) * cos (0 + 2 * PI * IZR (Z.of_nat k0) * INR j0 / INR n + 2 * PI * IZR (Z.of_nat k1) * INR j1 / INR n + 2 * PI * IZR (Z.of_nat k2) * INR j2 / INR (2 * h)) +
         cw h k2 * snd (X k0 k1 k2) * cos (PI / 2 + 2 * PI * IZR (Z.of_nat k0) * INR j0 / INR n + 2 * PI * IZR (Z.of_nat k1) * INR j1 / INR n + 2 * PI * IZR (Z.of_nat k2) * INR j2 / INR (2 * h)))).
      - apply sum3_ext. intros j0 j1 j2 _ _ _. fold (cw h k2). rewrite <- !INR_IZR_INZ.
        set (ph := 2 * PI * (INR k0 * INR j0 / INR n + INR k1 * INR j1 / INR n + INR k2 * INR j2 / INR (2 * h))).
        replace (0 + 2 * PI * INR k0 * INR j0 / INR n + 2 * PI * INR k1 * INR j1 / INR n + 2 * PI * INR k2 * INR j2 / INR (2 * h)) with ph by (unfold ph; field; lra).
        replace (PI / 2 + 2 * PI * INR k0 * INR j0 / INR n + 2 * PI * INR k1 * INR j1 / INR n + 2 * PI * INR k2 * INR j2 / INR (2 * h)) with (PI / 2 + ph) by (unfold ph; field; lra).
        assert (Cs : cos (PI / 2 + ph) = - sin ph) by (rewrite (sin_cos ph); ring). rewrite Cs. ring.
      - rewrite sum3_add, !sum3_mul, !triple_cos_j by assumption. rewrite !GK by lia.
        destruct (Nat.eqb_spec k0 0); [|ring]. destruct (Nat.eqb_spec k1 0); [|ring]. destruct (Nat.eqb_spec k2 0); [|ring]. exfalso. lia. }
  transitivity (/ sqrt (INR (n * n * (2 * h))) * sum3 n n (2 * h) (fun _ _ _ => fst (X O O O))).
  { f_equal. apply sum3_ext. intros j0 j1 j2 _ _ _. cbn [Nat.eqb orb INR].
    replace (2 * PI * (0 * INR j0 / INR n + 0 * INR j1 / INR n + 0 * INR j2 / INR (2 * h))) with 0 by (field; lra). rewrite cos_0, sin_0. ring. }
  rewrite sum3_const. assert (S : INR (n * n * (2 * h)) = sqrt (INR (n * n * (2 * h))) * sqrt (INR (n * n * (2 * h)))) by (rewrite sqrt_sqrt; [reflexivity|apply pos_INR]).
  rewrite S at 2. field. apply Rgt_not_eq. apply sqrt_lt_R0. apply lt_0_INR. exact Nn.
Qed.
Lemma rfftn_zero n x : (0 < n)%nat -> fst (rfftn n x O O O) = / sqrt (INR (n * n * n)) * sum3 n n n x /\ snd (rfftn n x O O O) = 0.
Proof.
  intros Hn. assert (Pn : 0 < INR n) by (apply lt_0_INR; exact Hn). unfold rfftn. cbn [fst snd INR]. split.
  - f_equal. apply sum3_ext. intros. replace (2 * PI * (0 * INR i + 0 * INR j + 0 * INR k) / INR n) with 0 by (field; lra). rewrite cos_0. ring.
  - rewrite (sum3_ext n n n _ (fun _ _ _ => 0)); [rewrite sum3_const; ring|]. intros. replace (2 * PI * (0 * INR i + 0 * INR j + 0 * INR k) / INR n) with 0 by (field; lra). rewrite sin_0. ring.
Qed.
(** Multiplying the spectrum by a real window [w] that is 1 at zero keeps the sum. *)
Lemma filter_sum h x (w : grid R) : (0 < h)%nat -> w O O O = 1 ->
  sum3 (2 * h) (2 * h) (2 * h) (irfftn (2 * h) h (fun a b c => scal (w a b c) (rfftn (2 * h) x a b c))) = sum3 (2 * h) (2 * h) (2 * h) x.
Proof.
  intros Hh W. rewrite irfftn_sum by lia. unfold scal. cbn [fst]. rewrite W. destruct (rfftn_zero (2 * h) x ltac:(lia)) as [-> _]. set (N := (2 * h * (2 * h) * (2 * h))%nat).
  assert (0 < sqrt (INR N)) by (apply sqrt_lt_R0, lt_0_INR; unfold N; nia). field. lra.
Qed.
(** ** wave numbers *)
Lemma wave_spec n i : (i < n)%nat -> (- Z.of_nat n < 2 * wave n i <= Z.of_nat n)%Z /\ exists q, (wave n i = Z.of_nat i + q * Z.of_nat n)%Z.
Proof.
  intros Hi. unfold wave. pose proof (Nat.div_mod n 2 ltac:(lia)) as D. pose proof (Nat.mod_upper_bound n 2 ltac:(lia)) as M. destruct (Nat.ltb_spec (n / 2) i) as [L|L].
  - split; [lia|]. exists (-1)%Z. lia.
  - split; [lia|]. exists 0%Z. lia.
Qed.
Lemma wave_odd n i : (0 < i < n)%nat -> (2 * i <> n)%nat -> wave n (n - i) = (- wave n i)%Z.
Proof.
  intros Hi N. unfold wave. pose proof (Nat.div_mod n 2 ltac:(lia)) as D. pose proof (Nat.mod_upper_bound n 2 ltac:(lia)) as M.
  destruct (Nat.ltb_spec (n / 2) i), (Nat.ltb_spec (n / 2) (n - i)); lia.
Qed.
Lemma sum_sq_int n a b c : sum_sq (kvec n a b c) = IZR (wave n a * wave n a + wave n b * wave n b + Z.of_nat c * Z.of_nat c).
Proof. unfold kvec, sum_sq. rewrite !plus_IZR, !mult_IZR, <- !INR_IZR_INZ. reflexivity. Qed.
Lemma sum_sq_zero n a b c : (a < n)%nat -> (b < n)%nat -> sum_sq (kvec n a b c) < 1 <-> a = O /\ b = O /\ c = O.
Proof.
  intros Ha Hb. rewrite sum_sq_int. split.
  - intros H. apply lt_IZR in H. destruct (wave_spec n a Ha) as [Ba (qa & Ea)]. destruct (wave_spec n b Hb) as [Bb (qb & Eb)].
    pose proof (Z.square_nonneg (wave n a)). pose proof (Z.square_nonneg (wave n b)). pose proof (Z.square_nonneg (Z.of_nat c)).
    assert (A0 : (wave n a * wave n a = 0)%Z) by lia. assert (B0 : (wave n b * wave n b = 0)%Z) by lia. assert (C0 : (Z.of_nat c * Z.of_nat c = 0)%Z) by lia.
    apply Z.mul_eq_0 in A0. apply Z.mul_eq_0 in B0. apply Z.mul_eq_0 in C0. assert (qa = 0)%Z by nia. assert (qb = 0)%Z by nia. nia.
  - intros (-> & -> & ->). unfold wave. rewrite (proj2 (Nat.ltb_ge _ _)) by lia. simpl. lra.
Qed.
Lemma green_zero n : green (kvec n 0 0 0) = 0 \/ (n = 0)%nat.
Proof. left. unfold green. rewrite sum_sq_int. unfold wave. rewrite (proj2 (Nat.ltb_ge _ _)) by lia. simpl. destruct (Rlt_dec 0 (/ 1000000)); [reflexivity|lra]. Qed.
Lemma green_nonzero n a b c : (a < n)%nat -> (b < n)%nat -> ~ (a = O /\ b = O /\ c = O) -> sum_sq (kvec n a b c) >= 1 /\ green (kvec n a b c) = -1 / sum_sq (kvec n a b c).
Proof.
  intros Ha Hb N. assert (G1 : sum_sq (kvec n a b c) >= 1). { apply Rnot_lt_ge. intros H. apply N. apply (sum_sq_zero n a b c Ha Hb). exact H. }
  split; [exact G1|]. unfold green. destruct (Rlt_dec (sum_sq (kvec n a b c)) (/ 1000000)); [lra|reflexivity].
Qed.
(** ** shape function *)
Lemma sinc_bounds x : 0 < x <= PI / 2 -> 0 < sin x / x <= 1.
Proof.
  intros H. pose proof PI_RGT_0. pose proof (sin_gt_0 x ltac:(lra) ltac:(lra)) as P. pose proof (sin_lt_x x ltac:(lra)) as L.
  split; [apply Rdiv_lt_0_compat; lra|]. apply (Rmult_le_reg_r x); [lra|]. unfold Rdiv. rewrite Rmult_assoc, Rinv_l by lra. lra.
Qed.
Lemma shape_bounds n k : (0 < n)%nat -> 2 * Rabs k <= INR n -> 0 < shape_at_ki n k <= 1.
Proof.
  intros Hn H. unfold shape_at_ki. assert (Pn : 0 < INR n) by (apply lt_0_INR; exact Hn). destruct (Rlt_dec (Rabs k) (/ 1000000)) as [L|L]; [lra|]. cbn zeta.
  set (x := PI * k / INR n). assert (E : sin x / x = sin (Rabs x) / Rabs x).
  { unfold Rabs. destruct (Rcase_abs x); [|reflexivity]. rewrite sin_neg. field. lra. }
  rewrite E. assert (X : Rabs x = PI * Rabs k / INR n). { unfold x, Rdiv. rewrite !Rabs_mult, (Rabs_right PI), (Rabs_right (/ INR n)); [reflexivity| |pose proof PI_RGT_0; lra]. apply Rle_ge, Rlt_le, Rinv_0_lt_compat. exact Pn. }
  pose proof PI_RGT_0 as HP. assert (B : 0 < Rabs x <= PI / 2).
  { rewrite X. split; [apply Rdiv_lt_0_compat; [apply Rmult_lt_0_compat; lra|exact Pn]|]. apply (Rmult_le_reg_r (INR n)); [exact Pn|]. unfold Rdiv. rewrite Rmult_assoc, Rinv_l by lra. nra. }
  destruct (sinc_bounds _ B). nra.
Qed.
Lemma shape_even n k : shape_at_ki n (- k) = shape_at_ki n k.
Proof.
  unfold shape_at_ki. rewrite Rabs_Ropp. destruct (Rlt_dec (Rabs k) (/ 1000000)) as [|L]; [reflexivity|]. cbn zeta. replace (PI * - k / INR n) with (- (PI * k / INR n)) by (unfold Rdiv; ring).
  rewrite sin_neg. set (s := sin _). set (x := PI * k / INR n). replace (- s / - x) with (s / x); [reflexivity|]. unfold Rdiv. rewrite Rinv_opp. ring.
Qed.
Lemma shape_nd_bounds c n i0 i1 i2 : (i0 < n)%nat -> (i1 < n)%nat -> (2 * i2 <= n)%nat -> 0 < shape_nd c n (kvec n i0 i1 i2) <= 1.
Proof.
  intros H0 H1 H2. unfold shape_nd. destruct c; [|lra]. unfold kvec.
  assert (W : forall i, (i < n)%nat -> 2 * Rabs (IZR (wave n i)) <= INR n).
  { intros i Hi. destruct (wave_spec n i Hi) as [B _]. rewrite INR_IZR_INZ. rewrite <- abs_IZR, <- mult_IZR. apply IZR_le. lia. }
  destruct (shape_bounds n _ ltac:(lia) (W i0 H0)). destruct (shape_bounds n _ ltac:(lia) (W i1 H1)).
  assert (W2 : 2 * Rabs (INR i2) <= INR n). { rewrite Rabs_right by (apply Rle_ge, pos_INR). replace 2 with (INR 2) by (simpl; lra). rewrite <- mult_INR. apply le_INR. exact H2. }
  destruct (shape_bounds n _ ltac:(lia) W2). 
  set (a := shape_at_ki n (IZR (wave n i0))) in *. set (b := shape_at_ki n (IZR (wave n i1))) in *. set (d := shape_at_ki n (INR i2)) in *.
  assert (0 < a * b <= 1) by nra. nra.
Qed.
Lemma shape_nd_zero c n : shape_nd c n (kvec n 0 0 0) = 1.
Proof.
  unfold shape_nd. destruct c; [|reflexivity]. unfold kvec, wave. rewrite (proj2 (Nat.ltb_ge _ _)) by lia. simpl. unfold shape_at_ki. rewrite Rabs_R0. destruct (Rlt_dec 0 (/ 1000000)); lra.
Qed.
(** ** windows *)
Lemma sum_sq_nonneg k : 0 <= sum_sq k.
Proof. destruct k as [[a b] c]. unfold sum_sq. nra. Qed.
Lemma gauss_bounds r l k : 0 < gauss_window r l k <= 1.
Proof.
  unfold gauss_window. split; [apply exp_pos|]. rewrite <- exp_0. pose proof (sum_sq_nonneg k). set (q := 2 * PI * r / l).
  assert (E : -0.5 * q ^ 2 * sum_sq k <= 0) by nra. destruct E as [E|E]; [left; apply exp_increasing; exact E|right; rewrite E; reflexivity].
Qed.
Lemma exp_le x y : x <= y -> exp x <= exp y.
Proof. intros [H|H]; [left; apply exp_increasing; exact H|right; rewrite H; reflexivity]. Qed.
Lemma gauss_mono_k r l k k' : sum_sq k <= sum_sq k' -> gauss_window r l k' <= gauss_window r l k.
Proof. intros H. unfold gauss_window. apply exp_le. set (q := 2 * PI * r / l). nra. Qed.
Lemma gauss_mono_r r r' l k : 0 < l -> 0 <= r <= r' -> gauss_window r' l k <= gauss_window r l k.
Proof.
  intros Hl H. unfold gauss_window. apply exp_le. pose proof (sum_sq_nonneg k). pose proof PI_RGT_0.
  assert (A : 0 <= 2 * PI * r / l <= 2 * PI * r' / l).
  { assert (P : 0 < 2 * PI / l) by (apply Rdiv_lt_0_compat; lra). replace (2 * PI * r / l) with (2 * PI / l * r) by (unfold Rdiv; ring). replace (2 * PI * r' / l) with (2 * PI / l * r') by (unfold Rdiv; ring). nra. }
  set (q := 2 * PI * r / l) in *. set (q' := 2 * PI * r' / l) in *. assert (q ^ 2 <= q' ^ 2) by nra. nra.
Qed.
Lemma gauss_compose r1 r2 l k : 0 < l -> gauss_window r1 l k * gauss_window r2 l k = gauss_window (sqrt (r1 ^ 2 + r2 ^ 2)) l k.
Proof.
  intros Hl. unfold gauss_window. rewrite <- exp_plus. f_equal.
  assert (S : sqrt (r1 ^ 2 + r2 ^ 2) ^ 2 = r1 ^ 2 + r2 ^ 2). { rewrite <- Rsqr_pow2. apply Rsqr_sqrt. nra. }
  set (s := sqrt (r1 ^ 2 + r2 ^ 2)) in *. replace ((2 * PI * s / l) ^ 2) with ((2 * PI / l) ^ 2 * s ^ 2) by (unfold Rdiv; ring). rewrite S. unfold Rdiv. ring.
Qed.
(** The spherical top-hat window is between -1 and 1. *)
Lemma tophat_num x : 0 <= x -> - (x ^ 3 / 3) <= sin x - x * cos x <= x ^ 3 / 3.
Proof.
  intros Hx. destruct Hx as [Hx|<-]; [|rewrite sin_0; lra].
  assert (D1 : forall y, derivable_pt_lim (fun t => t ^ 3 / 3 - (sin t - t * cos t)) y (y ^ 2 - y * sin y)).
  { intros y. replace (y ^ 2 - y * sin y) with ((INR 3 * y ^ 2) * / 3 - (cos y - (1 * cos y + y * - sin y))) by (simpl; field).
    apply derivable_pt_lim_minus.
    - apply (derivable_pt_lim_ext (fun t => t ^ 3 * / 3)); [intros; reflexivity|]. apply (derivable_pt_lim_ext (mult_real_fct (/ 3) (fun t => t ^ 3))); [intros t; unfold mult_real_fct; ring|].
      replace (INR 3 * y ^ 2 * / 3) with (/ 3 * (INR 3 * y ^ 2)) by ring. apply derivable_pt_lim_scal. apply (derivable_pt_lim_pow y 3).
    - apply derivable_pt_lim_minus; [apply derivable_pt_lim_sin|]. apply (derivable_pt_lim_mult (fun t => t) cos y 1 (- sin y)); [apply derivable_pt_lim_id|apply derivable_pt_lim_cos]. }
  assert (D2 : forall y, derivable_pt_lim (fun t => t ^ 3 / 3 + (sin t - t * cos t)) y (y ^ 2 + y * sin y)).
  { intros y. replace (y ^ 2 + y * sin y) with ((INR 3 * y ^ 2) * / 3 + (cos y - (1 * cos y + y * - sin y))) by (simpl; field).
    apply derivable_pt_lim_plus.
    - apply (derivable_pt_lim_ext (fun t => t ^ 3 * / 3)); [intros; reflexivity|]. apply (derivable_pt_lim_ext (mult_real_fct (/ 3) (fun t => t ^ 3))); [intros t; unfold mult_real_fct; ring|].
      replace (INR 3 * y ^ 2 * / 3) with (/ 3 * (INR 3 * y ^ 2)) by ring. apply derivable_pt_lim_scal. apply (derivable_pt_lim_pow y 3).
    - apply derivable_pt_lim_minus; [apply derivable_pt_lim_sin|]. apply (derivable_pt_lim_mult (fun t => t) cos y 1 (- sin y)); [apply derivable_pt_lim_id|apply derivable_pt_lim_cos]. }
  assert (SB : forall c, 0 < c -> - c <= sin c <= c).
  { intros c Hc. pose proof (sin_lt_x c Hc). split; [|lra]. pose proof (sin_lt_x c Hc). destruct (Rle_or_lt c PI) as [L|L]; [pose proof (sin_ge_0 c ltac:(lra) L); lra|].
    pose proof (SIN_bound c). assert (1 < PI) by (pose proof PI2_1; pose proof PI_RGT_0; lra). lra. }
  destruct (MVT_cor2 (fun t => t ^ 3 / 3 - (sin t - t * cos t)) (fun y => y ^ 2 - y * sin y) 0 x Hx (fun c _ => D1 c)) as (c & E & Hc).
  destruct (MVT_cor2 (fun t => t ^ 3 / 3 + (sin t - t * cos t)) (fun y => y ^ 2 + y * sin y) 0 x Hx (fun c _ => D2 c)) as (d & E' & Hd).
  rewrite sin_0 in E, E'. destruct (SB c ltac:(lra)). destruct (SB d ltac:(lra)).
  assert (0 <= c ^ 2 - c * sin c) by nra. assert (0 <= d ^ 2 + d * sin d) by nra.
  assert (0 <= (c ^ 2 - c * sin c) * (x - 0)) by (apply Rmult_le_pos; lra). assert (0 <= (d ^ 2 + d * sin d) * (x - 0)) by (apply Rmult_le_pos; lra).
  replace (0 ^ 3 / 3) with 0 in * by (simpl; lra). lra.
Qed.
Lemma tophat_bounds kr : 0 <= kr -> -1 <= tophat_at kr <= 1.
Proof.
  intros H. unfold tophat_at. destruct (Rlt_dec kr (/ 1000000)) as [L|L]; [lra|]. assert (P : 0 < kr) by lra. assert (P3 : 0 < kr ^ 3) by (apply pow_lt; exact P).
  destruct (tophat_num kr H). split; apply (Rmult_le_reg_r (kr ^ 3)); try exact P3; unfold Rdiv; rewrite Rmult_assoc, Rinv_l by lra; lra.
Qed.
