(** C46, C47, continued: what the solver and the smoothing do to a plane wave, and the windows as published. *)
From Coq Require Import Reals Lra Lia List ZArith Psatz.
From Coquelicot Require Import Coquelicot.
From Verif Require Import Base GravSpec GravModel GravProofs GravProofs2 GravProofs3.
Local Open Scope R_scope.

(** The plane wave A cos(p + 2 pi (a i + b j + c k) / n) on an n x n x n grid. *)
Definition plane (n : nat) (A p : R) (a b c : Z) : grid R := fun i j k =>
  A * cos (p + 2 * PI * (IZR a * INR i + IZR b * INR j + IZR c * INR k) / INR n).
(** The wave number (a, b, c) as the windows take it. *)
Definition kz (a b c : Z) : R * R * R := (IZR a, IZR b, IZR c).

Lemma G_zero n m : dvd n m = false -> G n m = 0.
Proof. intros H. unfold G. rewrite H. reflexivity. Qed.
Definition match3 (n : nat) (a b c : Z) (k0 k1 k2 : nat) : bool :=
  (dvd n (a + Z.of_nat k0) && dvd n (b + Z.of_nat k1) && dvd n (c + Z.of_nat k2)) ||
  (dvd n (a - Z.of_nat k0) && dvd n (b - Z.of_nat k1) && dvd n (c - Z.of_nat k2)).
Lemma G3_zero n a b c : (dvd n a && dvd n b && dvd n c)%bool = false -> G n a * G n b * G n c = 0.
Proof.
  intros H. destruct (dvd n a) eqn:A; [|rewrite (G_zero n a A); ring]. destruct (dvd n b) eqn:B; [|rewrite (G_zero n b B); ring].
  destruct (dvd n c) eqn:C; [discriminate|rewrite (G_zero n c C); ring].
Qed.
Lemma triple_n h a k0 k1 k2 : (0 < h)%nat -> let n := (2 * h)%nat in
  sum3 n n n (fun j0 j1 j2 => cos (a + 2 * PI * (IZR k0 * INR j0 + IZR k1 * INR j1 + IZR k2 * INR j2) / INR n)) = G n k0 * G n k1 * G n k2 * cos a.
Proof.
  intros Hh n. transitivity (G n k0 * G n k1 * G (2 * h) k2 * cos a); [|reflexivity]. rewrite <- (triple_cos_j n h k0 k1 k2 a ltac:(lia) Hh). apply sum3_ext. intros. f_equal. fold n. field. apply not_0_INR. lia.
Qed.
Lemma plane_spectrum h A p a b c k0 k1 k2 : (0 < h)%nat -> match3 (2 * h) a b c k0 k1 k2 = false -> rfftn (2 * h) (plane (2 * h) A p a b c) k0 k1 k2 = (0, 0).
Proof.
  intros Hh M. unfold match3 in M. apply Bool.orb_false_iff in M. destruct M as [M1 M2]. apply G3_zero in M1. apply G3_zero in M2.
  pose proof (triple_n h p (a + Z.of_nat k0) (b + Z.of_nat k1) (c + Z.of_nat k2) Hh) as C1. pose proof (triple_n h p (a - Z.of_nat k0) (b - Z.of_nat k1) (c - Z.of_nat k2) Hh) as C2.
  pose proof (triple_n h (p - PI / 2) (a + Z.of_nat k0) (b + Z.of_nat k1) (c + Z.of_nat k2) Hh) as S1. pose proof (triple_n h (p - PI / 2) (a - Z.of_nat k0) (b - Z.of_nat k1) (c - Z.of_nat k2) Hh) as S2.
  cbn zeta in C1, C2, S1, S2. rewrite M1, Rmult_0_l in C1, S1. rewrite M2, Rmult_0_l in C2, S2.
  assert (Pn : INR (2 * h) <> 0) by (apply not_0_INR; lia). set (n := (2 * h)%nat) in *.
  unfold rfftn. apply injective_projections; cbn [fst snd].
  - rewrite (sum3_ext n n n _ (fun j0 j1 j2 => A / 2 * (cos (p + 2 * PI * (IZR (a + Z.of_nat k0) * INR j0 + IZR (b + Z.of_nat k1) * INR j1 + IZR (c + Z.of_nat k2) * INR j2) / INR n) +
      cos (p + 2 * PI * (IZR (a - Z.of_nat k0) * INR j0 + IZR (b - Z.of_nat k1) * INR j1 + IZR (c - Z.of_nat k2) * INR j2) / INR n)))).
    + rewrite sum3_mul, sum3_add, C1, C2. ring.
    + intros j0 j1 j2 _ _ _. unfold plane. rewrite !plus_IZR, !minus_IZR, <- !INR_IZR_INZ.
      set (u := p + 2 * PI * (IZR a * INR j0 + IZR b * INR j1 + IZR c * INR j2) / INR n). set (v := 2 * PI * (INR k0 * INR j0 + INR k1 * INR j1 + INR k2 * INR j2) / INR n).
      match goal with |- _ = A / 2 * (cos ?X + cos ?Y) => replace X with (u + v) by (unfold u, v; field; exact Pn); replace Y with (u - v) by (unfold u, v; field; exact Pn) end.
      rewrite cos_plus, cos_minus. field.
  - rewrite (sum3_ext n n n _ (fun j0 j1 j2 => A / 2 * (cos (p - PI / 2 + 2 * PI * (IZR (a - Z.of_nat k0) * INR j0 + IZR (b - Z.of_nat k1) * INR j1 + IZR (c - Z.of_nat k2) * INR j2) / INR n) -
      cos (p - PI / 2 + 2 * PI * (IZR (a + Z.of_nat k0) * INR j0 + IZR (b + Z.of_nat k1) * INR j1 + IZR (c + Z.of_nat k2) * INR j2) / INR n)))).
    + rewrite sum3_mul, sum3_sub, S1, S2. ring.
    + intros j0 j1 j2 _ _ _. unfold plane. rewrite !plus_IZR, !minus_IZR, <- !INR_IZR_INZ.
      set (u := p + 2 * PI * (IZR a * INR j0 + IZR b * INR j1 + IZR c * INR j2) / INR n). set (v := 2 * PI * (INR k0 * INR j0 + INR k1 * INR j1 + INR k2 * INR j2) / INR n).
      match goal with |- _ = A / 2 * (cos ?X - cos ?Y) => replace X with ((u - v) - PI / 2) by (unfold u, v; field; exact Pn); replace Y with ((u + v) - PI / 2) by (unfold u, v; field; exact Pn) end.
      assert (Cs : forall t, cos (t - PI / 2) = sin t) by (intros t; rewrite cos_minus, cos_PI2, sin_PI2; ring). rewrite !Cs. rewrite sin_plus, sin_minus. field.
Qed.
(** A filter that takes the value W on the modes of the wave multiplies the wave by W. *)
Lemma plane_filter h A p a b c (w : grid R) W : (0 < h)%nat ->
  (forall k0 k1 k2, (k0 < 2 * h)%nat -> (k1 < 2 * h)%nat -> (k2 <= h)%nat -> match3 (2 * h) a b c k0 k1 k2 = true -> w k0 k1 k2 = W) ->
  same (2 * h) (2 * h) (2 * h) (irfftn (2 * h) h (fun k0 k1 k2 => scal (w k0 k1 k2) (rfftn (2 * h) (plane (2 * h) A p a b c) k0 k1 k2))) (plane (2 * h) (W * A) p a b c).
Proof.
  intros Hh H i j k Hi Hj Hk. set (x := plane (2 * h) A p a b c).
  transitivity (irfftn (2 * h) h (fun k0 k1 k2 => (W * fst (rfftn (2 * h) x k0 k1 k2) + 0 * fst (rfftn (2 * h) x k0 k1 k2), W * snd (rfftn (2 * h) x k0 k1 k2) + 0 * snd (rfftn (2 * h) x k0 k1 k2))) i j k).
  - apply irfftn_ext. intros k0 k1 k2 L0 L1 L2. destruct (match3 (2 * h) a b c k0 k1 k2) eqn:M.
    + rewrite (H k0 k1 k2) by (assumption || lia). unfold scal. f_equal; ring.
    + unfold x. rewrite plane_spectrum by assumption. unfold scal. cbn [fst snd]. f_equal; ring.
  - rewrite irfftn_lin, (fft_inverse h x Hh i j k Hi Hj Hk). unfold x, plane. ring.
Qed.
Lemma dvd_ex n m : (0 < n)%nat -> dvd n m = true -> exists q, (m = q * Z.of_nat n)%Z.
Proof. intros Hn D. unfold dvd in D. apply Z.eqb_eq in D. apply Zmod_divides in D; [|lia]. destruct D as (q & D). exists q. lia. Qed.
Lemma wave_pm n i a : (i < n)%nat -> (2 * Z.abs a <= Z.of_nat n)%Z -> dvd n (a - Z.of_nat i) = true ->
  (wave n i = a \/ (2 * Z.abs a = Z.of_nat n /\ wave n i = - a))%Z.
Proof.
  intros Hi Ha D. apply dvd_ex in D; [|lia]. destruct D as (q & D). destruct (wave_spec n i Hi) as [B (q' & E)].
  assert (K : (wave n i - a = (q' - q) * Z.of_nat n)%Z) by lia. set (e := (q' - q)%Z) in *. assert (e = 0 \/ e = 1 \/ e = -1)%Z by nia. lia.
Qed.
Lemma wave_pm' n i a : (i < n)%nat -> (2 * Z.abs a <= Z.of_nat n)%Z -> dvd n (a + Z.of_nat i) = true ->
  (wave n i = - a \/ (2 * Z.abs a = Z.of_nat n /\ wave n i = a))%Z.
Proof.
  intros Hi Ha D. destruct (wave_pm n i (- a) Hi ltac:(lia)) as [E|[E1 E2]]; [|left; exact E|right; lia].
  unfold dvd in *. apply Z.eqb_eq. apply Z.eqb_eq in D. replace (- a - Z.of_nat i)%Z with (- (a + Z.of_nat i))%Z by ring. apply Z_mod_zero_opp_full. exact D.
Qed.
Lemma half_pm h k c : (0 < h)%nat -> (k <= h)%nat -> (Z.abs c <= Z.of_nat h)%Z -> dvd (2 * h) (c - Z.of_nat k) = true -> (Z.of_nat k = c \/ (Z.abs c = Z.of_nat h /\ Z.of_nat k = - c))%Z.
Proof.
  intros Hh Hk Hc D. apply dvd_ex in D; [|lia]. destruct D as (q & D). assert (q = 0 \/ q = -1)%Z by nia. lia.
Qed.
Lemma half_pm' h k c : (0 < h)%nat -> (k <= h)%nat -> (Z.abs c <= Z.of_nat h)%Z -> dvd (2 * h) (c + Z.of_nat k) = true -> (Z.of_nat k = - c \/ (Z.abs c = Z.of_nat h /\ Z.of_nat k = c))%Z.
Proof.
  intros Hh Hk Hc D. apply dvd_ex in D; [|lia]. destruct D as (q & D). assert (q = 0 \/ q = 1)%Z by nia. lia.
Qed.
(** On those modes the wave vector is (a,b,c) up to one sign, or, at the Nyquist frequency, up to the sign of each component. *)
Lemma modes h a b c k0 k1 k2 : (0 < h)%nat -> (Z.abs a <= Z.of_nat h)%Z -> (Z.abs b <= Z.of_nat h)%Z -> (Z.abs c <= Z.of_nat h)%Z ->
  (k0 < 2 * h)%nat -> (k1 < 2 * h)%nat -> (k2 <= h)%nat -> match3 (2 * h) a b c k0 k1 k2 = true ->
  ((wave (2 * h) k0 = a \/ wave (2 * h) k0 = - a) /\ (wave (2 * h) k1 = b \/ wave (2 * h) k1 = - b) /\ (Z.of_nat k2 = c \/ Z.of_nat k2 = - c))%Z /\
  ((Z.abs a < Z.of_nat h)%Z -> (Z.abs b < Z.of_nat h)%Z -> (Z.abs c < Z.of_nat h)%Z ->
   ((wave (2 * h) k0 = a /\ wave (2 * h) k1 = b /\ Z.of_nat k2 = c) \/ (wave (2 * h) k0 = - a /\ wave (2 * h) k1 = - b /\ Z.of_nat k2 = - c))%Z).
Proof.
  intros Hh Ha Hb Hc L0 L1 L2 M. unfold match3 in M. apply Bool.orb_true_iff in M. destruct M as [M|M]; apply Bool.andb_true_iff in M; destruct M as [M M2]; apply Bool.andb_true_iff in M; destruct M as [M0 M1].
  - pose proof (wave_pm' (2 * h) k0 a L0 ltac:(lia) M0). pose proof (wave_pm' (2 * h) k1 b L1 ltac:(lia) M1). pose proof (half_pm' h k2 c Hh L2 Hc M2). split; lia.
  - pose proof (wave_pm (2 * h) k0 a L0 ltac:(lia) M0). pose proof (wave_pm (2 * h) k1 b L1 ltac:(lia) M1). pose proof (half_pm h k2 c Hh L2 Hc M2). split; lia.
Qed.
Lemma modes_sq h a b c k0 k1 k2 : (0 < h)%nat -> (Z.abs a <= Z.of_nat h)%Z -> (Z.abs b <= Z.of_nat h)%Z -> (Z.abs c <= Z.of_nat h)%Z ->
  (k0 < 2 * h)%nat -> (k1 < 2 * h)%nat -> (k2 <= h)%nat -> match3 (2 * h) a b c k0 k1 k2 = true -> sum_sq (kvec (2 * h) k0 k1 k2) = sum_sq (kz a b c).
Proof.
  intros Hh Ha Hb Hc L0 L1 L2 M. destruct (modes h a b c k0 k1 k2 Hh Ha Hb Hc L0 L1 L2 M) as [(E0 & E1 & E2) _]. rewrite sum_sq_int. unfold kz, sum_sq. rewrite <- !mult_IZR, <- !plus_IZR. f_equal. nia.
Qed.
Lemma modes_shape h corr a b c k0 k1 k2 : (0 < h)%nat -> (Z.abs a <= Z.of_nat h)%Z -> (Z.abs b <= Z.of_nat h)%Z -> (Z.abs c <= Z.of_nat h)%Z ->
  (k0 < 2 * h)%nat -> (k1 < 2 * h)%nat -> (k2 <= h)%nat -> match3 (2 * h) a b c k0 k1 k2 = true -> shape_nd corr (2 * h) (kvec (2 * h) k0 k1 k2) = shape_nd corr (2 * h) (kz a b c).
Proof.
  intros Hh Ha Hb Hc L0 L1 L2 M. destruct (modes h a b c k0 k1 k2 Hh Ha Hb Hc L0 L1 L2 M) as [(E0 & E1 & E2) _]. unfold shape_nd. destruct corr; [|reflexivity]. unfold kvec, kz. rewrite INR_IZR_INZ.
  assert (K : forall u v, (u = v \/ u = - v)%Z -> shape_at_ki (2 * h) (IZR u) = shape_at_ki (2 * h) (IZR v)) by (intros u v [->| ->]; [reflexivity|rewrite opp_IZR; apply shape_even]).
  rewrite (K _ _ E0), (K _ _ E1), (K _ _ E2). reflexivity.
Qed.

(** ** C47 *)
(** The windows: with K the wave vector 2 pi (a, b, c) / l_box, the Gaussian is exp(-|K|^2 r^2 / 2); the top hat, as a
    function of x = |K| r, is 1 below 1e-6 and otherwise the Fourier transform of the homogeneous unit ball, i.e. the
    integral of 3 u^2 sin(x u) / (x u) over the radius u in [0, 1]. *)
Theorem C47_windows r l a b c : 0 < l -> 0 <= r ->
  let K2 := (2 * PI * a / l) ^ 2 + (2 * PI * b / l) ^ 2 + (2 * PI * c / l) ^ 2 in
  gauss_window r l (a, b, c) = exp (- (K2 * r ^ 2) / 2) /\
  let x := sqrt K2 * r in
  tophat_window r l (a, b, c) = tophat_at x /\ (x < / 10 ^ 6 -> tophat_at x = 1) /\ (/ 10 ^ 6 <= x -> is_RInt (fun u => 3 * u ^ 2 * (sin (x * u) / (x * u))) 0 1 (tophat_at x)).
Proof.
  intros Hl Hr K2. pose proof PI_RGT_0 as HP. assert (EK : K2 = (2 * PI / l) ^ 2 * sum_sq (a, b, c)) by (unfold K2, sum_sq; field; lra).
  split; [|intros x; split; [|split]].
  - unfold gauss_window. f_equal. rewrite EK. unfold sum_sq. replace (-0.5) with (- / 2) by lra. field. lra.
  - unfold tophat_window. f_equal. unfold x. rewrite EK, sqrt_mult_alt by nra. rewrite sqrt_pow2; [field; lra|]. unfold Rdiv. apply Rmult_le_pos; [lra|]. left. apply Rinv_0_lt_compat. exact Hl.
  - intros L. unfold tophat_at. destruct (Rlt_dec x (/ 1000000)) as [_|N]; [reflexivity|]. exfalso. apply N. replace (10 ^ 6) with 1000000 in L by (simpl; ring). exact L.
  - intros L. replace (10 ^ 6) with 1000000 in L by (simpl; ring). assert (Px : 0 < x) by lra. unfold tophat_at. destruct (Rlt_dec x (/ 1000000)) as [N|_]; [exfalso; lra|].
    apply (is_RInt_ext (V := R_NormedModule) (fun u => 3 * u * sin (x * u) / x)).
    { intros u Hu. rewrite Rmin_left in Hu by lra. change (3 * u * sin (x * u) / x = 3 * u ^ 2 * (sin (x * u) / (x * u))). field. split; lra. }
    set (F u := 3 * (sin (x * u) - x * u * cos (x * u)) / x ^ 3).
    replace (3 * (sin x - x * cos x) / x ^ 3) with (minus (F 1) (F 0)).
    + apply (is_RInt_derive (V := R_CompleteNormedModule) F).
      * intros u _. unfold F. auto_derive; [exact I|]. field. lra.
      * intros u _. apply (ex_derive_continuous (V := R_NormedModule)). auto_derive. exact I.
    + unfold F, minus, plus, opp; cbn -[pow]. rewrite !Rmult_0_r, sin_0, !Rmult_1_r. field. lra.
Qed.
Print Assumptions C47_windows.
(** The volumes: that of the ball of radius r, and (2 pi)^(3/2) r^3. *)
Theorem C47_volumes r : 0 < r -> is_RInt (fun s => 4 * PI * s ^ 2) 0 r (tophat_volume r) /\ 0 < gauss_volume r /\ gauss_volume r ^ 2 = (2 * PI * r ^ 2) ^ 3.
Proof.
  intros Hr. pose proof PI_RGT_0 as HP. split.
  - set (F s := 4 / 3 * PI * s ^ 3). replace (tophat_volume r) with (minus (F r) (F 0)).
    + apply (is_RInt_derive (V := R_CompleteNormedModule) F).
      * intros u _. unfold F. auto_derive; [exact I|]. field.
      * intros u _. apply (ex_derive_continuous (V := R_NormedModule)). auto_derive. exact I.
    + unfold F, tophat_volume, minus, plus, opp; cbn -[pow]. ring.
  - unfold gauss_volume, Rpower. split; [apply exp_pos|]. set (v := 2 * PI * r ^ 2). assert (Pv : 0 < v) by (unfold v; apply Rmult_lt_0_compat; [lra|apply pow_lt; exact Hr]).
    simpl pow at 1. rewrite Rmult_1_r, <- exp_plus. replace (3 / 2 * ln v + 3 / 2 * ln v) with (ln v + ln v + ln v) by field. rewrite !exp_plus, exp_ln by exact Pv. ring.
Qed.
Print Assumptions C47_volumes.
(** Smoothing multiplies a plane wave by the window at its wave number, and does nothing else to it (every field is a sum
    of such waves, and C47_linear adds them up): all even sizes, all wave numbers up to the Nyquist frequency. *)
Theorem C47_plane_wave h l r m A p a b c : (0 < h)%nat -> (Z.abs a <= Z.of_nat h)%Z -> (Z.abs b <= Z.of_nat h)%Z -> (Z.abs c <= Z.of_nat h)%Z ->
  match fft_smooth (2 * h) l r m (plane (2 * h) A p a b c) with
  | Ok y => exists w, (m = "gaussian"%string /\ w = gauss_window r l (IZR a, IZR b, IZR c) \/ m = "tophat"%string /\ w = tophat_window r l (IZR a, IZR b, IZR c)) /\
      same (2 * h) (2 * h) (2 * h) y (plane (2 * h) (w * A) p a b c)
  | Err _ => m <> "gaussian"%string /\ m <> "tophat"%string
  end.
Proof.
  intros Hh Ha Hb Hc. unfold fft_smooth. replace (2 * h / 2)%nat with h by (rewrite Nat.mul_comm, Nat.div_mul; lia). rewrite Nat.eqb_refl. destruct (Nat.eqb_spec h 0); [lia|].
  destruct (window m r l) as [w|e] eqn:W.
  - exists (w (kz a b c)). split; [destruct (window_cases _ _ _ _ W) as [[-> ->]|[-> ->]]; auto|].
    assert (Q : forall k, sum_sq k = sum_sq (kz a b c) -> w k = w (kz a b c)).
    { intros k E. destruct (window_cases _ _ _ _ W) as [[_ ->]|[_ ->]]; unfold gauss_window, tophat_window; rewrite E; reflexivity. }
    unfold smooth_k. apply plane_filter; [exact Hh|]. intros k0 k1 k2 L0 L1 L2 M. rewrite (Q _ (modes_sq h a b c k0 k1 k2 Hh Ha Hb Hc L0 L1 L2 M)). unfold shape_nd. field.
  - unfold window in W. destruct (String.eqb_spec m "gaussian"); [discriminate|]. destruct (String.eqb_spec m "tophat"); [discriminate|]. auto.
Qed.
Print Assumptions C47_plane_wave.

(** ** C46 *)
Lemma plane_mean h A p a b c : (0 < h)%nat -> ~ (dvd (2 * h) a && dvd (2 * h) b && dvd (2 * h) c = true)%bool -> mean (2 * h) (plane (2 * h) A p a b c) = 0.
Proof.
  intros Hh D. unfold mean, plane. rewrite sum3_mul, triple_n by exact Hh. rewrite G3_zero by (apply Bool.not_true_iff_false; exact D). unfold Rdiv. ring.
Qed.
Lemma small_dvd h a : (0 < h)%nat -> (Z.abs a <= Z.of_nat h)%Z -> dvd (2 * h) a = true -> a = 0%Z.
Proof. intros Hh Ha D. apply dvd_ex in D; [|lia]. destruct D as (q & D). assert (q = 0)%Z by nia. lia. Qed.
(** A density rho0 (1 + A cos(p + k.x)) with a wave number below the Nyquist frequency in each direction: the smoothed
    overdensity is the wave times window over shape correction, and the component (u, v) of the tidal tensor is that
    times k_u k_v / k^2. *)
Theorem C46_plane_wave eig h l r corr rho0 A p a b c : (0 < h)%nat -> / 10 ^ 10 <= rho0 ->
  (Z.abs a < Z.of_nat h)%Z -> (Z.abs b < Z.of_nat h)%Z -> (Z.abs c < Z.of_nat h)%Z -> (a, b, c) <> (0, 0, 0)%Z ->
  let n := (2 * h)%nat in let k := (IZR a, IZR b, IZR c) in
  exists t, tidal_run eig n l r corr (fun i j q => rho0 * (1 + plane n A p a b c i j q)) = Ok t /\
  same n n n (t_delta t) (plane n A p a b c) /\
  let s := gauss_window r l k / shape_nd corr n k in
  same n n n (t_delta_sm t) (plane n (s * A) p a b c) /\
  forall u v, (u < 3)%nat -> (v < 3)%nat ->
    let ku := nth u (IZR a :: IZR b :: IZR c :: nil) 0 in let kv := nth v (IZR a :: IZR b :: IZR c :: nil) 0 in
    same n n n (t_T t u v) (plane n (ku * kv / (IZR a ^ 2 + IZR b ^ 2 + IZR c ^ 2) * s * A) p a b c).
Proof.
  intros Hh Hr Ha Hb Hc Nz n k. replace (10 ^ 10) with 10000000000 in Hr by (simpl; ring).
  assert (Sq : 1 <= sum_sq (kz a b c)). { unfold kz, sum_sq. rewrite <- !mult_IZR, <- !plus_IZR. apply IZR_le. assert (~ (a = 0 /\ b = 0 /\ c = 0)%Z) by (intros (-> & -> & ->); apply Nz; reflexivity). nia. }
  set (rho := fun i j q => rho0 * (1 + plane n A p a b c i j q)).
  assert (M0 : mean n (plane n A p a b c) = 0).
  { apply plane_mean; [exact Hh|]. intros D. apply Bool.andb_true_iff in D. destruct D as [D D2]. apply Bool.andb_true_iff in D. destruct D as [D0 D1].
    apply Nz. rewrite (small_dvd h a Hh ltac:(lia) D0), (small_dvd h b Hh ltac:(lia) D1), (small_dvd h c Hh ltac:(lia) D2). reflexivity. }
  assert (Mr : mean n rho = rho0).
  { assert (Pn : INR (n * n * n) <> 0) by (apply not_0_INR; unfold n; nia).
    unfold rho, mean. rewrite sum3_mul, sum3_add, sum3_const. assert (Z : sum3 n n n (plane n A p a b c) = 0).
    { unfold mean in M0. apply (Rmult_eq_reg_r (/ INR (n * n * n))); [|apply Rinv_neq_0_compat; exact Pn]. unfold Rdiv in M0. rewrite M0. ring. }
    change (fun i j k0 : nat => plane n A p a b c i j k0) with (plane n A p a b c). rewrite Z. field. exact Pn. }
  assert (EN : exists delta, normalize n rho = Ok delta /\ forall i j q, delta i j q = plane n A p a b c i j q).
  { unfold normalize. rewrite Mr. destruct (Rlt_dec rho0 (/ 10000000000)) as [L|_]; [exfalso; lra|]. eexists. split; [reflexivity|]. intros i j q. cbv beta. unfold rho. field. lra. }
  destruct EN as (delta & EN & ED).
  assert (ER : exists t, tidal_run eig n l r corr rho = Ok t).
  { unfold tidal_run. rewrite EN. replace (n / 2)%nat with h by (unfold n; rewrite Nat.mul_comm, Nat.div_mul; lia). fold n. rewrite Nat.eqb_refl. eexists. reflexivity. }
  destruct ER as (t & ER). exists t. split; [exact ER|].
  destruct (tidal_run_inv eig n l r corr rho t ltac:(unfold n; lia) ER) as (h' & delta' & _ & En & EN' & E1 & E2 & E3 & E4 & _).
  assert (h' = h) by (unfold n in En; lia). subst h'. assert (ED' : delta' = delta) by congruence. rewrite ED' in E1, E2, E3. clear En EN'.
  pose proof (rfftn_ext n delta (plane n A p a b c) (fun i j q _ _ _ => ED i j q)) as ES.
  assert (Wk : forall k0 k1 k2, (k0 < n)%nat -> (k1 < n)%nat -> (k2 <= h)%nat -> match3 n a b c k0 k1 k2 = true ->
     / shape_nd corr n (kvec n k0 k1 k2) * gauss_window r l (kvec n k0 k1 k2) = gauss_window r l (kz a b c) / shape_nd corr n (kz a b c)).
  { intros k0 k1 k2 L0 L1 L2 M. unfold n in *. rewrite (modes_shape h corr a b c k0 k1 k2) by (assumption || lia). unfold gauss_window. rewrite (modes_sq h a b c k0 k1 k2) by (assumption || lia). unfold Rdiv. ring. }
  split; [rewrite E1; intros i j q _ _ _; apply ED|]. split.
  - rewrite E2. intros i j q Hi Hj Hq. transitivity (irfftn n h (fun k0 k1 k2 => scal (/ shape_nd corr n (kvec n k0 k1 k2) * gauss_window r l (kvec n k0 k1 k2)) (rfftn n (plane n A p a b c) k0 k1 k2)) i j q).
    + apply irfftn_ext. intros k0 k1 k2 _ _ _. unfold delta_sm_k. rewrite ES. reflexivity.
    + exact (plane_filter h A p a b c _ _ Hh Wk i j q Hi Hj Hq).
  - intros u v Hu Hv ku kv i j q Hi Hj Hq.
    assert (Main : forall u v, (u < 3)%nat -> (v < 3)%nat -> irfftn n h (tidal_k n (t_phi t) u v) i j q =
       plane n (comp (kz a b c) u * comp (kz a b c) v / sum_sq (kz a b c) * (gauss_window r l k / shape_nd corr n k) * A) p a b c i j q).
    { clear u v Hu Hv ku kv. intros u v Hu Hv.
      transitivity (irfftn n h (fun k0 k1 k2 => scal (- (comp (kvec n k0 k1 k2) u * comp (kvec n k0 k1 k2) v) * (green (kvec n k0 k1 k2) * (/ shape_nd corr n (kvec n k0 k1 k2) * gauss_window r l (kvec n k0 k1 k2)))) (rfftn n (plane n A p a b c) k0 k1 k2)) i j q).
      - apply irfftn_ext. intros k0 k1 k2 _ _ _. rewrite E3. unfold tidal_k, tidal_at, phi_k, delta_sm_k. rewrite ES. unfold scal. cbn [fst snd]. f_equal; ring.
      - refine (plane_filter h A p a b c _ _ Hh _ i j q Hi Hj Hq). intros k0 k1 k2 L0 L1 L2 M. pose proof (Wk k0 k1 k2 L0 L1 L2 M) as WK. fold n. rewrite WK.
        pose proof (modes_sq h a b c k0 k1 k2 Hh ltac:(lia) ltac:(lia) ltac:(lia) L0 L1 L2 M) as SQ. fold n in SQ.
        assert (EG : green (kvec n k0 k1 k2) = -1 / sum_sq (kz a b c)). { unfold green. rewrite SQ. destruct (Rlt_dec (sum_sq (kz a b c)) (/ 1000000)); [exfalso; lra|reflexivity]. }
        rewrite EG. assert (EC : comp (kvec n k0 k1 k2) u * comp (kvec n k0 k1 k2) v = comp (kz a b c) u * comp (kz a b c) v).
        { destruct (modes h a b c k0 k1 k2 Hh ltac:(lia) ltac:(lia) ltac:(lia) L0 L1 L2 M) as [_ Sg]. destruct (Sg Ha Hb Hc) as [(A0 & A1 & A2)|(A0 & A1 & A2)]; fold n in A0, A1;
            unfold kvec, kz, comp; rewrite INR_IZR_INZ, A0, A1, A2, ?opp_IZR; destruct u as [|[|[|u]]], v as [|[|[|v]]]; try lia; ring. }
        rewrite EC. change k with (kz a b c). unfold Rdiv. ring. }
    assert (Cp : forall w, (w < 3)%nat -> comp (kz a b c) w = nth w (IZR a :: IZR b :: IZR c :: nil) 0) by (intros w Hw; destruct w as [|[|[|w]]]; [reflexivity..|lia]).
    rewrite E4. destruct (Nat.leb v u); rewrite Main by assumption; rewrite !Cp by assumption; fold ku kv; unfold kz, sum_sq; unfold plane; f_equal; unfold Rdiv; replace (IZR a ^ 2 + IZR b ^ 2 + IZR c ^ 2) with (IZR a * IZR a + IZR b * IZR b + IZR c * IZR c) by ring; ring.
Qed.
Print Assumptions C46_plane_wave.
(** A wave along x on a 4-grid: the whole tidal tensor is in the xx component. *)
Example C46_plane_example eig : exists t, tidal_run eig 4 1 0 false (fun i j q => 1 * (1 + plane 4 (1/2) 0 1 0 0 i j q)) = Ok t /\
  same 4 4 4 (t_T t 0%nat 0%nat) (plane 4 (1/2) 0 1 0 0) /\ same 4 4 4 (t_T t 0%nat 1%nat) (fun _ _ _ => 0).
Proof.
  assert (K : / 10 ^ 10 <= 1) by (simpl; lra).
  destruct (C46_plane_wave eig 2 1 0 false 1 (1/2) 0 1 0 0 ltac:(lia) K ltac:(simpl; lia) ltac:(simpl; lia) ltac:(simpl; lia) ltac:(congruence)) as (t & E & _ & _ & T).
  exists t. split; [exact E|]. split; intros i j q Hi Hj Hq.
  - rewrite (T 0%nat 0%nat ltac:(lia) ltac:(lia) i j q Hi Hj Hq). unfold plane. f_equal. rewrite gauss_r0. unfold shape_nd. simpl. field.
  - rewrite (T 0%nat 1%nat ltac:(lia) ltac:(lia) i j q Hi Hj Hq). unfold plane. simpl nth. unfold Rdiv. ring.
Qed.
