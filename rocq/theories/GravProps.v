(** C46, C47: tidal field and Fourier-space smoothing, over the real numbers.  Vocabulary: GravSpec.v. *)
From Coq Require Import Reals Lra Lia List ZArith.
From Verif Require Import Base GravSpec GravModel GravProofs GravProofs2 GravProofs3.
Local Open Scope R_scope.

(** ** the transforms *)
(** irfftn undoes rfftn on cubic fields of even side: the formulas assumed for scipy are consistent. *)
Theorem C46_fft_inverse h x : (0 < h)%nat -> same (2 * h) (2 * h) (2 * h) (irfftn (2 * h) h (rfftn (2 * h) x)) x.
Proof. exact (fft_inverse h x). Qed.
Print Assumptions C46_fft_inverse.

(** ** C46 *)
(** The overdensity: an error exactly when the mean density is below 1e-10; otherwise zero mean, rho = mean (1 + delta),
    and at least -1 for non-negative densities. *)
Theorem C46_overdensity n rho : (0 < n)%nat -> match normalize n rho with
  | Err e => e = ValueError /\ mean n rho < / 10000000000
  | Ok delta => / 10000000000 <= mean n rho /\ mean n delta = 0 /\ (forall i j k, rho i j k = mean n rho * (1 + delta i j k)) /\
      ((forall i j k, 0 <= rho i j k) -> forall i j k, -1 <= delta i j k)
  end.
Proof. exact (normalize_spec n rho). Qed.
Print Assumptions C46_overdensity.
(** The solver succeeds iff the mean density is at least 1e-10 and the number of grids is even (finding: odd sizes fail,
    because the backward transform is not told the size). *)
Theorem C46_run_ok eig n l r c rho : (0 < n)%nat ->
  match tidal_run eig n l r c rho with
  | Ok _ => / 10000000000 <= mean n rho /\ Nat.Even n
  | Err e => e = ValueError /\ (mean n rho < / 10000000000 \/ Nat.Odd n)
  end.
Proof.
  intros Hn. unfold tidal_run. pose proof (normalize_spec n rho Hn) as N. destruct (normalize n rho) as [d|e]; [|destruct N; auto].
  pose proof (Nat.div_mod n 2 ltac:(lia)) as D. pose proof (Nat.mod_upper_bound n 2 ltac:(lia)) as M. destruct (Nat.eqb_spec (2 * (n / 2)) n) as [E|E].
  - split; [apply N|]. exists (n / 2)%nat. lia.
  - split; [reflexivity|]. right. exists (n / 2)%nat. lia.
Qed.
Print Assumptions C46_run_ok.
(** The tidal tensor is symmetric, its trace at every point is the smoothed overdensity, and all means vanish. *)
Theorem C46_tensor eig n l r c rho t : (0 < n)%nat -> tidal_run eig n l r c rho = Ok t ->
  (forall a b i j k, t_T t a b i j k = t_T t b a i j k) /\
  (forall i j k, t_T t 0%nat 0%nat i j k + t_T t 1%nat 1%nat i j k + t_T t 2%nat 2%nat i j k = t_delta_sm t i j k) /\
  mean n (t_delta t) = 0 /\ mean n (t_delta_sm t) = 0 /\ (forall a b, mean n (t_T t a b) = 0).
Proof. intros Hn E. split; [exact (tidal_sym _ _ _ _ _ _ _ Hn E)|]. split; [exact (tidal_trace _ _ _ _ _ _ _ Hn E)|exact (tidal_means _ _ _ _ _ _ _ Hn E)]. Qed.
Print Assumptions C46_tensor.
(** Every component is the second derivative of the potential: mode by mode, T_ab = - k_a k_b phi, with k_a the wave number
    along axis a. *)
Theorem C46_hessian eig n l r c rho t : (0 < n)%nat -> tidal_run eig n l r c rho = Ok t -> forall a b i j k, (a < 3)%nat -> (b < 3)%nat ->
  let k_of (q i0 i1 i2 : nat) := nth q [IZR (wave n i0); IZR (wave n i1); INR i2] 0 in
  t_T t a b i j k = irfftn n (n / 2) (fun i0 i1 i2 =>
    (- k_of a i0 i1 i2 * k_of b i0 i1 i2 * fst (t_phi t i0 i1 i2), - k_of a i0 i1 i2 * k_of b i0 i1 i2 * snd (t_phi t i0 i1 i2))) i j k.
Proof.
  intros Hn E a b i j k Ha Hb k_of. destruct (tidal_run_inv _ _ _ _ _ _ _ Hn E) as (h & delta & Hh & En & _ & _ & _ & _ & ET & _). rewrite ET.
  assert (Eh : h = (n / 2)%nat) by (rewrite En, Nat.mul_comm, Nat.div_mul; lia). rewrite <- Eh.
  assert (C : forall q i0 i1 i2, (q < 3)%nat -> comp (kvec n i0 i1 i2) q = k_of q i0 i1 i2) by (intros q i0 i1 i2 Hq; unfold comp, kvec, k_of; destruct q as [|[|[|q]]]; [reflexivity..|lia]).
  destruct (Nat.leb b a); apply irfftn_ext; intros i0 i1 i2 _ _ _; unfold tidal_k, tidal_at, scal; rewrite !C by assumption; f_equal; ring.
Qed.
Print Assumptions C46_hessian.
(** If the eigenvalue routine returns the roots of the characteristic polynomial, the eigenvalues add up to the smoothed
    overdensity everywhere. *)
Theorem C46_eigenvalues eig n l r c rho t i j k : (0 < n)%nat -> tidal_run eig n l r c rho = Ok t ->
  (forall M x, (forall a b, M a b = M b a) -> det3 M x = (fst (fst (eig M)) - x) * (snd (fst (eig M)) - x) * (snd (eig M) - x)) ->
  fst (fst (t_lam t i j k)) + snd (fst (t_lam t i j k)) + snd (t_lam t i j k) = t_delta_sm t i j k.
Proof.
  intros Hn E H. rewrite <- (tidal_trace _ _ _ _ _ _ _ Hn E). destruct (tidal_run_inv _ _ _ _ _ _ _ Hn E) as (h & d & _ & _ & _ & _ & _ & _ & _ & EL). rewrite EL.
  apply (eig_trace (fun a b => t_T t a b i j k)). intros x. apply H. intros a b. exact (tidal_sym _ _ _ _ _ _ _ Hn E a b i j k).
Qed.
Print Assumptions C46_eigenvalues.
(** The potential solves Poisson's equation mode by mode: -k^2 phi = (shape-corrected, smoothed) delta. *)
Theorem C46_poisson eig n l r c rho t : (0 < n)%nat -> tidal_run eig n l r c rho = Ok t -> forall i0 i1 i2, (i0 < n)%nat -> (i1 < n)%nat -> (2 * i2 <= n)%nat ->
  let k2 := sum_sq (kvec n i0 i1 i2) in
  scal (- k2) (t_phi t i0 i1 i2) = scal (/ shape_nd c n (kvec n i0 i1 i2) * gauss_window r l (kvec n i0 i1 i2)) (rfftn n (t_delta t) i0 i1 i2).
Proof. exact (tidal_poisson eig n l r c rho t). Qed.
Print Assumptions C46_poisson.
(** The normalisation of the density does not matter. *)
Theorem C46_scale eig n l r c rho s t t' : (0 < n)%nat -> 0 < s -> tidal_run eig n l r c rho = Ok t -> tidal_run eig n l r c (fun i j k => s * rho i j k) = Ok t' ->
  forall i j k, t_delta_sm t i j k = t_delta_sm t' i j k /\ forall a b, t_T t a b i j k = t_T t' a b i j k.
Proof. exact (tidal_scale eig n l r c rho s t t'). Qed.
Print Assumptions C46_scale.
(** No smoothing, no shape correction: the trace is the overdensity itself. *)
Theorem C46_unsmoothed eig n l rho t : (0 < n)%nat -> tidal_run eig n l 0 false rho = Ok t ->
  same n n n (fun i j k => t_T t 0%nat 0%nat i j k + t_T t 1%nat 1%nat i j k + t_T t 2%nat 2%nat i j k) (t_delta t).
Proof. intros Hn E i j k Hi Hj Hk. rewrite (tidal_trace _ _ _ _ _ _ _ Hn E). exact (tidal_nosmooth _ _ _ _ _ Hn E i j k Hi Hj Hk). Qed.
Print Assumptions C46_unsmoothed.
(** Wave numbers: the representative of the index modulo n in (-n/2, n/2], odd under i -> n - i except at n/2. *)
Theorem C46_wave n i : (i < n)%nat -> (- Z.of_nat n < 2 * wave n i <= Z.of_nat n)%Z /\ (exists q, wave n i = Z.of_nat i + q * Z.of_nat n)%Z /\
  ((0 < i)%nat -> (2 * i <> n)%nat -> wave n (n - i) = - wave n i)%Z.
Proof. intros H. destruct (wave_spec n i H) as [A B]. split; [exact A|]. split; [exact B|]. intros H0 H1. apply wave_odd; [lia|exact H1]. Qed.
Print Assumptions C46_wave.
(** The shape correction never divides by zero and never damps. *)
Theorem C46_shape c n i0 i1 i2 : (i0 < n)%nat -> (i1 < n)%nat -> (2 * i2 <= n)%nat ->
  0 < shape_nd c n (kvec n i0 i1 i2) <= 1 /\ 1 <= / shape_nd c n (kvec n i0 i1 i2) /\ shape_nd c n (kvec n 0 0 0) = 1 /\ forall k, shape_at_ki n (- k) = shape_at_ki n k.
Proof.
  intros H0 H1 H2. pose proof (shape_nd_bounds c n i0 i1 i2 H0 H1 H2) as B. split; [exact B|]. split; [|split; [apply shape_nd_zero|apply shape_even]].
  rewrite <- Rinv_1. apply Rinv_le_contravar; lra.
Qed.
Print Assumptions C46_shape.
Example C46_nonvacuous : exists t, tidal_run (fun _ => (0, 0, 0)) 2 1 1 true (fun i _ _ => if Nat.eqb i 0 then 2 else 0) = Ok t.
Proof.
  pose proof (C46_run_ok (fun _ => (0, 0, 0)) 2 1 1 true (fun i _ _ => if Nat.eqb i 0 then 2 else 0) ltac:(lia)) as H.
  destruct (tidal_run (fun _ => (0, 0, 0)) 2 1 1 true (fun i _ _ => if Nat.eqb i 0 then 2 else 0)) as [t|e]; [exists t; reflexivity|]. exfalso. destruct H as [_ [H|(q & H)]]; [|lia].
  unfold mean, sum3 in H. simpl in H. lra.
Qed.

(** ** C47 *)
(** Gaussian window: 1 at k = 0, in (0,1], decreasing in |k| and in the radius; successive smoothings add in quadrature. *)
Theorem C47_gaussian r l n k k' : 0 < l -> gauss_window r l (kvec n 0 0 0) = 1 /\ 0 < gauss_window r l k <= 1 /\
  (sum_sq k <= sum_sq k' -> gauss_window r l k' <= gauss_window r l k) /\
  (forall r', 0 <= r <= r' -> gauss_window r' l k <= gauss_window r l k) /\
  (forall r2, gauss_window r l k * gauss_window r2 l k = gauss_window (sqrt (r ^ 2 + r2 ^ 2)) l k).
Proof.
  intros Hl. split; [apply gauss_zero|]. split; [apply gauss_bounds|]. split; [apply gauss_mono_k|]. split; [intros r' H; apply gauss_mono_r; assumption|]. intros r2. apply gauss_compose. exact Hl.
Qed.
Print Assumptions C47_gaussian.
(** Top-hat window: 1 at k = 0 and never larger than 1 in absolute value. *)
Theorem C47_tophat r l n k : 0 < l -> 0 <= r -> tophat_window r l (kvec n 0 0 0) = 1 /\ -1 <= tophat_window r l k <= 1.
Proof.
  intros Hl Hr. split; [apply tophat_zero|]. apply tophat_bounds. apply Rmult_le_pos; [apply sqrt_pos|]. pose proof PI_RGT_0. unfold Rdiv. apply Rmult_le_pos; [nra|]. left. apply Rinv_0_lt_compat. exact Hl.
Qed.
Print Assumptions C47_tophat.
(** FFTSmoothing: succeeds iff the method is known and the number of grids is even. *)
Theorem C47_run_ok n l r m x : (0 < n)%nat -> match fft_smooth n l r m x with
  | Ok _ => (m = "gaussian" \/ m = "tophat")%string /\ Nat.Even n
  | Err e => (e = ValueError /\ m <> "gaussian"%string /\ m <> "tophat"%string) \/ (e = ValueError /\ n = 1%nat) \/ (e = AssertionError /\ Nat.Odd n)
  end.
Proof.
  intros Hn. unfold fft_smooth. destruct (window m r l) as [w|e] eqn:W.
  - pose proof (Nat.div_mod n 2 ltac:(lia)) as D. pose proof (Nat.mod_upper_bound n 2 ltac:(lia)) as M. destruct (Nat.eqb_spec (n / 2) 0) as [Z|Z]; [right; left; split; [reflexivity|lia]|].
    destruct (Nat.eqb_spec (2 * (n / 2)) n) as [E|E].
    + split; [destruct (window_cases _ _ _ _ W) as [[-> _]|[-> _]]; auto|]. exists (n / 2)%nat. lia.
    + right. right. split; [reflexivity|]. exists (n / 2)%nat. lia.
  - left. unfold window in W. destruct (String.eqb_spec m "gaussian"); [discriminate|]. destruct (String.eqb_spec m "tophat"); [discriminate|]. injection W as <-. auto.
Qed.
Print Assumptions C47_run_ok.
(** Smoothing keeps the mean, is linear, keeps constant fields, and with radius 0 changes nothing. *)
Theorem C47_smoothing h l r m x y : (0 < h)%nat -> fft_smooth (2 * h) l r m x = Ok y ->
  mean (2 * h) y = mean (2 * h) x /\ (r = 0 -> same (2 * h) (2 * h) (2 * h) y x).
Proof. intros Hh E. split; [exact (smooth_mean h l r m x y Hh E)|]. intros ->. exact (smooth_zero h l m x y Hh E). Qed.
Print Assumptions C47_smoothing.
Theorem C47_linear n l r m x y x' y' a b z : fft_smooth n l r m x = Ok x' -> fft_smooth n l r m y = Ok y' ->
  fft_smooth n l r m (fun i j k => a * x i j k + b * y i j k) = Ok z -> forall i j k, z i j k = a * x' i j k + b * y' i j k.
Proof. exact (smooth_linear n l r m x y x' y' a b z). Qed.
Print Assumptions C47_linear.
(** FourierSpaceSmoothing accepts odd sizes and then returns an array one short along the last axis (finding); for even
    sizes the smoothed overdensity has zero mean. *)
Theorem C47_fourier n l r m rho delta sm last_axis : (1 < n)%nat -> fourier_smooth n l r m rho = Ok (delta, sm, last_axis) ->
  mean n delta = 0 /\ last_axis = (n - n mod 2)%nat /\ (Nat.Even n -> last_axis = n /\ mean n sm = 0) /\ (Nat.Odd n -> last_axis <> n).
Proof.
  intros Hn. unfold fourier_smooth. destruct (window m r l) as [w|] eqn:W; [|discriminate]. pose proof (normalize_spec n rho ltac:(lia)) as N. destruct (normalize n rho) as [d|]; [|discriminate].
  destruct (Nat.eqb (n / 2) 0); [discriminate|]. intros E.
  assert (delta = d) by congruence. assert (sm = irfftn n (n / 2) (smooth_k n true w (rfftn n d))) by congruence. assert (last_axis = (2 * (n / 2))%nat) by congruence. subst. destruct N as (_ & M & _). split; [exact M|].
  pose proof (Nat.div_mod n 2 ltac:(lia)) as D. pose proof (Nat.mod_upper_bound n 2 ltac:(lia)) as B.
  split; [lia|]. split; [|intros (q & Hq); lia]. intros (q & Hq). split; [lia|].
  rewrite <- M. rewrite Hq. replace (2 * q / 2)%nat with q by (rewrite Nat.mul_comm, Nat.div_mul; lia). unfold mean. f_equal.
  apply (filter_sum q d (fun a b c => / shape_nd true (2 * q) (kvec (2 * q) a b c) * w (kvec (2 * q) a b c))); [lia|].
  rewrite shape_nd_zero. destruct (window_cases _ _ _ _ W) as [[_ ->]|[_ ->]]; rewrite ?gauss_zero, ?tophat_zero; lra.
Qed.
Print Assumptions C47_fourier.
Example C47_nonvacuous : (exists y, fft_smooth 4 10 1 "tophat" (fun i j k => INR (i + j * k)) = Ok y) /\ exists y, fft_smooth 4 10 0 "gaussian" (fun i j k => INR i) = Ok y.
Proof. split; eexists; reflexivity. Qed.
Example C47_odd : exists d s, fourier_smooth 3 10 1 "gaussian" (fun _ _ _ => 1) = Ok (d, s, 2%nat).
Proof.
  unfold fourier_smooth, window. simpl String.eqb. cbv iota. pose proof (normalize_spec 3 (fun _ _ _ => 1) ltac:(lia)) as H. destruct (normalize 3 (fun _ _ _ => 1)) as [d|e]; [do 2 eexists; reflexivity|].
  exfalso. destruct H as [_ H]. unfold mean in H. rewrite sum3_const in H. simpl INR in H. lra.
Qed.
