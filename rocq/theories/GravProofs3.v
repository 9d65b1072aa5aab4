From Coq Require Import Reals Lra Lia List ZArith Psatz.
From Verif Require Import Base GravSpec GravModel GravProofs GravProofs2.
Local Open Scope R_scope.

Lemma mean_scale n c x : mean n (fun i j k => c * x i j k) = c * mean n x.
Proof. unfold mean. rewrite sum3_mul. unfold Rdiv. ring. Qed.
Lemma mean_ext n x y : same n n n x y -> mean n x = mean n y.
Proof. intros H. unfold mean. f_equal. apply sum3_ext. exact H. Qed.
Lemma normalize_spec n rho : (0 < n)%nat -> match normalize n rho with
  | Err e => e = ValueError /\ mean n rho < / 10000000000
  | Ok delta => / 10000000000 <= mean n rho /\ mean n delta = 0 /\ (forall i j k, rho i j k = mean n rho * (1 + delta i j k)) /\
      ((forall i j k, 0 <= rho i j k) -> forall i j k, -1 <= delta i j k)
  end.
Proof.
  intros Hn. unfold normalize. destruct (Rlt_dec (mean n rho) (/ 10000000000)) as [L|L]; [auto|]. assert (P : 0 < mean n rho) by lra. split; [lra|]. split; [|split].
  - assert (Nn : 0 < INR (n * n * n)) by (apply lt_0_INR; nia). unfold mean at 1. rewrite (sum3_ext n n n _ (fun i j k => / mean n rho * rho i j k - 1)) by (intros; unfold Rdiv; ring).
    rewrite sum3_sub, sum3_mul, sum3_const. assert (E : sum3 n n n rho = mean n rho * INR (n * n * n)) by (unfold mean; field; lra). rewrite E. field. split; lra.
  - intros i j k. field. lra.
  - intros H i j k. specialize (H i j k). assert (0 <= rho i j k / mean n rho); [|lra]. unfold Rdiv. apply Rmult_le_pos; [exact H|]. left. apply Rinv_0_lt_compat. exact P.
Qed.
Lemma normalize_scale n rho c d d' : 0 < c -> normalize n rho = Ok d -> normalize n (fun i j k => c * rho i j k) = Ok d' -> forall i j k, d i j k = d' i j k.
Proof.
  intros Hc. unfold normalize. destruct (Rlt_dec (mean n rho) _) as [|L]; [discriminate|]. destruct (Rlt_dec (mean n (fun i j k => c * rho i j k)) _) as [|L']; [discriminate|].
  intros E E' i j k. injection E as <-. injection E' as <-. rewrite mean_scale. field. split; lra.
Qed.
Lemma gauss_zero r l n : gauss_window r l (kvec n 0 0 0) = 1.
Proof.
  unfold gauss_window. rewrite sum_sq_int. unfold wave. rewrite (proj2 (Nat.ltb_ge _ _)) by lia. simpl. rewrite Rmult_0_r. apply exp_0.
Qed.
Lemma tophat_zero r l n : tophat_window r l (kvec n 0 0 0) = 1.
Proof.
  unfold tophat_window. rewrite sum_sq_int. unfold wave. rewrite (proj2 (Nat.ltb_ge _ _)) by lia. simpl. rewrite sqrt_0, Rmult_0_l. unfold tophat_at. destruct (Rlt_dec 0 (/ 1000000)); [reflexivity|lra].
Qed.
Lemma window_cases m r l w : window m r l = Ok w -> (m = "gaussian"%string /\ w = gauss_window r l) \/ (m = "tophat"%string /\ w = tophat_window r l).
Proof.
  unfold window. destruct (String.eqb_spec m "gaussian") as [E|_]; [intros H; injection H as <-; auto|].
  destruct (String.eqb_spec m "tophat") as [E|_]; [intros H; injection H as <-; auto|discriminate].
Qed.
Lemma tidal_run_inv eig n l r c rho t : (0 < n)%nat -> tidal_run eig n l r c rho = Ok t -> exists h delta, (0 < h)%nat /\ n = (2 * h)%nat /\ normalize n rho = Ok delta /\
  t_delta t = delta /\ t_delta_sm t = irfftn n h (delta_sm_k n l r c (rfftn n delta)) /\ t_phi t = phi_k n l r c (rfftn n delta) /\
  t_T t = (fun a b => if Nat.leb b a then irfftn n h (tidal_k n (t_phi t) a b) else irfftn n h (tidal_k n (t_phi t) b a)) /\
  t_lam t = (fun i j k => eig (fun a b => t_T t a b i j k)).
Proof.
  intros Hn. unfold tidal_run. destruct (normalize n rho) as [delta|]; [|discriminate]. destruct (Nat.eqb_spec (2 * (n / 2)) n) as [E|]; [|discriminate]. intros H. injection H as <-.
  exists (n / 2)%nat, delta. split; [lia|]. split; [lia|]. repeat split.
Qed.
Lemma tidal_sym eig n l r c rho t : (0 < n)%nat -> tidal_run eig n l r c rho = Ok t -> forall a b i j k, t_T t a b i j k = t_T t b a i j k.
Proof.
  intros Hn E a b i j k. destruct (tidal_run_inv _ _ _ _ _ _ _ Hn E) as (h & delta & _ & _ & _ & _ & _ & _ & ET & _). rewrite ET.
  destruct (Nat.leb_spec b a), (Nat.leb_spec a b); try reflexivity; try lia. assert (a = b) by lia. subst. reflexivity.
Qed.
Lemma delta_zero n rho delta : (0 < n)%nat -> normalize n rho = Ok delta -> rfftn n delta O O O = (0, 0).
Proof.
  intros Hn E. pose proof (normalize_spec n rho Hn) as H. rewrite E in H. destruct H as (_ & M & _). destruct (rfftn_zero n delta Hn) as [A B].
  apply injective_projections; [|exact B]. rewrite A. unfold mean in M. assert (Nn : 0 < INR (n * n * n)) by (apply lt_0_INR; nia).
  assert (S0 : sum3 n n n delta = 0). { apply (Rmult_eq_reg_r (/ INR (n * n * n))); [|apply Rinv_neq_0_compat; lra]. unfold Rdiv in M. rewrite M. ring. }
  rewrite S0. simpl. ring.
Qed.
Lemma tidal_trace eig n l r c rho t : (0 < n)%nat -> tidal_run eig n l r c rho = Ok t ->
  forall i j k, t_T t 0%nat 0%nat i j k + t_T t 1%nat 1%nat i j k + t_T t 2%nat 2%nat i j k = t_delta_sm t i j k.
Proof.
  intros Hn E i j k. destruct (tidal_run_inv _ _ _ _ _ _ _ Hn E) as (h & delta & Hh & En & ED & _ & ES & EP & ET & _). rewrite ET, ES, !Nat.leb_refl, EP. rewrite <- irfftn_add3.
  apply irfftn_ext. intros a b d Ha Hb Hd. unfold tidal_k, tidal_at, phi_k.
  set (z := delta_sm_k n l r c (rfftn n delta) a b d). destruct (Nat.eq_dec a 0) as [A|A], (Nat.eq_dec b 0) as [B|B], (Nat.eq_dec d 0) as [D|D];
    try (match goal with |- _ => destruct (green_nonzero n a b d Ha Hb ltac:(lia)) as [G1 ->] end;
      unfold kvec, comp, sum_sq in *; unfold scal; cbn [fst snd]; apply injective_projections; cbn [fst snd]; field; lra).
  subst a b d. assert (Z0 : z = (0, 0)). { unfold z, delta_sm_k. rewrite (delta_zero n rho delta Hn ED). unfold scal. cbn [fst snd]. f_equal; ring. }
  rewrite Z0. unfold scal. cbn [fst snd]. f_equal; ring.
Qed.
Lemma tidal_means eig n l r c rho t : (0 < n)%nat -> tidal_run eig n l r c rho = Ok t ->
  mean n (t_delta t) = 0 /\ mean n (t_delta_sm t) = 0 /\ forall a b, mean n (t_T t a b) = 0.
Proof.
  intros Hn E. destruct (tidal_run_inv _ _ _ _ _ _ _ Hn E) as (h & delta & Hh & En & ED & Edl & ES & EP & ET & _). pose proof (delta_zero n rho delta Hn ED) as Z0.
  pose proof (normalize_spec n rho Hn) as NS. rewrite ED in NS. split; [rewrite Edl; apply NS|].
  assert (K : forall X, X O O O = (0, 0) -> mean n (irfftn n h X) = 0).
  { intros X HX. unfold mean. assert (Q : sum3 n n n (irfftn n h X) = 0). { rewrite En at 3. rewrite irfftn_sum by assumption. rewrite HX. simpl. ring. } rewrite Q. unfold Rdiv. ring. }
  split.
  - rewrite ES. apply K. unfold delta_sm_k. rewrite Z0. unfold scal. cbn [fst snd]. f_equal; ring.
  - assert (P0 : t_phi t O O O = (0, 0)). { rewrite EP. unfold phi_k, delta_sm_k. rewrite Z0. unfold scal. cbn [fst snd]. f_equal; ring. }
    intros a b. rewrite ET. destruct (Nat.leb b a); apply K; unfold tidal_k, tidal_at; rewrite P0; unfold scal; cbn [fst snd]; f_equal; ring.
Qed.
Lemma tidal_poisson eig n l r c rho t : (0 < n)%nat -> tidal_run eig n l r c rho = Ok t -> forall i0 i1 i2, (i0 < n)%nat -> (i1 < n)%nat -> (2 * i2 <= n)%nat ->
  let k2 := sum_sq (kvec n i0 i1 i2) in scal (- k2) (t_phi t i0 i1 i2) = delta_sm_k n l r c (rfftn n (t_delta t)) i0 i1 i2.
Proof.
  intros Hn E i0 i1 i2 H0 H1 H2 k2. destruct (tidal_run_inv _ _ _ _ _ _ _ Hn E) as (h & delta & Hh & En & ED & Edl & ES & EP & ET & _). rewrite EP, Edl. unfold phi_k.
  set (z := delta_sm_k n l r c (rfftn n delta) i0 i1 i2).
  assert (D : (i0 = 0 /\ i1 = 0 /\ i2 = 0)%nat \/ ~ (i0 = 0 /\ i1 = 0 /\ i2 = 0)%nat) by lia. destruct D as [(-> & -> & ->)|D].
  - assert (Z0 : z = (0, 0)). { unfold z, delta_sm_k. rewrite (delta_zero n rho delta Hn ED). unfold scal. cbn [fst snd]. f_equal; ring. } rewrite Z0. unfold scal. cbn [fst snd]. f_equal; ring.
  - destruct (green_nonzero n i0 i1 i2 H0 H1 D) as [G1 ->]. unfold scal. cbn [fst snd]. fold k2. fold k2 in G1. apply injective_projections; cbn [fst snd]; field; lra.
Qed.
(** Without smoothing and shape correction the smoothed density is the density. *)
Lemma gauss_r0 l k : gauss_window 0 l k = 1.
Proof. unfold gauss_window. rewrite <- exp_0. f_equal. unfold Rdiv. ring. Qed.
Lemma tidal_nosmooth eig n l rho t : (0 < n)%nat -> tidal_run eig n l 0 false rho = Ok t -> same n n n (t_delta_sm t) (t_delta t).
Proof.
  intros Hn E. destruct (tidal_run_inv _ _ _ _ _ _ _ Hn E) as (h & delta & Hh & En & ED & Edl & ES & EP & ET & _). rewrite ES, Edl. intros i j k Hi Hj Hk.
  transitivity (irfftn n h (rfftn n delta) i j k); [|rewrite En in *; apply fft_inverse; assumption].
  apply irfftn_ext. intros a b d _ _ _. unfold delta_sm_k, shape_nd. rewrite gauss_r0. unfold scal. apply injective_projections; cbn [fst snd]; field.
Qed.
Lemma rfftn_ext n x y : same n n n x y -> forall a b c, rfftn n x a b c = rfftn n y a b c.
Proof. intros H a b c. unfold rfftn. f_equal; f_equal; apply sum3_ext; intros i j k Hi Hj Hk; rewrite (H i j k Hi Hj Hk); reflexivity. Qed.
Lemma tidal_scale eig n l r c rho s t t' : (0 < n)%nat -> 0 < s -> tidal_run eig n l r c rho = Ok t -> tidal_run eig n l r c (fun i j k => s * rho i j k) = Ok t' ->
  forall i j k, t_delta_sm t i j k = t_delta_sm t' i j k /\ forall a b, t_T t a b i j k = t_T t' a b i j k.
Proof.
  intros Hn Hs E E' i j k. destruct (tidal_run_inv _ _ _ _ _ _ _ Hn E) as (h & delta & Hh & En & ED & Edl & ES & EP & ET & _).
  destruct (tidal_run_inv _ _ _ _ _ _ _ Hn E') as (h' & delta' & Hh' & En' & ED' & Edl' & ES' & EP' & ET' & _). assert (h' = h) by lia. subst h'.
  pose proof (normalize_scale n rho s delta delta' Hs ED ED') as N. assert (F : forall a b d, rfftn n delta a b d = rfftn n delta' a b d) by (apply rfftn_ext; intros x y z _ _ _; apply N).
  split.
  - rewrite ES, ES'. apply irfftn_ext. intros a b d _ _ _. unfold delta_sm_k. rewrite F. reflexivity.
  - intros a b. rewrite ET, ET', EP, EP'. destruct (Nat.leb b a); apply irfftn_ext; intros x y z _ _ _; unfold tidal_k, phi_k, delta_sm_k; rewrite F; reflexivity.
Qed.
(** Eigenvalues. *)
Definition det3 (M : nat -> nat -> R) (t : R) : R :=
  let m a b := M a b - (if Nat.eqb a b then t else 0) in
  m 0%nat 0%nat * (m 1%nat 1%nat * m 2%nat 2%nat - m 1%nat 2%nat * m 2%nat 1%nat) - m 0%nat 1%nat * (m 1%nat 0%nat * m 2%nat 2%nat - m 1%nat 2%nat * m 2%nat 0%nat)
  + m 0%nat 2%nat * (m 1%nat 0%nat * m 2%nat 1%nat - m 1%nat 1%nat * m 2%nat 0%nat).
Lemma eig_trace M l1 l2 l3 : (forall t, det3 M t = (l1 - t) * (l2 - t) * (l3 - t)) -> l1 + l2 + l3 = M 0%nat 0%nat + M 1%nat 1%nat + M 2%nat 2%nat.
Proof.
  intros H. pose proof (H 0) as E0. pose proof (H 1) as E1. pose proof (H (-1)) as E2. unfold det3 in *. simpl in *. nra.
Qed.
(** Smoothing. *)
Lemma smooth_mean h l r m x y : (0 < h)%nat -> fft_smooth (2 * h) l r m x = Ok y -> mean (2 * h) y = mean (2 * h) x.
Proof.
  intros Hh. unfold fft_smooth. destruct (window m r l) as [w|] eqn:W; [|discriminate].
  replace (2 * h / 2)%nat with h by (rewrite Nat.mul_comm, Nat.div_mul; lia). rewrite Nat.eqb_refl. destruct (Nat.eqb_spec h 0); [discriminate|]. intros E. injection E as <-.
  unfold mean. f_equal. unfold smooth_k. apply (filter_sum h x (fun a b c => / shape_nd false (2 * h) (kvec (2 * h) a b c) * w (kvec (2 * h) a b c)) Hh).
  rewrite shape_nd_zero. destruct (window_cases _ _ _ _ W) as [[_ ->]|[_ ->]]; rewrite ?gauss_zero, ?tophat_zero; lra.
Qed.
Lemma smooth_zero h l m x y : (0 < h)%nat -> fft_smooth (2 * h) l 0 m x = Ok y -> same (2 * h) (2 * h) (2 * h) y x.
Proof.
  intros Hh. unfold fft_smooth. destruct (window m 0 l) as [w|] eqn:W; [|discriminate].
  replace (2 * h / 2)%nat with h by (rewrite Nat.mul_comm, Nat.div_mul; lia). rewrite Nat.eqb_refl. destruct (Nat.eqb_spec h 0); [discriminate|]. intros E. injection E as <-.
  assert (W1 : forall k, w k = 1).
  { intros k. destruct (window_cases _ _ _ _ W) as [[_ ->]|[_ ->]]; [apply gauss_r0|]. unfold tophat_window, tophat_at. replace (sqrt (sum_sq k) * (2 * PI * 0 / l)) with 0 by (unfold Rdiv; ring). destruct (Rlt_dec 0 (/ 1000000)); [reflexivity|lra]. }
  intros i j k Hi Hj Hk. transitivity (irfftn (2 * h) h (rfftn (2 * h) x) i j k); [|apply fft_inverse; assumption].
  apply irfftn_ext. intros a b c _ _ _. unfold smooth_k, shape_nd, scal. cbv zeta. rewrite W1. apply injective_projections; cbn [fst snd]; change (h + (h + 0))%nat with (2 * h)%nat; lra.
Qed.
Lemma rfftn_lin n x y a b : forall k0 k1 k2, rfftn n (fun i j k => a * x i j k + b * y i j k) k0 k1 k2 =
  (a * fst (rfftn n x k0 k1 k2) + b * fst (rfftn n y k0 k1 k2), a * snd (rfftn n x k0 k1 k2) + b * snd (rfftn n y k0 k1 k2)).
Proof.
  intros k0 k1 k2. unfold rfftn. cbn [fst snd]. set (s := / sqrt (INR (n * n * n))). f_equal.
  - transitivity (s * (a * sum3 n n n (fun j0 j1 j2 => x j0 j1 j2 * cos (2 * PI * (INR k0 * INR j0 + INR k1 * INR j1 + INR k2 * INR j2) / INR n)) + b * sum3 n n n (fun j0 j1 j2 => y j0 j1 j2 * cos (2 * PI * (INR k0 * INR j0 + INR k1 * INR j1 + INR k2 * INR j2) / INR n)))).
    + f_equal. rewrite <- !sum3_mul, <- sum3_add. apply sum3_ext. intros; ring.
    + ring.
  - transitivity (s * (a * sum3 n n n (fun j0 j1 j2 => - (x j0 j1 j2 * sin (2 * PI * (INR k0 * INR j0 + INR k1 * INR j1 + INR k2 * INR j2) / INR n))) + b * sum3 n n n (fun j0 j1 j2 => - (y j0 j1 j2 * sin (2 * PI * (INR k0 * INR j0 + INR k1 * INR j1 + INR k2 * INR j2) / INR n))))).
    + f_equal. rewrite <- !sum3_mul, <- sum3_add. apply sum3_ext. intros; ring.
    + ring.
Qed.
Lemma irfftn_lin n h X Y a b i j k : irfftn n h (fun k0 k1 k2 => (a * fst (X k0 k1 k2) + b * fst (Y k0 k1 k2), a * snd (X k0 k1 k2) + b * snd (Y k0 k1 k2))) i j k =
  a * irfftn n h X i j k + b * irfftn n h Y i j k.
Proof.
  unfold irfftn. set (s := / sqrt _). 
  match goal with |- s * sum3 _ _ _ ?F = a * (s * sum3 _ _ _ ?A) + b * (s * sum3 _ _ _ ?B) => transitivity (s * (a * sum3 n n (S h) A + b * sum3 n n (S h) B)); [|ring] end.
  f_equal. rewrite <- !sum3_mul, <- sum3_add. apply sum3_ext. intros. cbn [fst snd]. ring.
Qed.
Lemma smooth_linear n l r m x y x' y' a b z : fft_smooth n l r m x = Ok x' -> fft_smooth n l r m y = Ok y' -> fft_smooth n l r m (fun i j k => a * x i j k + b * y i j k) = Ok z ->
  forall i j k, z i j k = a * x' i j k + b * y' i j k.
Proof.
  unfold fft_smooth. destruct (window m r l) as [w|]; [|discriminate]. destruct (Nat.eqb (n / 2) 0); [discriminate|]. destruct (Nat.eqb (2 * (n / 2)) n); [|discriminate].
  intros E1 E2 E3 i j k. injection E1 as <-. injection E2 as <-. injection E3 as <-. rewrite <- irfftn_lin. apply irfftn_ext. intros k0 k1 k2 _ _ _. unfold smooth_k. rewrite rfftn_lin. unfold scal. cbn [fst snd]. f_equal; ring.
Qed.
