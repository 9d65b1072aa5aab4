(** C62: kernels and ball volumes (and the volumes of the smoothing windows, C47). *)
From Coq Require Import Reals Lra.
From Coquelicot Require Import Coquelicot.
From Verif Require Import Base Str KernModel GravModel KernProofs.
Local Open Scope list_scope. Local Open Scope R_scope.

(** The Gaussian kernel is positive, one at the centre and nowhere else, even in distance and width, strictly decreasing with the
    absolute distance, and depends only on distance over width. *)
Theorem C62_gaussian sigma d : sigma <> 0 -> let K := kernel_at (Gaussian sigma) in
  0 < K d <= 1 /\ K 0 = 1 /\ (K d = 1 -> d = 0) /\ K (- d) = K d /\ kernel_at (Gaussian (- sigma)) d = K d /\
  (forall d', Rabs d < Rabs d' -> K d' < K d) /\ (forall c, c <> 0 -> kernel_at (Gaussian (c * sigma)) (c * d) = K d).
Proof.
  intros Hs K. assert (S2 : 0 < sigma * sigma) by (destruct (Rtotal_order sigma 0) as [L|[L|L]]; nra).
  assert (KE : forall d, K d = exp (- (d * d) * / (2 * (sigma * sigma)))) by (intros x; unfold K, kernel_at; apply (f_equal exp); replace (-0.5) with (- / 2) by lra; field; exact Hs).
  assert (I2 : 0 < / (2 * (sigma * sigma))) by (apply Rinv_0_lt_compat; lra).
  assert (K0 : K 0 = 1) by (rewrite KE; replace (- (0 * 0) * / (2 * (sigma * sigma))) with 0 by ring; apply exp_0).
  assert (M : forall a b, Rabs a < Rabs b -> K b < K a).
  { intros a b H. rewrite !KE. apply exp_increasing. assert (a * a < b * b). { apply Rsqr_lt_abs_1 in H. exact H. } nra. }
  split; [split|].
  - rewrite KE. apply exp_pos.
  - destruct (Req_dec d 0) as [->|N]; [lra|]. rewrite <- K0. left. apply M. rewrite Rabs_R0. apply Rabs_pos_lt. exact N.
  - split; [exact K0|]. split; [|split; [|split; [|split]]].
    + intros H. destruct (Req_dec d 0) as [|N]; [assumption|]. assert (K d < K 0) by (apply M; rewrite Rabs_R0; apply Rabs_pos_lt; exact N). lra.
    + rewrite !KE. apply (f_equal exp). ring.
    + unfold K, kernel_at. apply (f_equal exp). field. exact Hs.
    + apply M.
    + intros c Hc. unfold K, kernel_at. apply (f_equal exp). field. split; assumption.
Qed.
Print Assumptions C62_gaussian.
(** The top-hat kernel is one exactly below its radius and zero from the radius on. *)
Theorem C62_tophat radius d : (d < radius -> kernel_at (Tophat radius) d = 1) /\ (radius <= d -> kernel_at (Tophat radius) d = 0).
Proof. unfold kernel_at. destruct (Rlt_dec d radius); split; intros; lra. Qed.
Print Assumptions C62_tophat.
(** Every kernel: values in [0,1], never larger at a larger distance; arrays are treated elementwise. *)
Theorem C62_bounds k ds : (match k with Gaussian s => s <> 0 | Tophat _ => True end) ->
  length (kernel_call k ds) = length ds /\ (forall i d, nth_error ds i = Some d -> nth_error (kernel_call k ds) i = Some (kernel_at k d)) /\
  Forall (fun w => 0 <= w <= 1) (kernel_call k ds) /\ (forall d d', 0 <= d <= d' -> kernel_at k d' <= kernel_at k d).
Proof.
  intros Hk. assert (B : forall d, 0 <= kernel_at k d <= 1).
  { intros d. destruct k as [s|r]; [pose proof (C62_gaussian s d Hk); cbn zeta in *; lra|]. unfold kernel_at. destruct (Rlt_dec d r); lra. }
  unfold kernel_call. split; [apply map_length|]. split; [intros i d H; rewrite nth_error_map, H; reflexivity|]. split; [apply Forall_map, Forall_forall; intros d _; apply B|].
  intros d d' [H0 H]. destruct k as [s|r].
  - destruct H as [H|H]; [|subst; lra]. left. apply (C62_gaussian s d Hk). rewrite !Rabs_pos_eq; lra.
  - unfold kernel_at. destruct (Rlt_dec d r), (Rlt_dec d' r); lra.
Qed.
Print Assumptions C62_bounds.
(** Ball volumes.  Base cases; dimension n+2 is the integral over the n-dimensional ball of the disc left over at each distance;
    closed forms; AssertionError for a negative dimension. *)
Theorem C62_ball_volume : (forall n r, (n < 0)%Z -> ball_volume n r = Err AssertionError) /\ (forall n r, ball_volume (Z.of_nat n) r = Ok (ball n r)) /\
  (forall r, ball 0 r = 1 /\ ball 1 r = 2 * r /\ ball 2 r = PI * r ^ 2 /\ ball 3 r = 4 / 3 * PI * r ^ 3) /\
  (forall n r, (0 < n)%nat -> is_RInt (fun t => PI * (r ^ 2 - t ^ 2) * Derive (ball n) t) 0 r (ball (n + 2) r)).
Proof.
  split; [|split; [|split]].
  - intros n r H. unfold ball_volume. apply Z.ltb_lt in H. rewrite H. reflexivity.
  - intros n r. unfold ball_volume. assert (E : (Z.of_nat n <? 0)%Z = false) by (apply Z.ltb_ge; lia). rewrite E, Nat2Z.id. reflexivity.
  - intros r. unfold ball. cbn [INR]. repeat split; try field; try (simpl; field).
  - intros n r Hn. replace (n + 2)%nat with (S (S n)) by lia. apply ball_slices. exact Hn.
Qed.
Print Assumptions C62_ball_volume.
Theorem C62_ball_closed_form k r : ball (2 * k) r = PI ^ k / INR (fact k) * r ^ (2 * k) /\
  ball (2 * k + 1) r = 2 ^ (2 * k + 1) * INR (fact k) * PI ^ k / INR (fact (2 * k + 1)) * r ^ (2 * k + 1).
Proof. split; [apply ball_even|apply ball_odd]. Qed.
Print Assumptions C62_ball_closed_form.
(** Volumes scale with the n-th power, are positive for positive radii and strictly increasing. *)
Theorem C62_ball_scaling n r : (forall c, ball n (c * r) = c ^ n * ball n r) /\ (0 < r -> 0 < ball n r) /\ (forall s, (0 < n)%nat -> 0 <= r < s -> ball n r < ball n s).
Proof. split; [intros c; apply ball_homogeneous|]. split; [apply ball_pos|intros s; apply ball_mono]. Qed.
Print Assumptions C62_ball_scaling.
(** Tophat.volume is the volume of the smaller of both balls; None as radius is a TypeError in every dimension but 0 (finding). *)
Theorem C62_tophat_volume radius n m : (0 <= m -> 0 <= radius -> tophat_kernel_volume radius (Z.of_nat n) (Some m) = Ok (Rmin (ball n m) (ball n radius))) /\
  ((0 < n)%nat -> tophat_kernel_volume radius (Z.of_nat n) None = Err TypeError).
Proof.
  destruct C62_ball_volume as (_ & B & _). split.
  - intros Hm Hr. cbn [tophat_kernel_volume]. rewrite B. f_equal. destruct n as [|n]; [cbn [ball]; unfold Rmin; destruct (Rle_dec 1 1); reflexivity|].
    assert (M : forall a b, 0 <= a <= b -> ball (S n) a <= ball (S n) b) by (intros a b [H [L| ->]]; [left; apply ball_mono; [lia|lra]|lra]).
    unfold Rmin at 1. destruct (Rle_dec m radius) as [L|L]; [rewrite Rmin_left; [reflexivity|apply M; lra]|rewrite Rmin_right; [reflexivity|apply M; lra]].
  - intros H. cbn [tophat_kernel_volume]. unfold ball_volume_none. assert (E : (Z.of_nat n <? 0)%Z = false) by (apply Z.ltb_ge; lia). assert (E' : (Z.of_nat n =? 0)%Z = false) by (apply Z.eqb_neq; lia). rewrite E, E'. reflexivity.
Qed.
Print Assumptions C62_tophat_volume.
(** Kernel specifications: kernels pass through, a number is the width of a Gaussian, names stand for the kernels with parameter one,
    a pair sets the parameter; anything else is refused. *)
Theorem C62_create : (forall k, create (SKernel k) = Ok (key_of k, k)) /\ (forall x, create (SNumber x) = Ok ("gaussian"%string, Gaussian x)) /\
  create (SName "gaussian") = Ok ("gaussian"%string, Gaussian 1) /\ create (SName "tophat") = Ok ("tophat"%string, Tophat 1) /\
  (forall x, create (SPair "gaussian" [("sigma"%string, x)]) = Ok ("gaussian"%string, Gaussian x) /\ create (SPair "tophat" [("radius"%string, x)]) = Ok ("tophat"%string, Tophat x)) /\
  (forall s kw n k, create (SPair s kw) = Ok (n, k) -> n = s /\ is_path "/" s [key_of k]) /\ (forall s, create (SName s) = create (SPair s [])).
Proof.
  split; [reflexivity|]. split; [reflexivity|]. split; [reflexivity|]. split; [reflexivity|]. split; [split; reflexivity|]. split; [|reflexivity].
  intros s kw n k E. cbn [create] in E. unfold rmap in E. destruct (construct s kw) as [k'|] eqn:C; cbn [bind] in E; [|discriminate]. assert (n = s /\ k' = k) as [-> ->] by (split; congruence). split; [reflexivity|]. clear E.
  assert (L : forall key, lookup key kw = Ok k -> key = key_of k).
  { intros key. unfold lookup, one_arg. destruct (String.eqb_spec key "gaussian"); [|destruct (String.eqb_spec key "tophat"); [|discriminate]]; subst; (destruct kw as [|[p v] [|]]; [| |discriminate]);
      try (intros H; injection H as <-; reflexivity); destruct (String.eqb p _); try discriminate; intros H; injection H as <-; reflexivity. }
  apply is_path_segments. unfold construct in C. destruct (has_char "/" s) eqn:HS.
  - destruct (nonempty_segments "/" s) as [|key [|]]; [discriminate| |destruct (String.eqb key "gaussian" || String.eqb key "tophat")%bool; discriminate]. rewrite (L key C). reflexivity.
  - rewrite (segments_nochar _ _ HS); [rewrite (L s C); reflexivity|]. pose proof (L s C) as E. intros E2. rewrite E2 in E. destruct k; discriminate.
Qed.
Print Assumptions C62_create.
(** Unknown names raise KeyError, wrong parameters TypeError. *)
Theorem C62_create_errors s kw : has_char "/" s = false -> (s <> "gaussian" -> s <> "tophat" -> create (SPair s kw) = Err KeyError)%string /\
  (forall p v, p <> "sigma"%string -> create (SPair "gaussian" [(p, v)]) = Err TypeError) /\ (forall p v, p <> "radius"%string -> create (SPair "tophat" [(p, v)]) = Err TypeError).
Proof.
  intros H. split; [|split].
  - intros N1 N2. cbn [create]. unfold construct. rewrite H. unfold lookup. apply String.eqb_neq in N1, N2. rewrite N1, N2. reflexivity.
  - intros p v N. apply String.eqb_neq in N. cbn -[String.eqb]. cbv [construct lookup one_arg has_char rmap bind]. rewrite N. reflexivity.
  - intros p v N. apply String.eqb_neq in N. cbn -[String.eqb]. cbv [construct lookup one_arg has_char rmap bind]. rewrite N. reflexivity.
Qed.
Print Assumptions C62_create_errors.
(** More than one parameter is a TypeError; a path below one of the names too (a kernel class is not a mapping), a path below anything
    else a KeyError, and slashes alone an AssertionError. *)
Theorem C62_create_refused : (forall p q kw s, In s ["gaussian"; "tophat"]%string -> create (SPair s (p :: q :: kw)) = Err TypeError) /\
  (forall s k k2 ks kw, has_char "/" s = true -> is_path "/" s (k :: k2 :: ks) -> In k ["gaussian"; "tophat"]%string -> create (SPair s kw) = Err TypeError) /\
  (forall s k ks kw, has_char "/" s = true -> is_path "/" s (k :: ks) -> ~ In k ["gaussian"; "tophat"]%string -> create (SPair s kw) = Err KeyError) /\
  (forall s kw, has_char "/" s = true -> is_path "/" s [] -> create (SPair s kw) = Err AssertionError).
Proof.
  assert (B : forall k, (String.eqb k "gaussian" || String.eqb k "tophat")%bool = true <-> In k ["gaussian"; "tophat"]%string).
  { intros k. rewrite Bool.orb_true_iff, !String.eqb_eq. cbn. intuition. }
  split; [|split; [|split]].
  - intros [p v] q kw s [<-|[<-|[]]]; reflexivity.
  - intros s k k2 ks kw H P I. apply is_path_segments in P. cbn [create]. unfold construct. rewrite H, <- P. apply B in I. rewrite I. reflexivity.
  - intros s k ks kw H P I. apply is_path_segments in P. cbn [create]. unfold construct. rewrite H, <- P. rewrite <- B in I.
    destruct (String.eqb k "gaussian") eqn:E1; [cbn in I; tauto|]. destruct (String.eqb k "tophat") eqn:E2; [cbn in I; tauto|].
    destruct ks; [|reflexivity]. unfold lookup. rewrite E1, E2. reflexivity.
  - intros s kw H P. apply is_path_segments in P. cbn [create]. unfold construct. rewrite H, <- P. reflexivity.
Qed.
Print Assumptions C62_create_refused.
Example C62_refused_case : create (SPair "gaussian/x" []) = Err TypeError /\ create (SPair "//" []) = Err AssertionError /\ create (SPair "a/b" []) = Err KeyError.
Proof. repeat split. Qed.
(** The effective volume of the top-hat smoothing window is the volume of the ball of its radius; that of the Gaussian window is
    the product of its three one-dimensional norms sqrt(2 PI) r. *)
Theorem C47_window_volumes r : tophat_volume r = ball 3 r /\ (0 < r -> gauss_volume r = (sqrt (2 * PI) * r) ^ 3).
Proof.
  split; [unfold tophat_volume, ball; cbn [INR]; field|]. intros H. unfold gauss_volume. pose proof PI_RGT_0 as P. set (a := sqrt (2 * PI) * r).
  assert (A : 0 < a) by (apply Rmult_lt_0_compat; [apply sqrt_lt_R0; lra|assumption]).
  replace (2 * PI * r ^ 2) with (a * a). 2:{ unfold a. transitivity ((sqrt (2 * PI) * sqrt (2 * PI)) * (r * r)); [ring|]. rewrite sqrt_sqrt by lra. ring. }
  replace (a * a) with (Rpower a 2) by (change 2 with (INR 2); rewrite Rpower_pow by assumption; simpl; ring).
  rewrite Rpower_mult. replace (2 * (3 / 2)) with (INR 3) by (simpl; field). apply Rpower_pow. assumption.
Qed.
Print Assumptions C47_window_volumes.
Example C62_nonvacuous : ball 4 2 = 8 * PI ^ 2 /\ ball 5 1 = 8 / 15 * PI ^ 2 /\ kernel_call (Tophat 1) [0; 1; 2] = [1; 0; 0].
Proof.
  split; [unfold ball; simpl; field|]. split; [unfold ball; simpl; field|]. unfold kernel_call. cbn [map]. 
  f_equal; [apply C62_tophat; lra|f_equal; [apply C62_tophat; lra|f_equal; apply C62_tophat; lra]].
Qed.
