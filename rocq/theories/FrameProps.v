(** C34 (logarithms, safe division, normalisation) and C66 (polar frames), over the real numbers. *)
From Coq Require Import Reals Lra List.
From Verif Require Import Base FrameSpec FrameModel FrameProofs.
Import ListNotations.
Local Open Scope R_scope. Local Open Scope list_scope.

(** [normalize] keeps the direction and gives Euclidean length one whenever the vector is at least [lo] long; shorter
    vectors come out shorter than one; only [inplace] changes the caller's array. *)
Theorem C34_normalize lo inplace x : 0 < lo ->
  let '(r, after) := normalize lo inplace x in
  length r = length x /\ (exists c, 0 < c /\ r = map (fun v => c * v) x) /\
  (lo <= sqrt (dot x x) -> dot r r = 1) /\ (sqrt (dot x x) < lo -> dot r r < 1) /\ after = if inplace then r else x.
Proof.
  intros H. pose proof (normalize_spec lo inplace x H) as S. destruct (normalize lo inplace x) as [r after]. cbn [fst snd] in S.
  destruct S as (S1 & S2 & S3 & S4 & S5). rewrite <- norm_dot. split; [exact S1|]. split; [exact S2|].
  rewrite dot_self, <- norm_sq. pose proof (norm_nonneg r).
  split; [intros L; rewrite (S3 L); ring|]. split; [|exact S5]. intros L. destruct (S4 L). nra.
Qed.
Print Assumptions C34_normalize.
Theorem C34_norm x : norm x = sqrt (dot x x) /\ 0 <= norm x /\ (norm x = 0 <-> forall v, In v x -> v = 0).
Proof. split; [apply norm_dot|]. split; [apply norm_nonneg|apply norm_zero]. Qed.
Print Assumptions C34_norm.
(** The logarithm is taken of max(x, lo) > 0: it never goes below lg lo, is the true logarithm from [lo] on, and
    constant below. *)
Theorem C34_safe_log lo x : 0 < lo ->
  (ln lo / ln 10 <= safe_lg lo x /\ (lo <= x -> Rpower 10 (safe_lg lo x) = x) /\ (x <= lo -> Rpower 10 (safe_lg lo x) = lo)) /\
  (ln lo <= safe_ln lo x /\ (lo <= x -> exp (safe_ln lo x) = x) /\ (x <= lo -> exp (safe_ln lo x) = lo)).
Proof.
  intros H. pose proof (safe_lg_spec lo x H) as (A & B & C). pose proof (safe_ln_spec lo x H) as (D & E & F).
  split; (split; [assumption|split; [assumption|]]).
  - intros L. rewrite (C L). destruct (safe_lg_spec lo lo H) as (_ & G & _). specialize (G (Rle_refl _)). unfold safe_lg in G. rewrite Rmax_left in G by apply Rle_refl. exact G.
  - intros L. rewrite (F L). apply exp_ln. assumption.
Qed.
Print Assumptions C34_safe_log.
Theorem C34_safe_div lo x y : 0 < lo ->
  (lo <= y -> safe_div lo x y * y = x) /\ (y <= lo -> safe_div lo x y = x / lo) /\ Rabs (safe_div lo x y) <= Rabs x / lo.
Proof. exact (safe_div_spec lo x y). Qed.
Print Assumptions C34_safe_div.
(** Finding: a negative denominator is not "padded" but replaced by +lo, so 1 / -1 comes out as 10^10. *)
Theorem C34_safe_div_negative_refuted : exists x y, y <> 0 /\ Rabs y >= 1 /\ safe_div lo_default x y <> x / y.
Proof.
  exists 1, (-1). split; [lra|]. split; [rewrite Rabs_left; lra|].
  pose proof lo_pos. rewrite (proj1 (proj2 (safe_div_spec lo_default 1 (-1) lo_pos))) by lra.
  intros E. assert (0 < 1 / lo_default) by (unfold Rdiv; rewrite Rmult_1_l; apply Rinv_0_lt_compat; assumption). lra.
Qed.
Print Assumptions C34_safe_div_negative_refuted.
Example C34_nonvacuous : lo_default <= sqrt (dot [3; 4] [3; 4]) /\ dot (fst (normalize lo_default false [3; 4])) (fst (normalize lo_default false [3; 4])) = 1.
Proof.
  assert (L : lo_default <= sqrt (dot [3; 4] [3; 4])).
  { unfold dot; simpl. replace (3 * 3 + (4 * 4 + 0)) with (Rsqr 5) by (unfold Rsqr; ring). rewrite sqrt_Rsqr by lra. unfold lo_default.
    apply Rle_trans with (/ 1); [apply Rinv_le_contravar; [lra|]; simpl; lra|]. lra. }
  split; [exact L|]. pose proof (C34_normalize lo_default false [3; 4] lo_pos) as H. destruct (normalize lo_default false [3; 4]) as [r a]. simpl fst. tauto.
Qed.

(** The unit vector of two angles has length one, its polar component is cos(theta) and its azimuth phi. *)
Theorem C66_unit_vectors theta phi :
  let u := unit_vec_to_cart theta phi in let w := unit_vec_to_cart_2d theta in
  dot u u = 1 /\ dot u [0; 0; 1] = cos theta /\
  dot u [cos phi; sin phi; 0] = sin theta /\ dot u [- sin phi; cos phi; 0] = 0 /\
  dot w w = 1 /\ w = [cos theta; sin theta].
Proof.
  cbn zeta. destruct (unit_vec_norm theta phi) as [A B].
  split; [rewrite dot_self, <- norm_sq, A; ring|].
  split; [unfold dot, unit_vec_to_cart; simpl; ring|].
  split; [unfold dot, unit_vec_to_cart; simpl; pose proof (sc2 phi) as S; transitivity (sin theta * (sin phi * sin phi + cos phi * cos phi)); [ring|rewrite S; ring]|].
  split; [unfold dot, unit_vec_to_cart; simpl; ring|].
  split; [rewrite dot_self, <- norm_sq, B; ring|reflexivity].
Qed.
Print Assumptions C66_unit_vectors.
(** Away from the polar axis [rt_to_cart] at position [x] is a rigid change of frame: it keeps scalar products, the
    third component is the one along [x], and the first axis is horizontal. *)
Theorem C66_rt_to_cart x1 x2 x3 v w : length v = 3%nat -> length w = 3%nat ->
  / 10 ^ 10 <= rho x1 x2 -> / 10 ^ 10 <= rho x1 x2 * sqrt (dot [x1; x2; x3] [x1; x2; x3]) ->
  dot (rt_to_cart [x1; x2; x3] v) (rt_to_cart [x1; x2; x3] w) = dot v w /\
  dot (rt_to_cart [x1; x2; x3] v) [x1; x2; x3] = nth 2 v 0 * sqrt (dot [x1; x2; x3] [x1; x2; x3]).
Proof. intros A B. rewrite <- norm_dot. exact (rt_isometry x1 x2 x3 v w A B). Qed.
Print Assumptions C66_rt_to_cart.
Theorem C66_rt_axes x1 x2 x3 : / 10 ^ 10 <= rho x1 x2 -> / 10 ^ 10 <= rho x1 x2 * sqrt (dot [x1; x2; x3] [x1; x2; x3]) ->
  let ex := rt_to_cart [x1; x2; x3] [1; 0; 0] in let ey := rt_to_cart [x1; x2; x3] [0; 1; 0] in let ez := rt_to_cart [x1; x2; x3] [0; 0; 1] in
  dot ex ex = 1 /\ dot ey ey = 1 /\ dot ez ez = 1 /\ dot ex ey = 0 /\ dot ex ez = 0 /\ dot ey ez = 0 /\
  cross ex ey = ez /\ (exists c, 0 < c /\ ez = map (fun t => c * t) [x1; x2; x3]) /\ nth 2 ex 0 = 0.
Proof.
  intros A B. rewrite <- norm_dot in B. pose proof (axes_orthonormal x1 x2 x3 A B) as O. pose proof (rt_axes_len x1 x2 x3) as L. unfold rt_to_cart.
  destruct (rt_axes [x1; x2; x3]) as [[ex ey] ez]. destruct L as (L1 & L2 & L3).
  destruct (list3 ex L1) as (a1 & a2 & a3 & ->). destruct (list3 ey L2) as (b1 & b2 & b3 & ->). destruct (list3 ez L3) as (c1 & c2 & c3 & ->).
  cbn [lincomb].
  replace (a1 * 1 + b1 * 0 + c1 * 0) with a1 by ring. replace (a2 * 1 + b2 * 0 + c2 * 0) with a2 by ring. replace (a3 * 1 + b3 * 0 + c3 * 0) with a3 by ring.
  replace (a1 * 0 + b1 * 1 + c1 * 0) with b1 by ring. replace (a2 * 0 + b2 * 1 + c2 * 0) with b2 by ring. replace (a3 * 0 + b3 * 1 + c3 * 0) with b3 by ring.
  replace (a1 * 0 + b1 * 0 + c1 * 1) with c1 by ring. replace (a2 * 0 + b2 * 0 + c2 * 1) with c2 by ring. replace (a3 * 0 + b3 * 0 + c3 * 1) with c3 by ring.
  exact O.
Qed.
Print Assumptions C66_rt_axes.
(** Finding: on the polar axis itself both tangential axes vanish and the tangential components are lost. *)
Theorem C66_rt_axis_refuted z v1 v2 v3 : / 10 ^ 10 <= Rabs z ->
  exists s, (s = 1 \/ s = -1) /\ rt_to_cart [0; 0; z] [v1; v2; v3] = [0; 0; s * v3].
Proof. exact (rt_degenerate z v1 v2 v3). Qed.
Print Assumptions C66_rt_axis_refuted.
(** Finding: positions given as whole numbers are always refused; the same positions as floats are not. *)
Theorem C66_integer_positions_refuted x v : rt_to_cart_dt true x v = Err TypeError /\ rt_to_cart_dt false x v = Ok (rt_to_cart x v).
Proof. split; reflexivity. Qed.
Print Assumptions C66_integer_positions_refuted.
Example C66_nonvacuous : / 10 ^ 10 <= rho 3 4 /\ / 10 ^ 10 <= rho 3 4 * sqrt (dot [3; 4; 12] [3; 4; 12]).
Proof.
  assert (R : rho 3 4 = 5) by (unfold rho; replace (3 * 3 + 4 * 4) with (Rsqr 5) by (unfold Rsqr; ring); apply sqrt_Rsqr; lra).
  assert (N : sqrt (dot [3; 4; 12] [3; 4; 12]) = 13) by (unfold dot; simpl; replace (3 * 3 + (4 * 4 + (12 * 12 + 0))) with (Rsqr 13) by (unfold Rsqr; ring); apply sqrt_Rsqr; lra).
  rewrite R, N. assert (/ 10 ^ 10 <= / 1) by (apply Rinv_le_contravar; [lra|simpl; lra]). lra.
Qed.
