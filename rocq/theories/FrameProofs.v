From Coq Require Import Reals Lra List Psatz.
From Verif Require Import FrameSpec FrameModel.
Import ListNotations.
Local Open Scope R_scope. Local Open Scope list_scope.

Lemma Rsum_sq_nonneg x : 0 <= Rsum (map (fun v => v * v) x).
Proof. induction x as [|a x IH]; simpl; [lra|]. change (fold_right Rplus 0) with Rsum. nra. Qed.
Lemma Rsum_sq_scale n x : n <> 0 -> Rsum (map (fun v => v * v) (map (fun v => v / n) x)) = Rsum (map (fun v => v * v) x) / (n * n).
Proof. intros N. induction x as [|a x IH]; simpl; [field; auto|]. change (fold_right Rplus 0) with Rsum. rewrite IH. field. auto. Qed.
Lemma norm_nonneg x : 0 <= norm x.
Proof. apply sqrt_pos. Qed.
Lemma norm_sq x : norm x * norm x = Rsum (map (fun v => v * v) x).
Proof. apply sqrt_sqrt. apply Rsum_sq_nonneg. Qed.
Lemma norm_scale n x : 0 < n -> norm (map (fun v => v / n) x) = norm x / n.
Proof.
  intros N. unfold norm at 1. rewrite Rsum_sq_scale by lra. rewrite <- norm_sq.
  replace (norm x * norm x / (n * n)) with (Rsqr (norm x / n)) by (unfold Rsqr; field; lra).
  apply sqrt_Rsqr. apply Rmult_le_pos; [apply norm_nonneg|left; apply Rinv_0_lt_compat; assumption].
Qed.
Lemma norm_zero x : norm x = 0 <-> forall v, In v x -> v = 0.
Proof.
  split.
  - intros H. assert (S : Rsum (map (fun v => v * v) x) = 0) by (rewrite <- norm_sq, H; ring). clear H.
    induction x as [|a x IH]; intros v Hv; [destruct Hv|]. simpl in S. change (fold_right Rplus 0) with Rsum in S.
    pose proof (Rsum_sq_nonneg x). assert (a * a = 0) by nra. assert (Rsum (map (fun v => v * v) x) = 0) by nra.
    destruct Hv as [<-|Hv]; [nra|apply IH; assumption].
  - intros H. unfold norm. replace (Rsum (map (fun v => v * v) x)) with 0; [apply sqrt_0|].
    symmetry. induction x as [|a x IH]; simpl; [reflexivity|]. change (fold_right Rplus 0) with Rsum. rewrite (H a (or_introl eq_refl)), IH; [ring|]. intros; apply H; right; assumption.
Qed.
Lemma normalize_spec lo inplace x : 0 < lo ->
  let r := fst (normalize lo inplace x) in
  length r = length x /\
  (exists c, 0 < c /\ r = map (fun v => c * v) x) /\
  (lo <= norm x -> norm r = 1) /\ (norm x < lo -> norm r = norm x / lo /\ norm r < 1) /\
  snd (normalize lo inplace x) = if inplace then r else x.
Proof.
  intros L. unfold normalize; cbn [fst snd].
  assert (P : 0 < Rmax (norm x) lo) by (apply Rlt_le_trans with lo; [assumption|apply Rmax_r]).
  split; [apply map_length|]. split.
  - exists (/ Rmax (norm x) lo). split; [apply Rinv_0_lt_compat; assumption|]. apply map_ext. intros v. unfold Rdiv. ring.
  - split; [|split; [|destruct inplace; reflexivity]].
    + intros H. rewrite norm_scale by assumption. rewrite Rmax_left by assumption. field. lra.
    + intros H. rewrite norm_scale by assumption. rewrite Rmax_right by lra. split; [reflexivity|].
      apply Rmult_lt_reg_r with lo; [assumption|]. unfold Rdiv. rewrite Rmult_assoc, Rinv_l by lra. lra.
Qed.
Lemma ln10_pos : 0 < ln 10.
Proof. rewrite <- ln_1. apply ln_increasing; lra. Qed.
Lemma safe_lg_spec lo x : 0 < lo ->
  lg lo <= safe_lg lo x /\ (lo <= x -> Rpower 10 (safe_lg lo x) = x) /\ (x <= lo -> safe_lg lo x = lg lo).
Proof.
  intros L. pose proof ln10_pos. unfold safe_lg. split; [|split].
  - unfold lg. apply Rmult_le_compat_r; [left; apply Rinv_0_lt_compat; assumption|].
    destruct (Rle_lt_or_eq_dec _ _ (Rmax_r x lo)) as [E|E]; [left; apply ln_increasing; assumption|rewrite <- E; lra].
  - intros H1. rewrite Rmax_left by assumption. unfold Rpower, lg. replace (ln x / ln 10 * ln 10) with (ln x) by (field; lra). apply exp_ln. lra.
  - intros H1. rewrite Rmax_right by assumption. reflexivity.
Qed.
Lemma safe_ln_spec lo x : 0 < lo -> ln lo <= safe_ln lo x /\ (lo <= x -> exp (safe_ln lo x) = x) /\ (x <= lo -> safe_ln lo x = ln lo).
Proof.
  intros L. unfold safe_ln. split; [|split].
  - destruct (Rle_lt_or_eq_dec _ _ (Rmax_r x lo)) as [E|E]; [left; apply ln_increasing; assumption|rewrite <- E; lra].
  - intros H1. rewrite Rmax_left by assumption. apply exp_ln. lra.
  - intros H1. rewrite Rmax_right by assumption. reflexivity.
Qed.
Lemma safe_div_spec lo x y : 0 < lo -> (lo <= y -> safe_div lo x y * y = x) /\ (y <= lo -> safe_div lo x y = x / lo) /\ Rabs (safe_div lo x y) <= Rabs x / lo.
Proof.
  intros L. unfold safe_div. assert (P : 0 < Rmax y lo) by (apply Rlt_le_trans with lo; [assumption|apply Rmax_r]). split; [|split].
  - intros H. rewrite Rmax_left by assumption. field. lra.
  - intros H. rewrite Rmax_right by assumption. reflexivity.
  - unfold Rdiv. rewrite Rabs_mult. apply Rmult_le_compat_l; [apply Rabs_pos|]. rewrite Rabs_right by (left; apply Rinv_0_lt_compat; assumption).
    apply Rinv_le_contravar; [assumption|apply Rmax_r].
Qed.

(** ** Polar *)
Lemma sc2 t : sin t * sin t + cos t * cos t = 1.
Proof. pose proof (sin2_cos2 t) as H. unfold Rsqr in H. exact H. Qed.
Lemma unit_vec_norm theta phi : norm (unit_vec_to_cart theta phi) = 1 /\ norm (unit_vec_to_cart_2d theta) = 1.
Proof.
  split; unfold norm; simpl; rewrite <- sqrt_1; f_equal.
  - pose proof (sc2 theta). pose proof (sc2 phi).
    replace (sin theta * cos phi * (sin theta * cos phi) + (sin theta * sin phi * (sin theta * sin phi) + (cos theta * cos theta + 0)))
      with (sin theta * sin theta * (sin phi * sin phi + cos phi * cos phi) + cos theta * cos theta) by ring. rewrite H0. lra.
  - pose proof (sc2 theta). lra.
Qed.
Definition lo_pos : 0 < lo_default.
Proof. unfold lo_default. apply Rinv_0_lt_compat. apply pow_lt. lra. Qed.
Lemma axes_eq x1 x2 x3 : lo_default <= rho x1 x2 -> lo_default <= rho x1 x2 * norm [x1; x2; x3] ->
  rt_axes [x1; x2; x3] = ([- x2 / rho x1 x2; x1 / rho x1 x2; 0],
    (let n := norm [x1; x2; x3] in let r := rho x1 x2 in [- x1 * x3 / (r * n); - x2 * x3 / (r * n); r / n]),
    (let n := norm [x1; x2; x3] in [x1 / n; x2 / n; x3 / n])).
Proof.
  intros H1 H2. pose proof lo_pos as LP. assert (R0 : 0 < rho x1 x2) by lra.
  assert (Rsq : rho x1 x2 * rho x1 x2 = x1 * x1 + x2 * x2) by (apply sqrt_sqrt; nra).
  assert (Nsq : norm [x1; x2; x3] * norm [x1; x2; x3] = x1 * x1 + x2 * x2 + x3 * x3) by (rewrite norm_sq; simpl; ring).
  assert (RN : rho x1 x2 <= norm [x1; x2; x3]) by (apply sqrt_le_1_alt; simpl; nra).
  set (n := norm [x1; x2; x3]) in *. set (r := rho x1 x2) in *.
  unfold rt_axes. cbn [cross].
  assert (Nx : norm [0 * x3 - 1 * x2; 1 * x1 - 0 * x3; 0 * x2 - 0 * x1] = r).
  { unfold norm, r, rho. f_equal. simpl. ring. }
  assert (Ny : norm [x2 * (0 * x2 - 0 * x1) - x3 * (1 * x1 - 0 * x3); x3 * (0 * x3 - 1 * x2) - x1 * (0 * x2 - 0 * x1); x1 * (1 * x1 - 0 * x3) - x2 * (0 * x3 - 1 * x2)] = r * n).
  { unfold norm at 1. simpl. rewrite <- (sqrt_Rsqr (r * n)) by nra. f_equal. unfold Rsqr.
    replace (r * n * (r * n)) with ((r * r) * (n * n)) by ring. rewrite Rsq, Nsq. ring. }
  unfold normalize. cbn [fst map]. rewrite Nx, Ny. rewrite (Rmax_left r) by assumption. rewrite (Rmax_left (r * n)) by assumption.
  fold n. rewrite (Rmax_left n) by lra.
  assert (n <> 0) by lra. assert (r <> 0) by lra.
  assert (L3 : forall a b c a' b' c' : R, a = a' -> b = b' -> c = c' -> [a; b; c] = [a'; b'; c']) by (intros; subst; reflexivity).
  f_equal. f_equal; apply L3; try (field; auto).
  replace (x1 * (1 * x1 - 0 * x3) - x2 * (0 * x3 - 1 * x2)) with (r * r) by (rewrite Rsq; ring). field. auto.
Qed.
Lemma axes_orthonormal x1 x2 x3 : lo_default <= rho x1 x2 -> lo_default <= rho x1 x2 * norm [x1; x2; x3] ->
  let '(ex, ey, ez) := rt_axes [x1; x2; x3] in
  dot ex ex = 1 /\ dot ey ey = 1 /\ dot ez ez = 1 /\ dot ex ey = 0 /\ dot ex ez = 0 /\ dot ey ez = 0 /\ cross ex ey = ez /\
  (exists c, 0 < c /\ ez = map (fun v => c * v) [x1; x2; x3]) /\ nth 2 ex 0 = 0.
Proof.
  intros H1 H2. rewrite axes_eq by assumption. cbn zeta. pose proof lo_pos as LP. assert (R0 : 0 < rho x1 x2) by lra.
  assert (Rsq : rho x1 x2 * rho x1 x2 = x1 * x1 + x2 * x2) by (apply sqrt_sqrt; nra).
  assert (Nsq : norm [x1; x2; x3] * norm [x1; x2; x3] = x1 * x1 + x2 * x2 + x3 * x3) by (rewrite norm_sq; simpl; ring).
  assert (RN : rho x1 x2 <= norm [x1; x2; x3]) by (apply sqrt_le_1_alt; simpl; nra).
  set (n := norm [x1; x2; x3]) in *. set (r := rho x1 x2) in *. assert (n <> 0) by lra. assert (r <> 0) by lra.
  assert (N2 : n * n = r * r + x3 * x3) by lra.
  unfold dot. cbn [combine map fst snd Rsum fold_right cross nth].
  repeat split.
  - replace (- x2 / r * (- x2 / r) + (x1 / r * (x1 / r) + (0 * 0 + 0))) with ((x1 * x1 + x2 * x2) / (r * r)) by (field; auto). rewrite <- Rsq. field. auto.
  - replace (- x1 * x3 / (r * n) * (- x1 * x3 / (r * n)) + (- x2 * x3 / (r * n) * (- x2 * x3 / (r * n)) + (r / n * (r / n) + 0)))
      with (((x1 * x1 + x2 * x2) * (x3 * x3) + r * r * (r * r)) / (r * r * (n * n))) by (field; auto). rewrite <- Rsq, N2. field. split; [|auto]. rewrite <- N2. apply Rmult_integral_contrapositive_currified; auto.
  - replace (x1 / n * (x1 / n) + (x2 / n * (x2 / n) + (x3 / n * (x3 / n) + 0))) with ((x1 * x1 + x2 * x2 + x3 * x3) / (n * n)) by (field; auto). rewrite <- Nsq. field. auto.
  - field; auto.
  - field; auto.
  - replace (- x1 * x3 / (r * n) * (x1 / n) + (- x2 * x3 / (r * n) * (x2 / n) + (r / n * (x3 / n) + 0))) with (x3 * (r * r - (x1 * x1 + x2 * x2)) / (r * n * n)) by (field; auto). rewrite Rsq. field. auto.
  - f_equal; [field; auto|]. f_equal; [field; auto|]. f_equal.
    replace (- x2 / r * (- x2 * x3 / (r * n)) - x1 / r * (- x1 * x3 / (r * n))) with ((x1 * x1 + x2 * x2) * x3 / (r * r * n)) by (field; auto). rewrite <- Rsq. field. auto.
  - exists (/ n). split; [apply Rinv_0_lt_compat; lra|]. cbn [map]. f_equal; [unfold Rdiv; ring|]. f_equal; [unfold Rdiv; ring|]. f_equal. unfold Rdiv; ring.
Qed.
Lemma list3 (l : list R) : length l = 3%nat -> exists a b c, l = [a; b; c].
Proof. destruct l as [|a [|b [|c [|? ?]]]]; simpl; intros; try discriminate. eauto. Qed.
Lemma rt_axes_len x1 x2 x3 : let '(ex, ey, ez) := rt_axes [x1; x2; x3] in length ex = 3%nat /\ length ey = 3%nat /\ length ez = 3%nat.
Proof. unfold rt_axes. cbn [cross]. unfold normalize. cbn [fst]. rewrite !map_length. auto. Qed.
Lemma rt_isometry x1 x2 x3 v w : length v = 3%nat -> length w = 3%nat ->
  lo_default <= rho x1 x2 -> lo_default <= rho x1 x2 * norm [x1; x2; x3] ->
  dot (rt_to_cart [x1; x2; x3] v) (rt_to_cart [x1; x2; x3] w) = dot v w /\
  dot (rt_to_cart [x1; x2; x3] v) [x1; x2; x3] = nth 2 v 0 * norm [x1; x2; x3].
Proof.
  intros Lv Lw H1 H2. destruct (list3 v Lv) as (v1 & v2 & v3 & ->). destruct (list3 w Lw) as (w1 & w2 & w3 & ->).
  pose proof (axes_orthonormal x1 x2 x3 H1 H2) as O. pose proof (rt_axes_len x1 x2 x3) as L. pose proof (axes_eq x1 x2 x3 H1 H2) as AE.
  unfold rt_to_cart. destruct (rt_axes [x1; x2; x3]) as [[ex ey] ez] eqn:EA. destruct L as (L1 & L2 & L3).
  assert (EZ : ez = let n := norm [x1; x2; x3] in [x1 / n; x2 / n; x3 / n]) by congruence. clear AE.
  destruct (list3 ex L1) as (a1 & a2 & a3 & ->). destruct (list3 ey L2) as (b1 & b2 & b3 & ->). destruct (list3 ez L3) as (c1 & c2 & c3 & ->).
  unfold dot in *. cbn [combine map fst snd Rsum fold_right lincomb nth] in *. destruct O as (O1 & O2 & O3 & O4 & O5 & O6 & _).
  split.
  - transitivity (v1 * w1 * (a1 * a1 + (a2 * a2 + (a3 * a3 + 0))) + v2 * w2 * (b1 * b1 + (b2 * b2 + (b3 * b3 + 0))) + v3 * w3 * (c1 * c1 + (c2 * c2 + (c3 * c3 + 0)))
      + (v1 * w2 + v2 * w1) * (a1 * b1 + (a2 * b2 + (a3 * b3 + 0))) + (v1 * w3 + v3 * w1) * (a1 * c1 + (a2 * c2 + (a3 * c3 + 0))) + (v2 * w3 + v3 * w2) * (b1 * c1 + (b2 * c2 + (b3 * c3 + 0)))); [ring|].
    rewrite O1, O2, O3, O4, O5, O6. ring.
  - pose proof lo_pos. assert (R0 : 0 < rho x1 x2) by lra. assert (N0 : 0 < norm [x1; x2; x3]).
    { apply Rlt_le_trans with (rho x1 x2); [assumption|]. apply sqrt_le_1_alt. simpl. nra. }
    set (n := norm [x1; x2; x3]) in *. cbn zeta in EZ. assert (X : x1 = n * c1 /\ x2 = n * c2 /\ x3 = n * c3).
    { assert (c1 = x1 / n /\ c2 = x2 / n /\ c3 = x3 / n) as (-> & -> & ->) by (split; [|split]; congruence). repeat split; field; lra. }
    destruct X as (X1 & X2 & X3).
    transitivity (n * (v1 * (a1 * c1 + (a2 * c2 + (a3 * c3 + 0))) + v2 * (b1 * c1 + (b2 * c2 + (b3 * c3 + 0))) + v3 * (c1 * c1 + (c2 * c2 + (c3 * c3 + 0))))).
    + rewrite X1, X2, X3. ring.
    + rewrite O3, O5, O6. ring.
Qed.
(** On the polar axis the frame degenerates. *)
Lemma rt_degenerate z v1 v2 v3 : lo_default <= Rabs z -> exists s, (s = 1 \/ s = -1) /\ rt_to_cart [0; 0; z] [v1; v2; v3] = [0; 0; s * v3].
Proof.
  intros H. pose proof lo_pos. unfold rt_to_cart, rt_axes. cbn [cross].
  assert (E1 : norm [0 * z - 1 * 0; 1 * 0 - 0 * z; 0 * 0 - 0 * 0] = 0) by (apply norm_zero; simpl; intros v [<-|[<-|[<-|[]]]]; ring).
  assert (E2 : norm [0 * (0 * 0 - 0 * 0) - z * (1 * 0 - 0 * z); z * (0 * z - 1 * 0) - 0 * (0 * 0 - 0 * 0); 0 * (1 * 0 - 0 * z) - 0 * (0 * z - 1 * 0)] = 0)
    by (apply norm_zero; simpl; intros v [<-|[<-|[<-|[]]]]; ring).
  assert (E3 : norm [0; 0; z] = Rabs z).
  { unfold norm. simpl. replace (0 * 0 + (0 * 0 + (z * z + 0))) with (Rsqr z) by (unfold Rsqr; ring). apply sqrt_Rsqr_abs. }
  unfold normalize. cbn [fst map]. rewrite E1, E2, E3. rewrite (Rmax_right 0) by lra. rewrite (Rmax_left (Rabs z)) by assumption.
  assert (L0 : lo_default <> 0) by lra. cbn [lincomb].
  destruct (Rle_or_lt 0 z) as [P|P].
  - exists 1. split; [auto|]. rewrite Rabs_right in * by lra. f_equal; [field; lra|]. f_equal; [field; lra|]. f_equal. field; lra.
  - exists (-1). split; [auto|]. rewrite Rabs_left in * by lra. f_equal; [field; lra|]. f_equal; [field; lra|]. f_equal. field; lra.
Qed.
Lemma dot_self x : dot x x = Rsum (map (fun v => v * v) x).
Proof. unfold dot. induction x as [|a x IH]; simpl; [reflexivity|]. change (fold_right Rplus 0) with Rsum in *. rewrite IH. reflexivity. Qed.
Lemma norm_dot x : norm x = sqrt (dot x x).
Proof. rewrite dot_self. reflexivity. Qed.
