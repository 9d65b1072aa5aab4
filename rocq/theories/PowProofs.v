From Coq Require Import Reals Lra Lia.
From Coquelicot Require Import Coquelicot.
From Verif Require Import Base CosmModel CosmProps PowModel.
Local Open Scope R_scope.

(** ** Growth *)
Lemma carroll_pos w : 0 < w <= 1 -> 0 < npow w (4 / 7) - (1 - w) + (1 + w / 2) * (1 + (1 - w) / 70).
Proof. intros H. pose proof (npow_nonneg w (4 / 7)). nra. Qed.
Lemma growth_raw_pos c n z : usual c -> -1 < z -> 0 < n -> 0 < growth_raw c n z.
Proof.
  intros U Hz Hn. destruct (C55_budget c z U Hz) as (S & Pm & _). unfold growth_raw. cbv zeta. replace (omega_l c z) with (1 - omega_m c z) by lra.
  apply Rdiv_lt_0_compat; [|apply carroll_pos; exact Pm]. apply Rdiv_lt_0_compat; [|lra]. apply Rmult_lt_0_compat; lra.
Qed.
Lemma growth_raw_lin c n z : growth_raw c n z = n * growth_raw c 1 z.
Proof. unfold growth_raw. cbv zeta. unfold Rdiv. ring. Qed.
Lemma growth_is c z : growth c z = growth_raw c 1 z / growth_raw c 1 0.
Proof. unfold growth. rewrite growth_raw_lin. unfold Rdiv. ring. Qed.
Lemma growth_pos c z : usual c -> -1 < z -> 0 < growth c z.
Proof. intros U Hz. rewrite growth_is. apply Rdiv_lt_0_compat; apply growth_raw_pos; try assumption; lra. Qed.
Lemma growth_0 c : usual c -> growth c 0 = 1.
Proof. intros U. rewrite growth_is. pose proof (growth_raw_pos c 1 0 U ltac:(lra) ltac:(lra)). field. lra. Qed.

(** ** The top-hat window *)
Lemma from_deriv (f f' : R -> R) : f 0 = 0 -> (forall x, is_derive f x (f' x)) -> (forall x, 0 <= x -> 0 <= f' x) -> forall x, 0 <= x -> 0 <= f x.
Proof.
  intros H0 D P x Hx. destruct (Req_dec x 0) as [->|N]; [lra|].
  destruct (MVT_cor2 f f' 0 x ltac:(lra)) as (c & E & Hc); [intros c _; apply is_derive_Reals, D|]. rewrite H0 in E. pose proof (P c ltac:(lra)). nra.
Qed.
Lemma sin_le x : 0 <= x -> sin x <= x.
Proof.
  intros H. assert (0 <= x - sin x); [|lra]. apply (from_deriv (fun x => x - sin x) (fun x => 1 - cos x)); [rewrite sin_0; ring| | |exact H].
  - intros y. auto_derive; [trivial|ring].
  - intros y _. pose proof (COS_bound y). lra.
Qed.
Lemma cos_ge x : 0 <= x -> 1 - x ^ 2 / 2 <= cos x.
Proof.
  intros H. assert (0 <= cos x - 1 + x ^ 2 / 2); [|lra]. apply (from_deriv (fun x => cos x - 1 + x ^ 2 / 2) (fun x => x - sin x)); [rewrite cos_0; field| | |exact H].
  - intros y. auto_derive; [trivial|field].
  - intros y Hy. pose proof (sin_le y Hy). lra.
Qed.
Lemma sin_ge x : 0 <= x -> x - x ^ 3 / 6 <= sin x.
Proof.
  intros H. assert (0 <= sin x - x + x ^ 3 / 6); [|lra]. apply (from_deriv (fun x => sin x - x + x ^ 3 / 6) (fun x => cos x - 1 + x ^ 2 / 2)); [rewrite sin_0; field| | |exact H].
  - intros y. auto_derive; [trivial|field].
  - intros y Hy. pose proof (cos_ge y Hy). lra.
Qed.
Lemma hat_upper x : 0 <= x -> sin x - x * cos x <= x ^ 3 / 3.
Proof.
  intros H. assert (0 <= x ^ 3 / 3 - (sin x - x * cos x)); [|lra]. apply (from_deriv (fun x => x ^ 3 / 3 - (sin x - x * cos x)) (fun x => x * (x - sin x))); [rewrite sin_0; field| | |exact H].
  - intros y. auto_derive; [trivial|field].
  - intros y Hy. pose proof (sin_le y Hy). apply Rmult_le_pos; lra.
Qed.
Lemma hat_lower x : 0 <= x -> - (x ^ 3 / 3) <= sin x - x * cos x.
Proof.
  intros H. assert (0 <= x ^ 3 / 3 + (sin x - x * cos x)); [|lra]. apply (from_deriv (fun x => x ^ 3 / 3 + (sin x - x * cos x)) (fun x => x * (x + sin x))); [rewrite sin_0; field| | |exact H].
  - intros y. auto_derive; [trivial|field].
  - intros y Hy. apply Rmult_le_pos; [exact Hy|]. destruct (Rle_dec 1 y) as [L|L]; [pose proof (SIN_bound y); lra|].
    pose proof (sin_ge y Hy). assert (y ^ 3 / 6 <= y); [|lra]. assert (y ^ 3 <= y); [|lra]. replace (y ^ 3) with (y * (y * y)) by ring. nra.
Qed.
Lemma hat_close x : 0 <= x -> x ^ 3 / 3 - x ^ 5 / 30 <= sin x - x * cos x.
Proof.
  intros H. assert (0 <= sin x - x * cos x - x ^ 3 / 3 + x ^ 5 / 30); [|lra].
  apply (from_deriv (fun x => sin x - x * cos x - x ^ 3 / 3 + x ^ 5 / 30) (fun x => x * (sin x - x + x ^ 3 / 6))); [rewrite sin_0; field| | |exact H].
  - intros y. auto_derive; [trivial|field].
  - intros y Hy. pose proof (sin_ge y Hy). apply Rmult_le_pos; lra.
Qed.
Lemma window_small k r : k * r < 1 / 100000 -> window k r = 1.
Proof. intros H. unfold window. cbv zeta. destruct (Rlt_dec _ _); [reflexivity|contradiction]. Qed.
Lemma window_large k r : 1 / 100000 <= k * r -> window k r = 3 * (sin (k * r) - k * r * cos (k * r)) / (k * r) ^ 3.
Proof. intros H. unfold window, j1. cbv zeta. set (x := k * r) in *. clearbody x. destruct (Rlt_dec _ _); [lra|]. field. lra. Qed.
Lemma window_bound k r : 0 <= k * r -> Rabs (window k r) <= 1.
Proof.
  intros H. destruct (Rlt_dec (k * r) (1 / 100000)) as [L|L]; [rewrite window_small by assumption; rewrite Rabs_R1; lra|].
  rewrite window_large by lra. set (x := k * r) in *. assert (P : 0 < x ^ 3) by (apply pow_lt; lra). pose proof (hat_upper x H). pose proof (hat_lower x H).
  assert (E : 3 * (sin x - x * cos x) / x ^ 3 * x ^ 3 = 3 * (sin x - x * cos x)) by (field; lra).
  apply Rabs_le. split; (apply (Rmult_le_reg_r (x ^ 3)); [exact P|]); rewrite E; lra.
Qed.

(** ** Integrability *)
Lemma npow_exp u y : npow (exp u) y = exp (y * u).
Proof. rewrite npow_pos by apply exp_pos. unfold Rpower. rewrite ln_exp. reflexivity. Qed.
Section integral.
Context (T : R -> R) (c : cosm) (HT : forall k, 0 < k -> continuous T k).
Let g1 (z u : R) : R := exp ((3 + n_spec c) * u) * ((1000 * T (exp u) * growth c z) * (1000 * T (exp u) * growth c z)).
Let W (r u : R) : R := 3 * (sin (exp u * r) - exp u * r * cos (exp u * r)) / (exp u * r) ^ 3.
Lemma cont_Te u : continuous (fun u => T (exp u)) u.
Proof. apply (continuous_comp exp T). - apply (ex_derive_continuous (V := R_NormedModule)). auto_derive; trivial. - apply HT, exp_pos. Qed.
Lemma cont_g1 z u : continuous (g1 z) u.
Proof.
  unfold g1. apply (continuous_mult (K := R_AbsRing)); [apply (ex_derive_continuous (V := R_NormedModule)); auto_derive; trivial|].
  assert (A : continuous (fun u => 1000 * T (exp u) * growth c z) u).
  { apply (continuous_mult (K := R_AbsRing)); [|apply continuous_const]. apply (continuous_mult (K := R_AbsRing)); [apply continuous_const|apply cont_Te]. }
  apply (continuous_mult (K := R_AbsRing)); exact A.
Qed.
Lemma cont_W r u : 0 < r -> continuous (W r) u.
Proof.
  intros Hr. assert (P : 0 < exp u * r) by (apply Rmult_lt_0_compat; [apply exp_pos|exact Hr]).
  apply (ex_derive_continuous (V := R_NormedModule)). unfold W. auto_derive. apply Rgt_not_eq. repeat apply Rmult_lt_0_compat; try lra; try apply exp_pos; try assumption.
Qed.
Lemma integrand_low r z u : exp u * r < 1 / 100000 -> integrand T c r z u = g1 z u.
Proof. intros H. unfold integrand, g1. cbv zeta. rewrite window_small by exact H. rewrite npow_exp. ring. Qed.
Lemma integrand_high r z u : 1 / 100000 <= exp u * r -> integrand T c r z u = g1 z u * (W r u * W r u).
Proof. intros H. unfold integrand, g1, W. cbv zeta. rewrite window_large by exact H. rewrite npow_exp. ring. Qed.
Lemma threshold r u : 0 < r -> (u < ln (1 / 100000 / r) <-> exp u * r < 1 / 100000).
Proof.
  intros Hr. assert (P : 0 < 1 / 100000 / r) by (apply Rdiv_lt_0_compat; lra). split; intros H.
  - apply exp_increasing in H. rewrite exp_ln in H by exact P. apply (Rmult_lt_compat_r r) in H; [|exact Hr]. unfold Rdiv in H. rewrite Rmult_assoc, Rinv_l in H by lra. lra.
  - rewrite <- (ln_exp u). apply ln_increasing; [apply exp_pos|]. apply (Rmult_lt_reg_r r); [exact Hr|]. unfold Rdiv. rewrite Rmult_assoc, Rinv_l by lra. lra.
Qed.
Lemma ex_cont (f : R -> R) a b : (forall x, continuous f x) -> ex_RInt f a b.
Proof. intros H. apply (ex_RInt_continuous (V := R_CompleteNormedModule)). intros x _. apply H. Qed.
Lemma ex_low r z a b : 0 < r -> a <= b -> b <= ln (1 / 100000 / r) -> ex_RInt (integrand T c r z) a b.
Proof.
  intros Hr Hab Hb. apply (ex_RInt_ext (g1 z)); [|apply ex_cont; intros; apply cont_g1].
  intros x Hx. rewrite Rmin_left, Rmax_right in Hx by exact Hab. symmetry. apply integrand_low. apply threshold; [exact Hr|lra].
Qed.
Lemma ex_high r z a b : 0 < r -> a <= b -> ln (1 / 100000 / r) <= a -> ex_RInt (integrand T c r z) a b.
Proof.
  intros Hr Hab Ha. apply (ex_RInt_ext (fun u => g1 z u * (W r u * W r u))).
  - intros x Hx. rewrite Rmin_left, Rmax_right in Hx by exact Hab. symmetry. apply integrand_high.
    apply Rnot_lt_le. intros L. apply threshold in L; [lra|exact Hr].
  - apply ex_cont. intros x. apply (continuous_mult (K := R_AbsRing)); [apply cont_g1|]. apply (continuous_mult (K := R_AbsRing)); apply cont_W; exact Hr.
Qed.
Lemma ex_integrand r z a b : 0 < r -> a <= b -> ex_RInt (integrand T c r z) a b.
Proof.
  intros Hr Hab. set (u0 := ln (1 / 100000 / r)). destruct (Rle_dec b u0) as [H|H]; [apply ex_low; assumption|]. destruct (Rle_dec u0 a) as [H'|H']; [apply ex_high; assumption|].
  apply (ex_RInt_Chasles (V := R_NormedModule) _ a u0 b); [apply ex_low; unfold u0 in *; lra|apply ex_high; unfold u0 in *; lra].
Qed.
Lemma integrand_nonneg r z u : 0 <= integrand T c r z u.
Proof. unfold integrand. cbv zeta. apply Rmult_le_pos; [apply npow_nonneg|]. apply pow2_ge_0. Qed.
(** The large scales are inside the window, so a transfer function that does not vanish there gives a positive variance. *)
Lemma exp_m16 : 8 * exp (-16) < 1 / 100000.
Proof.
  assert (E : 5 / 2 < exp 1).
  { pose proof (exp_ineq1 (1 / 8) ltac:(lra)) as H8. assert (E8 : exp 1 = exp (1 / 8) ^ 8) by (rewrite <- Rpower_pow by apply exp_pos; unfold Rpower; rewrite ln_exp; f_equal; simpl; field).
    rewrite E8. assert (9 / 8 <= exp (1 / 8)) by lra. assert ((9 / 8) ^ 8 <= exp (1 / 8) ^ 8) by (apply pow_incr; lra). lra. }
  assert (E14 : exp 16 = exp 1 ^ 16) by (rewrite <- Rpower_pow by apply exp_pos; unfold Rpower; rewrite ln_exp; f_equal; simpl; field).
  assert (P : (5 / 2) ^ 16 <= exp 16) by (rewrite E14; apply pow_incr; lra).
  replace (-16) with (- (16)) by lra. rewrite exp_Ropp. pose proof (exp_pos 16) as P16. apply (Rmult_lt_reg_r (exp 16)); [exact P16|]. rewrite Rmult_assoc, Rinv_l by lra. lra.
Qed.
End integral.

Lemma exp_m23 : 10000 * exp (-23) < 1 / 100000.
Proof.
  assert (A : exp (-23) = exp (-16) * (/ (exp 1)) ^ 7). { replace (-23) with (-16 + - (7)) by ring. rewrite exp_plus. f_equal. rewrite exp_Ropp. rewrite pow_inv. f_equal. rewrite <- Rpower_pow by apply exp_pos. unfold Rpower. rewrite ln_exp. f_equal. simpl. field. }
  assert (E : 9 / 4 < exp 1).
  { pose proof (exp_ineq1 (1 / 8) ltac:(lra)) as H8. assert (E8 : exp 1 = exp (1 / 8) ^ 8) by (rewrite <- Rpower_pow by apply exp_pos; unfold Rpower; rewrite ln_exp; f_equal; simpl; field).
    rewrite E8. assert (9 / 8 <= exp (1 / 8)) by lra. assert ((9 / 8) ^ 8 <= exp (1 / 8) ^ 8) by (apply pow_incr; lra). lra. }
  assert (I : 0 < / exp 1 <= 4 / 9). { split; [apply Rinv_0_lt_compat, exp_pos|]. apply (Rmult_le_reg_r (exp 1)); [apply exp_pos|]. rewrite Rinv_l by (pose proof (exp_pos 1); lra). lra. }
  assert (J : (/ exp 1) ^ 7 <= (4 / 9) ^ 7) by (apply pow_incr; lra). assert (J0 : 0 < (/ exp 1) ^ 7) by (apply pow_lt; lra).
  assert (X : exp (-16) <= 1 / 4000000).
  { assert (F : (5 / 2) ^ 2 <= exp 2). { replace (exp 2) with (exp (1 / 8) ^ 16) by (rewrite <- Rpower_pow by apply exp_pos; unfold Rpower; rewrite ln_exp; f_equal; simpl; field). pose proof (exp_ineq1 (1 / 8) ltac:(lra)). assert ((9 / 8) ^ 16 <= exp (1 / 8) ^ 16) by (apply pow_incr; lra). lra. }
    assert (E16 : exp 16 = exp (1 / 16) ^ 256) by (rewrite <- Rpower_pow by apply exp_pos; unfold Rpower; rewrite ln_exp; f_equal; rewrite INR_IZR_INZ; simpl; field).
    assert (Q : (17 / 16) ^ 256 <= exp 16). { rewrite E16. apply pow_incr. pose proof (exp_ineq1 (1 / 16) ltac:(lra)). lra. }
    assert (W : 4000000 <= (17 / 16) ^ 256) by lra.
    replace (-16) with (- (16)) by lra. rewrite exp_Ropp. apply (Rmult_le_reg_r (exp 16)); [apply exp_pos|]. rewrite Rinv_l by (pose proof (exp_pos 16); lra). lra. }
  pose proof (exp_pos (-16)). rewrite A. assert (exp (-16) * (/ exp 1) ^ 7 <= 1 / 4000000 * (4 / 9) ^ 7) by (apply Rmult_le_compat; lra). lra.
Qed.
Section positive.
Context (T : R -> R) (c : cosm) (HT : forall k, 0 < k -> continuous T k) (Hc : usual c).
(** A transfer function that nowhere vanishes on the largest scales (k between exp(-23) and exp(-16)) gives a positive integral. *)
Lemma raw_pos r z : 0 < r <= 10000 -> -1 < z -> (forall k, exp (-23) < k < exp (-16) -> T k <> 0) -> 0 < RInt (integrand T c r z) (-23) 23.
Proof.
  intros Hr Hz N. set (m := Rmin (-16) (ln (1 / 100000 / r))).
  assert (M : -23 < m). { unfold m. apply Rmin_glb_lt; [lra|]. rewrite <- (ln_exp (-23)). apply ln_increasing; [apply exp_pos|]. apply (Rmult_lt_reg_r r); [lra|]. unfold Rdiv. rewrite Rmult_assoc, Rinv_l by lra. pose proof exp_m23. pose proof (exp_pos (-23)). nra. }
  assert (M1 : m <= -16) by apply Rmin_l. assert (M2 : m <= ln (1 / 100000 / r)) by apply Rmin_r. clearbody m.
  assert (E1 : ex_RInt (integrand T c r z) (-23) m) by (apply ex_integrand; [exact HT|lra|lra]).
  assert (E2 : ex_RInt (integrand T c r z) m 23) by (apply ex_integrand; [exact HT|lra|lra]).
  rewrite <- (RInt_Chasles _ _ _ _ E1 E2). change (plus (RInt (integrand T c r z) (-23) m) (RInt (integrand T c r z) m 23)) with (RInt (integrand T c r z) (-23) m + RInt (integrand T c r z) m 23).
  assert (B : 0 <= RInt (integrand T c r z) m 23) by (apply RInt_ge_0; [lra|exact E2|intros; apply integrand_nonneg]).
  assert (A : 0 < RInt (integrand T c r z) (-23) m); [|lra].
  rewrite (RInt_ext _ (fun u => exp ((3 + n_spec c) * u) * ((1000 * T (exp u) * growth c z) * (1000 * T (exp u) * growth c z)))).
  - apply RInt_gt_0; [lra| |intros u _; apply (cont_g1 T c HT)].
    intros u Hu. apply Rmult_lt_0_compat; [apply exp_pos|].
    assert (Q : 1000 * T (exp u) * growth c z <> 0).
    { apply Rmult_integral_contrapositive_currified; [apply Rmult_integral_contrapositive_currified; [lra|apply N; split; apply exp_increasing; lra]|]. pose proof (growth_pos c z Hc Hz). lra. }
    assert (0 < Rsqr (1000 * T (exp u) * growth c z)) by (apply Rlt_0_sqr; exact Q). exact H.
  - intros u Hu. rewrite Rmin_left, Rmax_right in Hu by lra. apply (integrand_low T c). apply threshold; [lra|]. lra.
Qed.
End positive.
