From Coq Require Import Reals Lra Lia.
From Coquelicot Require Import Coquelicot.
From Verif Require Import Base CosmModel CosmProps PowModel PowProofs.
Local Open Scope R_scope.

(** ** Continuity of compound expressions *)
Lemma C_const (a x : R) : continuous (fun _ : R => a) x.
Proof. apply continuous_const. Qed.
Lemma C_id (x : R) : continuous (fun k : R => k) x.
Proof. apply continuous_id. Qed.
Lemma C_plus (f g : R -> R) (x : R) : continuous f x -> continuous g x -> continuous (fun k => f k + g k) x.
Proof. intros. apply (continuous_plus (V := R_NormedModule)); assumption. Qed.
Lemma C_opp (f : R -> R) (x : R) : continuous f x -> continuous (fun k => - f k) x.
Proof. intros. apply (continuous_opp (V := R_NormedModule)); assumption. Qed.
Lemma C_minus (f g : R -> R) (x : R) : continuous f x -> continuous g x -> continuous (fun k => f k - g k) x.
Proof. intros. apply C_plus; [assumption|apply C_opp; assumption]. Qed.
Lemma C_mult (f g : R -> R) (x : R) : continuous f x -> continuous g x -> continuous (fun k => f k * g k) x.
Proof. intros. apply (continuous_mult (K := R_AbsRing)); assumption. Qed.
Lemma C_pow (f : R -> R) (n : nat) (x : R) : continuous f x -> continuous (fun k => f k ^ n) x.
Proof. intros H. induction n as [|n IH]; [apply continuous_const|]. cbn [pow]. apply C_mult; assumption. Qed.
Lemma C_inv (f : R -> R) (x : R) : continuous f x -> f x <> 0 -> continuous (fun k => / f k) x.
Proof. intros. apply continuous_Rinv_comp; assumption. Qed.
Lemma C_div (f g : R -> R) (x : R) : continuous f x -> continuous g x -> g x <> 0 -> continuous (fun k => f k / g k) x.
Proof. intros. apply C_mult; [assumption|apply C_inv; assumption]. Qed.
Lemma C_comp (f g : R -> R) (x : R) : continuous f x -> ex_derive g (f x) -> continuous (fun k => g (f k)) x.
Proof. intros H D. apply (continuous_comp f g); [exact H|]. apply (ex_derive_continuous (V := R_NormedModule)). exact D. Qed.
Lemma C_ln (f : R -> R) (x : R) : continuous f x -> 0 < f x -> continuous (fun k => ln (f k)) x.
Proof. intros. apply C_comp; [assumption|auto_derive; assumption]. Qed.
Lemma C_exp (f : R -> R) (x : R) : continuous f x -> continuous (fun k => exp (f k)) x.
Proof. intros. apply C_comp; [assumption|auto_derive; trivial]. Qed.
Lemma C_sin (f : R -> R) (x : R) : continuous f x -> continuous (fun k => sin (f k)) x.
Proof. intros. apply C_comp; [assumption|auto_derive; trivial]. Qed.
Lemma C_npow (f : R -> R) (y x : R) : continuous f x -> 0 < f x -> continuous (fun k => npow (f k) y) x.
Proof.
  intros H P. apply (continuous_ext_loc _ (fun k => exp (y * ln (f k)))).
  - assert (L : locally (f x) (fun v => 0 < v)) by (apply (open_gt 0); exact P). pose proof (H _ L) as H1. unfold filtermap in H1. apply (filter_imp (fun k => 0 < f k)); [|exact H1]. intros k Hk. rewrite npow_pos by exact Hk. reflexivity.
  - apply C_exp, C_mult; [apply C_const|apply C_ln; assumption].
Qed.
Lemma npow_gt x y : 0 < x -> 0 < npow x y.
Proof. intros H. rewrite npow_pos by exact H. apply exp_pos. Qed.
Lemma npow_1 y : npow 1 y = 1.
Proof. rewrite npow_pos by lra. unfold Rpower. rewrite ln_1, Rmult_0_r. apply exp_0. Qed.
Lemma npow_le1 x y : 0 <= x <= 1 -> 0 < y -> npow x y <= 1.
Proof. intros [A B] Hy. destruct (Req_dec x 1) as [->|N]; [rewrite npow_1; lra|]. rewrite <- (npow_1 y). left. apply npow_incr; lra. Qed.
Ltac cont := repeat lazymatch goal with
  | |- continuous (fun _ => ?a) _ => apply C_const | |- continuous (fun k => k) _ => apply C_id
  | |- continuous (fun k => _ + _) _ => apply C_plus | |- continuous (fun k => _ - _) _ => apply C_minus | |- continuous (fun k => _ / _) _ => apply C_div
  | |- continuous (fun k => _ * _) _ => apply C_mult | |- continuous (fun k => _ ^ _) _ => apply C_pow end.
Lemma ln_pos x : 1 < x -> 0 < ln x.
Proof. intros H. rewrite <- ln_1. apply ln_increasing; lra. Qed.
Lemma sq_nonneg x : 0 <= x ^ 2. Proof. apply pow2_ge_0. Qed.
Lemma four_nonneg x : 0 <= x ^ 4. Proof. replace (x ^ 4) with ((x ^ 2) ^ 2) by ring. apply pow2_ge_0. Qed.

(** ** EH99 *)
(** Parameters with which the Eisenstein-Hu 1999 function is well behaved. *)
Record good99 (s : eh99) : Prop := {
  g1_h : 0 < g_hubble s; g1_o : 0 < g_omhh s; g1_th : 0 < g_theta s; g1_hdm : 0 < g_f_hdm s; g1_n : 0 < g_ndeg s; g1_g : 0 < g_growth_k0 s;
  g1_a : 0 <= g_alpha_gamma s; g1_b : 0 < g_beta_c s; g1_cb : 0 < g_f_cb s }.
Section eh99.
Context (s : eh99) (G : good99 s).
Definition y_qq (kk : R) : R := kk * g_hubble s / g_omhh s * (g_theta s) ^ 2.
Definition y_fs (kk : R) : R := 172 / 10 * g_f_hdm s * (1 + 488 / 1000 * npow (g_f_hdm s) (- (7 / 6))) * (g_ndeg s * y_qq kk / g_f_hdm s) ^ 2.
Definition y_ge (kk : R) : R := g_omhh s * (g_alpha_gamma s + (1 - g_alpha_gamma s) / (1 + (kk * g_hubble s * g_sound s * (43 / 100)) ^ 4)).
Definition y_qe (kk : R) : R := y_qq kk * g_omhh s / y_ge kk.
Definition y_L (kk : R) : R := ln (271828 / 100000 + 184 / 100 * g_beta_c s * g_alpha_gamma s * y_qe kk).
Definition y_C (kk : R) : R := 144 / 10 + 325 / (1 + 605 / 10 * npow (y_qe kk) (111 / 100)).
Definition y_nu (kk : R) : R := 392 / 100 * y_qq kk * sqrt (g_ndeg s / g_f_hdm s).
Lemma y_qq_pos k : 0 < k -> 0 < y_qq k.
Proof. destruct G. intros H. unfold y_qq. apply Rmult_lt_0_compat; [apply Rdiv_lt_0_compat; [apply Rmult_lt_0_compat|]; assumption|apply pow_lt; assumption]. Qed.
Lemma y_fs_nonneg k : 0 <= y_fs k.
Proof. destruct G. unfold y_fs. pose proof (npow_nonneg (g_f_hdm s) (- (7 / 6))). apply Rmult_le_pos; [|apply sq_nonneg]. apply Rmult_le_pos; lra. Qed.
Lemma y_ge_pos k : 0 < y_ge k.
Proof.
  destruct G. unfold y_ge. apply Rmult_lt_0_compat; [assumption|]. set (x := (k * g_hubble s * g_sound s * (43 / 100)) ^ 4). assert (Hx : 0 <= x) by apply four_nonneg. clearbody x.
  replace (g_alpha_gamma s + (1 - g_alpha_gamma s) / (1 + x)) with ((g_alpha_gamma s * x + 1) / (1 + x)) by (field; lra).
  apply Rdiv_lt_0_compat; [|lra]. assert (0 <= g_alpha_gamma s * x) by (apply Rmult_le_pos; assumption). lra.
Qed.
Lemma y_qe_pos k : 0 < k -> 0 < y_qe k.
Proof. intros H. unfold y_qe. apply Rdiv_lt_0_compat; [apply Rmult_lt_0_compat; [apply y_qq_pos; exact H|destruct G; assumption]|apply y_ge_pos]. Qed.
Lemma y_arg k : 0 < k -> 1 < 271828 / 100000 + 184 / 100 * g_beta_c s * g_alpha_gamma s * y_qe k.
Proof. intros H. pose proof (y_qe_pos k H). destruct G. assert (0 <= 184 / 100 * g_beta_c s * g_alpha_gamma s * y_qe k); [|lra]. apply Rmult_le_pos; [apply Rmult_le_pos|]; lra. Qed.
Lemma y_L_pos k : 0 < k -> 0 < y_L k.
Proof. intros H. apply ln_pos, y_arg, H. Qed.
Lemma y_C_den k : 0 < 1 + 605 / 10 * npow (y_qe k) (111 / 100).
Proof. pose proof (npow_nonneg (y_qe k) (111 / 100)). lra. Qed.
Lemma y_C_pos k : 0 < y_C k.
Proof. unfold y_C. assert (0 < 325 / (1 + 605 / 10 * npow (y_qe k) (111 / 100))) by (apply Rdiv_lt_0_compat; [lra|apply y_C_den]). lra. Qed.
Lemma y_sup_den k : 0 < k -> 0 < y_L k + y_C k * y_qe k ^ 2.
Proof. intros H. pose proof (y_L_pos k H). pose proof (y_C_pos k). pose proof (sq_nonneg (y_qe k)). nra. Qed.
Lemma y_nu_pos k : 0 < k -> 0 < y_nu k.
Proof. intros H. unfold y_nu. pose proof (y_qq_pos k H). destruct G. apply Rmult_lt_0_compat; [lra|]. apply sqrt_lt_R0. apply Rdiv_lt_0_compat; assumption. Qed.
Lemma eh99_unfold k : eh99_tf2 s k =
  let temp1 := npow (g_growth_k0 s) (1 - g_p_cb s) in let temp2 := npow (g_growth_k0 s / (1 + y_fs k)) (7 / 10) in
  let master := y_L k / (y_L k + y_C k * y_qe k ^ 2) * (1 + 12 / 10 * npow (g_f_hdm s) (64 / 100) * npow (g_ndeg s) (3 / 10 + 6 / 10 * g_f_hdm s) / (npow (y_nu k) (- (16 / 10)) + npow (y_nu k) (8 / 10))) in
  (master * (npow (1 + temp2) (g_p_cb s / (7 / 10)) * temp1) / g_growth_k0 s, master * (npow (npow (g_f_cb s) (7 / 10 / g_p_cb s) + temp2) (g_p_cb s / (7 / 10)) * temp1) / g_growth_k0 s).
Proof. reflexivity. Qed.
Lemma temp_pos k : 0 < g_growth_k0 s / (1 + y_fs k).
Proof. pose proof (y_fs_nonneg k). destruct G. apply Rdiv_lt_0_compat; lra. Qed.
Lemma corr_den k : 0 < k -> 0 < npow (y_nu k) (- (16 / 10)) + npow (y_nu k) (8 / 10).
Proof. intros H. pose proof (npow_gt _ (- (16 / 10)) (y_nu_pos k H)). pose proof (npow_gt _ (8 / 10) (y_nu_pos k H)). lra. Qed.
Lemma eh99_pos b k : 0 < k -> 0 < eh99_tf s b k.
Proof.
  intros H. unfold eh99_tf. rewrite eh99_unfold. cbv zeta. cbn [fst snd].
  pose proof (temp_pos k) as TP. pose proof (npow_gt _ (7 / 10) TP) as T2. pose proof (y_L_pos k H). pose proof (y_sup_den k H). pose proof (corr_den k H). destruct G.
  pose proof (npow_nonneg (g_f_cb s) (7 / 10 / g_p_cb s)). pose proof (npow_gt _ (1 - g_p_cb s) g1_g0).
  assert (M : 0 < y_L k / (y_L k + y_C k * y_qe k ^ 2) * (1 + 12 / 10 * npow (g_f_hdm s) (64 / 100) * npow (g_ndeg s) (3 / 10 + 6 / 10 * g_f_hdm s) / (npow (y_nu k) (- (16 / 10)) + npow (y_nu k) (8 / 10)))).
  { apply Rmult_lt_0_compat; [apply Rdiv_lt_0_compat; assumption|]. pose proof (npow_gt _ (64 / 100) g1_hdm0). pose proof (npow_gt _ (3 / 10 + 6 / 10 * g_f_hdm s) g1_n0).
    assert (0 < 12 / 10 * npow (g_f_hdm s) (64 / 100) * npow (g_ndeg s) (3 / 10 + 6 / 10 * g_f_hdm s) / (npow (y_nu k) (- (16 / 10)) + npow (y_nu k) (8 / 10))); [|lra].
    apply Rdiv_lt_0_compat; [|assumption]. apply Rmult_lt_0_compat; [apply Rmult_lt_0_compat|]; lra. }
  destruct b; (apply Rdiv_lt_0_compat; [|assumption]); (apply Rmult_lt_0_compat; [exact M|]); (apply Rmult_lt_0_compat; [apply npow_gt; lra|assumption]).
Qed.
Lemma C_qq k : continuous y_qq k.
Proof. unfold y_qq. destruct G. cont; lra. Qed.
Lemma C_fs k : continuous y_fs k.
Proof. unfold y_fs. destruct G. apply C_mult; [apply C_const|]. apply C_pow, C_div; [apply C_mult; [apply C_const|apply C_qq]|apply C_const|lra]. Qed.
Lemma C_ge k : continuous y_ge k.
Proof. unfold y_ge. cont. pose proof (four_nonneg (k * g_hubble s * g_sound s * (43 / 100))). lra. Qed.
Lemma C_qe k : continuous y_qe k.
Proof. unfold y_qe. apply C_div; [apply C_mult; [apply C_qq|apply C_const]|apply C_ge|pose proof (y_ge_pos k); lra]. Qed.
Lemma C_L k : 0 < k -> continuous y_L k.
Proof. intros H. unfold y_L. apply C_ln; [|pose proof (y_arg k H); lra]. apply C_plus; [apply C_const|]. apply C_mult; [apply C_const|apply C_qe]. Qed.
Lemma C_C k : 0 < k -> continuous y_C k.
Proof.
  intros H. unfold y_C. apply C_plus; [apply C_const|]. apply C_div; [apply C_const| |pose proof (y_C_den k); lra]. apply C_plus; [apply C_const|]. apply C_mult; [apply C_const|]. apply C_npow; [apply C_qe|apply y_qe_pos; exact H].
Qed.
Lemma C_nu k : continuous y_nu k.
Proof. unfold y_nu. apply C_mult; [apply C_mult; [apply C_const|apply C_qq]|apply C_const]. Qed.
Lemma eh99_cont b k : 0 < k -> continuous (eh99_tf s b) k.
Proof.
  intros H. pose proof (temp_pos k) as TP. pose proof (npow_gt _ (7 / 10) TP) as T2. pose proof (y_sup_den k H). pose proof (corr_den k H).
  assert (Ct : continuous (fun k => npow (g_growth_k0 s / (1 + y_fs k)) (7 / 10)) k).
  { apply C_npow; [|exact TP]. apply C_div; [apply C_const| |pose proof (y_fs_nonneg k); lra]. apply C_plus; [apply C_const|apply C_fs]. }
  assert (Cm : continuous (fun k => y_L k / (y_L k + y_C k * y_qe k ^ 2) * (1 + 12 / 10 * npow (g_f_hdm s) (64 / 100) * npow (g_ndeg s) (3 / 10 + 6 / 10 * g_f_hdm s) / (npow (y_nu k) (- (16 / 10)) + npow (y_nu k) (8 / 10)))) k).
  { apply C_mult.
    - apply C_div; [apply C_L; exact H| |lra]. apply C_plus; [apply C_L; exact H|]. apply C_mult; [apply C_C; exact H|]. apply C_pow, C_qe.
    - apply C_plus; [apply C_const|]. apply C_div; [apply C_const| |lra]. apply C_plus; apply C_npow; solve [apply C_nu | apply y_nu_pos; exact H]. }
  assert (Q : forall a, 0 <= a -> continuous (fun k => y_L k / (y_L k + y_C k * y_qe k ^ 2) * (1 + 12 / 10 * npow (g_f_hdm s) (64 / 100) * npow (g_ndeg s) (3 / 10 + 6 / 10 * g_f_hdm s) / (npow (y_nu k) (- (16 / 10)) + npow (y_nu k) (8 / 10))) * (npow (a + npow (g_growth_k0 s / (1 + y_fs k)) (7 / 10)) (g_p_cb s / (7 / 10)) * npow (g_growth_k0 s) (1 - g_p_cb s)) / g_growth_k0 s) k).
  { intros a Ha. apply C_div; [|apply C_const|destruct G; lra]. apply C_mult; [exact Cm|]. apply C_mult; [|apply C_const]. apply C_npow; [apply C_plus; [apply C_const|exact Ct]|lra]. }
  destruct b.
  - apply (Q (npow (g_f_cb s) (7 / 10 / g_p_cb s))). apply npow_nonneg.
  - apply (Q 1). lra.
Qed.
End eh99.
Lemma sane_usual c : sane c -> usual c.
Proof. unfold sane, usual. lra. Qed.
Lemma nr_good c : sane c -> good99 (nr_eh99 c).
Proof.
  intros ([H1 H2] & [H3 H4] & H5 & H6). unfold nr_eh99, eh99_params, omega_l0. cbv zeta.
  destruct (Rle_dec 0 0) as [_|N]; [|lra].
  set (ob := if Rle_dec (omega_b0 c) 0 then 1 / 100000 else omega_b0 c). assert (Hob : 0 < ob <= omega_m0 c / 2) by (unfold ob; destruct (Rle_dec (omega_b0 c) 0); lra).
  assert (F1 : 0 < ob / omega_m0 c <= 1 / 2) by (split; [apply Rdiv_lt_0_compat; lra|apply (Rmult_le_reg_r (omega_m0 c)); [lra|unfold Rdiv; rewrite Rmult_assoc, Rinv_l by lra; lra]]).
  assert (F2 : 0 < 1 / 100000 / omega_m0 c <= 1 / 100) by (split; [apply Rdiv_lt_0_compat; lra|apply (Rmult_le_reg_r (omega_m0 c)); [lra|unfold Rdiv; rewrite Rmult_assoc, Rinv_l by lra; lra]]).
  assert (O : 0 < omega_m0 c * (hubble c * hubble c)) by (repeat apply Rmult_lt_0_compat; lra).
  constructor; cbn [g_hubble g_omhh g_theta g_f_hdm g_ndeg g_growth_k0 g_alpha_gamma g_beta_c g_f_cb]; try lra.
  - match goal with |- 0 < _ / (npow ?w _ - ?l + _) => assert (W : w = omega_m0 c) by (field; lra); assert (L : l = 1 - omega_m0 c) by (field; lra); rewrite W, L end.
    apply Rdiv_lt_0_compat; [|apply carroll_pos; lra]. apply Rmult_lt_0_compat; [|lra]. apply Rmult_lt_0_compat; [|lra]. apply Rdiv_lt_0_compat; [|lra]. apply Rdiv_lt_0_compat; [lra|]. apply pow_lt, pow_lt. lra.
  - apply sqrt_pos.
  - apply Rdiv_lt_0_compat; lra.
Qed.
