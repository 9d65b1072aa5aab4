(** The code's formulas are the published ones. *)
From Coq Require Import Reals Lra Lia.
From Coquelicot Require Import Coquelicot.
From Verif Require Import Base CosmModel CosmProps PowModel PowProofs PowProofs2 PowProofs3 PowProofs4 PowSpec.
Local Open Scope R_scope.

Lemma Rpower_gt x y : 0 < Rpower x y.
Proof. apply exp_pos. Qed.
Ltac pos := lazymatch goal with
  | |- 0 < Rpower _ _ => apply Rpower_gt
  | |- 0 < exp _ => apply exp_pos
  | |- 0 < _ ^ _ => apply pow_lt; pos
  | |- 0 < sqrt _ => apply sqrt_lt_R0; pos
  | |- 0 < _ => first [assumption | lra | apply Rmult_lt_0_compat; pos | apply Rdiv_lt_0_compat; pos | apply Rplus_lt_0_compat; pos]
  end.
Ltac np := repeat match goal with |- context [npow ?x ?y] => rewrite (npow_pos x y) by pos end.

Section set98.
Context (s0 : eh98) (om f h T : R) (Ho : 0 < om) (Hf : 0 < f < 1) (Hh : 0 < h) (HT : 0 < T).
Let wm := om * h ^ 2.
Let wb := f * wm.
Let th := T / (27 / 10).
Let s := fst (eh98_set s0 om f h T).
Lemma wm_pos : 0 < wm. Proof. unfold wm. pos. Qed.
Lemma wb_pos : 0 < wb. Proof. unfold wb. pose proof wm_pos. apply Rmult_lt_0_compat; lra. Qed.
Lemma th_pos : 0 < th. Proof. unfold th. pos. Qed.
Lemma set98_is : s = {| e_hubble := h; e_omhh := wm; e_obhh := wb; e_k_eq := k_eq wm th; e_sound := sound_horizon wm wb th; e_k_silk := k_silk wm wb;
   e_alpha_c := eh_alpha_c wm f; e_beta_c := eh_beta_c wm f; e_alpha_b := eh_alpha_b wm wb th; e_beta_b := eh_beta_b wm f; e_beta_node := eh_beta_node wm |}.
Proof.
  pose proof wm_pos as A. pose proof wb_pos as B. pose proof th_pos as C. unfold s, eh98_set.
  destruct (Rle_dec om 0); [lra|]. destruct (Rle_dec f 0); [lra|]. destruct (Rle_dec h 0); [lra|]. destruct (Rle_dec T 0); [lra|].
  cbv zeta. cbn [fst]. replace (om * (h * h)) with wm by (unfold wm; ring). replace (wm * f) with wb by (unfold wb; ring). change (T / (27 / 10)) with th.
  unfold k_eq, sound_horizon, k_silk, eh_alpha_c, eh_beta_c, eh_alpha_b, eh_beta_b, eh_beta_node, sound_horizon, R_at, eh_G, z_eq, z_d, k_eq. cbv zeta.
  assert (H1f : 0 < 1 - f) by lra.
  np. f_equal; ring.
Qed.
Lemma tf98_is kk : 0 < kk -> eh98_tf s kk = EH98 om f h T kk.
Proof.
  intros Hk. destruct (set_good s0 om f h T Ho Hf Hh HT) as (_ & G & _). fold s in G. rewrite (tf_at s G) by exact Hk. rewrite set98_is in *. destruct G.
  cbn [e_hubble e_omhh e_obhh e_k_eq e_sound e_k_silk e_alpha_c e_beta_c e_alpha_b e_beta_b e_beta_node] in *.
  pose proof wm_pos as A. assert (K : 0 < kk * h) by (apply Rmult_lt_0_compat; assumption).
  unfold EH98. cbv zeta. fold wm. fold wb. fold th. unfold eh98_baryon, eh98_cdm, T_c, T_b, T0. cbv zeta.
  cbn [e_hubble e_omhh e_obhh e_k_eq e_sound e_k_silk e_alpha_c e_beta_c e_alpha_b e_beta_b e_beta_node] in *.
  replace (wb / wm) with f by (unfold wb; field; lra). np. replace (142 / 10 / 1) with (142 / 10) by field. rewrite !Rmult_1_r. unfold Rdiv. ring.
Qed.
End set98.

(** ** Growth *)
Lemma growth_cpt c z : usual c -> -1 < z -> growth c z = cpt92_g (omega_m c z) (omega_l c z) / (1 + z) / cpt92_g (omega_m0 c) (omega_l0 c).
Proof.
  intros U Hz. rewrite growth_is. assert (D : forall w, -1 < w -> 0 < omega_m c w).
  { intros w Hw. destruct (C55_budget c w U Hw) as (_ & A & _). first [exact A | lra]. }
  assert (E0 : efunc_sqr c 0 = 1) by (unfold efunc_sqr, omega_l0; ring).
  assert (M0 : omega_m c 0 = omega_m0 c) by (unfold omega_m; rewrite E0; field). assert (L0 : omega_l c 0 = omega_l0 c) by (unfold omega_l; rewrite E0; field).
  assert (X : forall w, -1 < w -> growth_raw c 1 w = cpt92_g (omega_m c w) (omega_l c w) / (1 + w)).
  { intros w Hw. unfold growth_raw, cpt92_g. cbv zeta. pose proof (D w Hw). rewrite npow_pos by assumption. unfold Rdiv. ring. }
  rewrite !X by lra. rewrite M0, L0. replace (1 + 0) with 1 by ring. unfold Rdiv at 3. rewrite Rinv_1, Rmult_1_r. reflexivity.
Qed.

(** ** EH99 *)
Section set99.
Context (om ob onu n ol h z : R) (Ho : 0 < om) (Hb : 0 < ob) (Hn : 0 < onu) (Hs : ob + onu < om) (N : 1 <= n) (L0 : 0 <= ol) (L1 : om + ol <= 1) (Hh : 0 < h) (Hz : -1 < z)
  (Ha : 0 <= EH99_alpha om ob onu n h).
Let s := eh99_params om ob onu n ol h z.
Let wm := om * h ^ 2.
Let wb := ob * h ^ 2.
Let th := 2728 / 1000 / (27 / 10).
Let E2 := ol + (1 + z) ^ 2 * (1 - om - ol + om * (1 + z)).
Lemma E2_pos : 0 < E2 /\ om * (1 + z) ^ 3 / E2 + ol / E2 <= 1 /\ 0 < om * (1 + z) ^ 3 / E2.
Proof.
  assert (P3 : 0 < om * (1 + z) ^ 3) by (apply Rmult_lt_0_compat; [assumption|apply pow_lt; lra]).
  assert (Q : 0 <= (1 + z) ^ 2 * (1 - om - ol)) by (apply Rmult_le_pos; [apply sq_nonneg|lra]).
  assert (E : E2 = ol + (1 + z) ^ 2 * (1 - om - ol) + om * (1 + z) ^ 3) by (unfold E2; ring).
  assert (P : 0 < E2) by lra. split; [exact P|]. split; [|apply Rdiv_lt_0_compat; assumption].
  apply (Rmult_le_reg_r E2); [exact P|]. replace ((om * (1 + z) ^ 3 / E2 + ol / E2) * E2) with (om * (1 + z) ^ 3 + ol) by (field; lra). lra.
Qed.
Let D1 := z_eq wm th / (1 + z) * cpt92_g (om * (1 + z) ^ 3 / E2) (ol / E2).
Lemma cpt_pos a b : 0 < a -> 0 <= b -> a + b <= 1 -> 0 < cpt92_g a b.
Proof.
  intros A B S. unfold cpt92_g. apply Rdiv_lt_0_compat; [lra|]. pose proof (Rpower_gt a (4 / 7)). nra.
Qed.
Lemma D1_pos : 0 < D1.
Proof.
  destruct E2_pos as (P & Q & R). unfold D1. apply Rmult_lt_0_compat; [unfold z_eq, wm, th; pos|]. apply cpt_pos; [exact R| |exact Q].
  unfold Rdiv. apply Rmult_le_pos; [exact L0|left; apply Rinv_0_lt_compat, P].
Qed.
Lemma set99_is : s = {| g_alpha_gamma := sqrt (EH99_alpha om ob onu n h); g_beta_c := beta_nb (ob / om + onu / om); g_ndeg := n; g_f_cb := 1 - ob / om - onu / om + ob / om; g_f_hdm := onu / om;
  g_growth_k0 := D1; g_hubble := h; g_omhh := wm; g_p_cb := p_of (1 - ob / om - onu / om + ob / om); g_sound := sound_fit wm wb; g_theta := th |}.
Proof.
  assert (A : 0 < wm) by (unfold wm; pos). assert (B : 0 < wb) by (unfold wb; pos). destruct E2_pos as (P & Q & R). unfold s, eh99_params. cbv zeta.
  destruct (Rle_dec ob 0); [lra|]. destruct (Rle_dec onu 0); [lra|]. replace (om * (h * h)) with wm by (unfold wm; ring). replace (ob * (h * h)) with wb by (unfold wb; ring).
  change (2728 / 1000 / (27 / 10)) with th. change (ol + (1 + z) ^ 2 * (1 - om - ol + om * (1 + z))) with E2.
  replace (om * (1 + z) ^ 2 * (1 + z)) with (om * (1 + z) ^ 3) by ring. assert (T : 0 < th) by (unfold th; lra).
  assert (YD : 0 < 1 + z_eq wm th / (1 + z_d wm wb)) by (unfold z_eq, z_d; pos).
  unfold D1, EH99_alpha, alpha_nu, beta_nb, sound_fit, p_of, cpt92_g. cbv zeta. fold wm. fold wb. fold th.
  unfold z_eq, z_d in *. cbv zeta in *. np. f_equal.
  - f_equal. replace ((th ^ 2) ^ 2) with (th ^ 4) by ring. unfold Rdiv. rewrite !Rinv_mult. ring.
  - replace ((th ^ 2) ^ 2) with (th ^ 4) by ring. unfold Rdiv. ring.
Qed.
Lemma frac_pos a : 0 < a -> 0 < a / om.
Proof. intros A. apply Rdiv_lt_0_compat; assumption. Qed.
Lemma good99_set : good99 s.
Proof.
  pose proof (frac_pos ob Hb) as FB. pose proof (frac_pos onu Hn) as FN.
  assert (S1 : ob / om + onu / om < 1). { apply (Rmult_lt_reg_r om); [exact Ho|]. replace ((ob / om + onu / om) * om) with (ob + onu) by (field; lra). lra. }
  rewrite set99_is. split; cbn [g_alpha_gamma g_beta_c g_ndeg g_f_cb g_f_hdm g_growth_k0 g_hubble g_omhh g_p_cb g_sound g_theta].
  - exact Hh. - unfold wm. pos. - unfold th. lra. - exact FN. - lra. - apply D1_pos. - apply sqrt_pos. - unfold beta_nb. apply Rdiv_lt_0_compat; lra. - lra.
Qed.
Lemma tf99_is nu kk : 0 < kk -> eh99_tf s nu kk = EH99 nu om ob onu n ol h z kk.
Proof.
  intros Hk. pose proof good99_set as G. pose proof (y_qq_pos s G kk Hk) as Q. pose proof (y_fs_nonneg s G kk) as F. pose proof (y_ge_pos s G kk) as GE. unfold y_fs, y_ge, y_qq in *.
  rewrite set99_is in *. destruct G. unfold eh99_tf, eh99_tf2, EH99, T_master. cbv zeta.
  cbn [g_alpha_gamma g_beta_c g_ndeg g_f_cb g_f_hdm g_growth_k0 g_hubble g_omhh g_p_cb g_sound g_theta fst snd] in *.
  fold wm. fold wb. fold th. fold E2. fold D1. change (alpha_nu (1 - ob / om - onu / om) (ob / om) (onu / om) n (z_eq wm th / (1 + z_d wm wb))) with (EH99_alpha om ob onu n h).
  unfold D_cb, D_cbnu, y_free in *.
  assert (NN : 0 < n) by lra. rewrite (npow_pos (onu / om) (- (7 / 6))) in * by assumption.
  set (fn := onu / om) in *. set (fcb := 1 - ob / om - fn + ob / om) in *. set (q := kk * h / wm * th ^ 2) in *. set (ag := sqrt (EH99_alpha om ob onu n h)) in *.
  set (ge := wm * (ag + (1 - ag) / (1 + (kk * h * sound_fit wm wb * (43 / 100)) ^ 4))) in *.
  replace (q * n / fn) with (n * q / fn) by (unfold Rdiv; ring).
  set (yf := 172 / 10 * fn * (1 + 488 / 1000 * Rpower fn (- (7 / 6))) * (n * q / fn) ^ 2) in *.
  assert (Y1 : 0 < 1 + yf) by lra. assert (SN : 0 < sqrt (n / fn)) by (apply sqrt_lt_R0; apply Rdiv_lt_0_compat; assumption).
  assert (QE : 0 < q * wm / ge) by (apply Rdiv_lt_0_compat; [apply Rmult_lt_0_compat; assumption|exact GE]).
  clearbody fn fcb q ag ge yf. destruct nu; np; reflexivity.
Qed.
End set99.
