From Coq Require Import Reals Lra Lia Ratan.
From Coquelicot Require Import Coquelicot.
From Verif Require Import Base CosmModel CosmProps PowModel PowProofs PowProofs2 PowProofs3.
Local Open Scope R_scope.

Record good98 (s : eh98) : Prop := {
  g2_h : 0 < e_hubble s; g2_f : 0 < e_obhh s / e_omhh s < 1; g2_k : 0 < e_k_eq s; g2_s : 0 < e_sound s; g2_silk : 0 < e_k_silk s;
  g2_ac : 0 < e_alpha_c s; g2_bc : 0 < e_beta_c s; g2_ab : 0 < e_alpha_b s; g2_bb : 0 < e_beta_b s; g2_bn : 0 < e_beta_node s }.
(** ** The transfer function with good parameters *)
Section eh98.
Context (s : eh98) (G : good98 s).
Definition x_q (k : R) : R := k / (1341 / 100) / e_k_eq s.
Definition x_L (b k : R) : R := ln (2718282 / 1000000 + 18 / 10 * b * x_q k).
Definition x_C (a k : R) : R := 142 / 10 / a + 386 / (1 + 699 / 10 * npow (x_q k) (108 / 100)).
Lemma x_q_pos k : 0 < k -> 0 < x_q k.
Proof. intros H. destruct G. unfold x_q. apply Rdiv_lt_0_compat; [lra|assumption]. Qed.
Lemma x_arg b k : 0 < b -> 0 < k -> 1 < 2718282 / 1000000 + 18 / 10 * b * x_q k.
Proof. intros Hb H. pose proof (x_q_pos k H). assert (0 < b * x_q k) by (apply Rmult_lt_0_compat; assumption). lra. Qed.
Lemma x_L_pos b k : 0 < b -> 0 < k -> 0 < x_L b k.
Proof. intros Hb H. apply ln_pos, x_arg; assumption. Qed.
Lemma x_den k : 0 < 1 + 699 / 10 * npow (x_q k) (108 / 100).
Proof. pose proof (npow_nonneg (x_q k) (108 / 100)). lra. Qed.
Lemma x_C_pos a k : 0 < a -> 0 < x_C a k.
Proof. intros Ha. unfold x_C. assert (0 < 142 / 10 / a) by (apply Rdiv_lt_0_compat; lra). assert (0 < 386 / (1 + 699 / 10 * npow (x_q k) (108 / 100))) by (apply Rdiv_lt_0_compat; [lra|apply x_den]). lra. Qed.
Lemma x_T0 a b k : 0 < a -> 0 < b -> 0 < k -> 0 < x_L b k / (x_L b k + x_C a k * x_q k ^ 2) < 1.
Proof.
  intros Ha Hb H. pose proof (x_L_pos b k Hb H). pose proof (x_C_pos a k Ha). assert (0 < x_q k ^ 2) by (apply pow_lt, x_q_pos, H). assert (0 < x_C a k * x_q k ^ 2) by (apply Rmult_lt_0_compat; assumption).
  split; [apply Rdiv_lt_0_compat; lra|]. apply (Rmult_lt_reg_r (x_L b k + x_C a k * x_q k ^ 2)); [lra|]. unfold Rdiv. rewrite Rmult_assoc, Rinv_l by lra. lra.
Qed.
Lemma cdm_unfold k : eh98_cdm s k = let f := 1 / (1 + (k * e_sound s / (54 / 10)) ^ 4) in
  f * (x_L (e_beta_c s) k / (x_L (e_beta_c s) k + x_C 1 k * x_q k ^ 2)) + (1 - f) * (x_L (e_beta_c s) k / (x_L (e_beta_c s) k + x_C (e_alpha_c s) k * x_q k ^ 2)).
Proof. unfold eh98_cdm, x_C. cbv zeta. replace (142 / 10 / 1) with (142 / 10) by field. fold (x_q k). fold (x_L (e_beta_c s) k). unfold Rdiv. ring. Qed.
Lemma cdm_range k : 0 < k -> 0 < eh98_cdm s k < 1.
Proof.
  intros H. rewrite cdm_unfold. cbv zeta. pose proof (four_nonneg (k * e_sound s / (54 / 10))) as F. set (x := (k * e_sound s / (54 / 10)) ^ 4) in *. clearbody x.
  destruct G. destruct (x_T0 1 (e_beta_c s) k ltac:(lra) g2_bc0 H) as [A1 A2]. destruct (x_T0 (e_alpha_c s) (e_beta_c s) k g2_ac0 g2_bc0 H) as [B1 B2].
  set (u := x_L (e_beta_c s) k / (x_L (e_beta_c s) k + x_C 1 k * x_q k ^ 2)) in *. set (v := x_L (e_beta_c s) k / (x_L (e_beta_c s) k + x_C (e_alpha_c s) k * x_q k ^ 2)) in *. clearbody u v.
  assert (I : 0 < 1 / (1 + x)) by (apply Rdiv_lt_0_compat; lra). assert (I1 : 1 / (1 + x) <= 1) by (apply (Rmult_le_reg_r (1 + x)); [lra|]; unfold Rdiv; rewrite Rmult_assoc, Rinv_l by lra; lra).
  set (f := 1 / (1 + x)) in *. clearbody f. split; nra.
Qed.
Definition x_t (k : R) : R := k * (e_sound s * npow (1 + (e_beta_node s / (k * e_sound s)) ^ 3) (- (1 / 3))).
Lemma xx_pos k : 0 < k -> 0 < k * e_sound s.
Proof. intros H. destruct G. apply Rmult_lt_0_compat; assumption. Qed.
Lemma node_pos k : 0 < k -> 1 < 1 + (e_beta_node s / (k * e_sound s)) ^ 3.
Proof. intros H. assert (0 < (e_beta_node s / (k * e_sound s)) ^ 3); [|lra]. apply pow_lt, Rdiv_lt_0_compat; [destruct G; assumption|apply xx_pos, H]. Qed.
Lemma bb_pos k : 0 < k -> 1 < 1 + (e_beta_b s / (k * e_sound s)) ^ 3.
Proof. intros H. assert (0 < (e_beta_b s / (k * e_sound s)) ^ 3); [|lra]. apply pow_lt, Rdiv_lt_0_compat; [destruct G; assumption|apply xx_pos, H]. Qed.
Lemma x_t_range k : 0 < k -> 0 < x_t k < k * e_sound s.
Proof.
  intros H. pose proof (node_pos k H) as N. pose proof (xx_pos k H) as X. unfold x_t. set (a := 1 + (e_beta_node s / (k * e_sound s)) ^ 3) in *. clearbody a.
  assert (P : 0 < npow a (- (1 / 3))) by (apply npow_gt; lra).
  assert (Q : npow a (- (1 / 3)) < 1).
  { rewrite npow_pos by lra. unfold Rpower. apply Rlt_le_trans with (exp 0); [apply exp_increasing|rewrite exp_0; lra]. pose proof (ln_pos a N). lra. }
  rewrite <- Rmult_assoc. split; nra.
Qed.
Lemma baryon_unfold k : eh98_baryon s k = sin (x_t k) / x_t k * (x_L 1 k / (x_L 1 k + x_C 1 k * x_q k ^ 2) / (1 + (k * e_sound s / (52 / 10)) ^ 2) +
   e_alpha_b s / (1 + (e_beta_b s / (k * e_sound s)) ^ 3) * exp (- npow (k / e_k_silk s) (14 / 10))).
Proof. unfold eh98_baryon, x_C. cbv zeta. replace (142 / 10 / 1) with (142 / 10) by field. unfold x_L. rewrite Rmult_1_r. reflexivity. Qed.
Lemma envelope_pos k : 0 < k -> 0 < x_L 1 k / (x_L 1 k + x_C 1 k * x_q k ^ 2) / (1 + (k * e_sound s / (52 / 10)) ^ 2) +
   e_alpha_b s / (1 + (e_beta_b s / (k * e_sound s)) ^ 3) * exp (- npow (k / e_k_silk s) (14 / 10)).
Proof.
  intros H. destruct (x_T0 1 1 k ltac:(lra) ltac:(lra) H) as [A _]. pose proof (bb_pos k H). pose proof (sq_nonneg (k * e_sound s / (52 / 10))). destruct G.
  apply Rplus_lt_0_compat; [apply Rdiv_lt_0_compat; lra|]. apply Rmult_lt_0_compat; [apply Rdiv_lt_0_compat; lra|apply exp_pos].
Qed.
Lemma baryon_pos k : 0 < k -> k * e_sound s <= 3 -> 0 < eh98_baryon s k.
Proof.
  intros H H3. destruct (x_t_range k H) as [T1 T2]. rewrite baryon_unfold. apply Rmult_lt_0_compat; [|apply envelope_pos, H].
  apply Rdiv_lt_0_compat; [|exact T1]. pose proof PI2_3_2. apply sin_gt_0; lra.
Qed.
Lemma tf_at kk : 0 < kk -> eh98_tf s kk = e_obhh s / e_omhh s * eh98_baryon s (kk * e_hubble s) + (1 - e_obhh s / e_omhh s) * eh98_cdm s (kk * e_hubble s).
Proof.
  intros H. assert (P : 0 < kk * e_hubble s) by (destruct G; apply Rmult_lt_0_compat; assumption). unfold eh98_tf, eh98_tf3. cbv zeta. rewrite Rabs_right by lra.
  destruct (Req_EM_T (kk * e_hubble s) 0); [lra|]. reflexivity.
Qed.
Lemma tf98_pos kk : 0 < kk -> kk * e_hubble s * e_sound s <= 3 -> 0 < eh98_tf s kk.
Proof.
  intros H H3. rewrite tf_at by exact H. assert (P : 0 < kk * e_hubble s) by (destruct G; apply Rmult_lt_0_compat; assumption). pose proof (baryon_pos _ P H3). pose proof (cdm_range _ P). destruct G. nra.
Qed.
Lemma C_xq k : continuous x_q k.
Proof. unfold x_q. destruct G. cont; lra. Qed.
Lemma C_xL b k : 0 < b -> 0 < k -> continuous (x_L b) k.
Proof. intros Hb H. unfold x_L. apply C_ln; [|pose proof (x_arg b k Hb H); lra]. apply C_plus; [apply C_const|]. apply C_mult; [apply C_const|apply C_xq]. Qed.
Lemma C_xC a k : 0 < k -> continuous (x_C a) k.
Proof.
  intros H. unfold x_C. apply C_plus; [apply C_const|]. apply C_div; [apply C_const| |pose proof (x_den k); lra]. apply C_plus; [apply C_const|]. apply C_mult; [apply C_const|]. apply C_npow; [apply C_xq|apply x_q_pos, H].
Qed.
Lemma C_T0 a b k : 0 < a -> 0 < b -> 0 < k -> continuous (fun k => x_L b k / (x_L b k + x_C a k * x_q k ^ 2)) k.
Proof.
  intros Ha Hb H. pose proof (x_L_pos b k Hb H). pose proof (x_C_pos a k Ha). pose proof (sq_nonneg (x_q k)).
  apply C_div; [apply C_xL; assumption| |nra]. apply C_plus; [apply C_xL; assumption|]. apply C_mult; [apply C_xC, H|apply C_pow, C_xq].
Qed.
Lemma C_cdm k : 0 < k -> continuous (eh98_cdm s) k.
Proof.
  intros H. destruct G. apply (continuous_ext (fun k => 1 / (1 + (k * e_sound s / (54 / 10)) ^ 4) * (x_L (e_beta_c s) k / (x_L (e_beta_c s) k + x_C 1 k * x_q k ^ 2)) + (1 - 1 / (1 + (k * e_sound s / (54 / 10)) ^ 4)) * (x_L (e_beta_c s) k / (x_L (e_beta_c s) k + x_C (e_alpha_c s) k * x_q k ^ 2)))).
  - intros y. rewrite cdm_unfold. reflexivity.
  - assert (F : continuous (fun k => 1 / (1 + (k * e_sound s / (54 / 10)) ^ 4)) k). { pose proof (four_nonneg (k * e_sound s / (54 / 10))). cont; lra. }
    apply C_plus; apply C_mult; [exact F|apply C_T0; lra|apply C_minus; [apply C_const|exact F]|apply C_T0; lra].
Qed.
Lemma C_xt k : 0 < k -> continuous x_t k.
Proof.
  intros H. pose proof (node_pos k H). pose proof (xx_pos k H). unfold x_t. apply C_mult; [apply C_id|]. apply C_mult; [apply C_const|]. apply C_npow; [|lra].
  apply C_plus; [apply C_const|]. apply C_pow, C_div; [apply C_const|apply C_mult; [apply C_id|apply C_const]|lra].
Qed.
Lemma C_baryon k : 0 < k -> continuous (eh98_baryon s) k.
Proof.
  intros H. apply (continuous_ext (fun k => sin (x_t k) / x_t k * (x_L 1 k / (x_L 1 k + x_C 1 k * x_q k ^ 2) / (1 + (k * e_sound s / (52 / 10)) ^ 2) +
   e_alpha_b s / (1 + (e_beta_b s / (k * e_sound s)) ^ 3) * exp (- npow (k / e_k_silk s) (14 / 10))))).
  - intros y. rewrite baryon_unfold. reflexivity.
  - destruct (x_t_range k H) as [T1 T2]. pose proof (bb_pos k H). pose proof (sq_nonneg (k * e_sound s / (52 / 10))). pose proof (xx_pos k H). assert (K : 0 < k / e_k_silk s) by (destruct G; apply Rdiv_lt_0_compat; assumption).
    assert (KS : e_k_silk s <> 0) by (destruct G; lra).
    apply C_mult; [apply C_div; [apply C_sin, C_xt, H|apply C_xt, H|lra]|]. apply C_plus.
    + apply C_div; [apply C_T0; lra| |lra]. cont; lra.
    + apply C_mult; [|apply C_exp, C_opp, C_npow; [apply C_div; [apply C_id|apply C_const|exact KS]|exact K]].
      apply C_div; [apply C_const| |lra]. apply C_plus; [apply C_const|]. apply C_pow, C_div; [apply C_const|apply C_mult; [apply C_id|apply C_const]|lra].
Qed.
Lemma C_tf98 kk : 0 < kk -> continuous (eh98_tf s) kk.
Proof.
  intros H. apply (continuous_ext_loc _ (fun kk => e_obhh s / e_omhh s * eh98_baryon s (kk * e_hubble s) + (1 - e_obhh s / e_omhh s) * eh98_cdm s (kk * e_hubble s))).
  - assert (L : locally kk (fun v => 0 < v)) by (apply (open_gt 0); exact H). apply (filter_imp (fun v => 0 < v)); [|exact L]. intros v Hv. symmetry. apply tf_at, Hv.
  - assert (P : 0 < kk * e_hubble s) by (destruct G; apply Rmult_lt_0_compat; assumption). assert (I : continuous (fun k => k * e_hubble s) kk) by (apply C_mult; [apply C_id|apply C_const]).
    apply C_plus; (apply C_mult; [apply C_const|]).
    + apply (continuous_comp (fun k => k * e_hubble s) (eh98_baryon s)); [exact I|apply C_baryon, P].
    + apply (continuous_comp (fun k => k * e_hubble s) (eh98_cdm s)); [exact I|apply C_cdm, P].
Qed.
End eh98.

(** ** The parameters set_cosmology computes are good *)
Lemma sqrt_sub a b : 0 <= a -> 0 <= b -> sqrt (a + b) <= sqrt a + sqrt b.
Proof.
  intros Ha Hb. pose proof (sqrt_pos a). pose proof (sqrt_pos b). rewrite <- (sqrt_square (sqrt a + sqrt b)) by lra. apply sqrt_le_1; [lra|nra|].
  pose proof (sqrt_sqrt a Ha). pose proof (sqrt_sqrt b Hb). nra.
Qed.
Lemma ln_le_sub x : 0 < x -> ln x <= x - 1.
Proof. intros H. pose proof (exp_ineq1_le (ln x)). rewrite exp_ln in H0 by exact H. lra. Qed.
(** The logarithm in the sound horizon: between 0 and 2 sqrt R_drag. *)
Lemma sound_ln rd re : 0 < rd -> 0 < re -> 0 < ln ((sqrt (1 + rd) + sqrt (rd + re)) / (1 + sqrt re)) <= 2 * sqrt rd.
Proof.
  intros Hd He. pose proof (sqrt_pos re). assert (A : 1 < sqrt (1 + rd)) by (rewrite <- sqrt_1 at 1; apply sqrt_lt_1; lra). assert (B : sqrt re < sqrt (rd + re)) by (apply sqrt_lt_1; lra).
  pose proof (sqrt_sub 1 rd ltac:(lra) ltac:(lra)) as A'. rewrite sqrt_1 in A'. pose proof (sqrt_sub rd re ltac:(lra) ltac:(lra)) as B'.
  set (p := sqrt (1 + rd)) in *. set (q := sqrt (rd + re)) in *. set (w := sqrt re) in *. pose proof (sqrt_pos rd). set (v := sqrt rd) in *. clearbody p q w v.
  assert (X : 1 < (p + q) / (1 + w)) by (apply (Rmult_lt_reg_r (1 + w)); [lra|]; unfold Rdiv; rewrite Rmult_assoc, Rinv_l by lra; lra).
  split; [apply ln_pos, X|]. apply Rle_trans with ((p + q) / (1 + w) - 1); [apply ln_le_sub; lra|].
  apply (Rmult_le_reg_r (1 + w)); [lra|]. unfold Rdiv. rewrite Rmult_minus_distr_r, Rmult_assoc, Rinv_l by lra. nra.
Qed.
Lemma beta_c_pos f bc1 bc2 : 0 < f < 1 -> 0 <= bc1 < 1 -> 0 < bc2 -> 1 <= 1 / (1 + bc1 * (npow (1 - f) bc2 - 1)).
Proof.
  intros Hf H1 H2. pose proof (npow_gt (1 - f) bc2 ltac:(lra)). pose proof (npow_le1 (1 - f) bc2 ltac:(lra) H2). assert (D : 0 < 1 + bc1 * (npow (1 - f) bc2 - 1) <= 1) by nra.
  apply (Rmult_le_reg_r (1 + bc1 * (npow (1 - f) bc2 - 1))); [lra|]. unfold Rdiv. rewrite Rmult_assoc, Rinv_l by lra. lra.
Qed.
Lemma npow_sq_bound x : 0 <= x -> 0 <= x * x. Proof. nra. Qed.
Lemma set_good s om f h T : 0 < om -> 0 < f < 1 -> 0 < h -> 0 < T -> let r := eh98_set s om f h T in
  snd r = None /\ good98 (fst r) /\ e_hubble (fst r) = h /\ 1 <= e_beta_c (fst r) /\ e_sound (fst r) * e_sound (fst r) * (om * (h * h)) <= 48000000.
Proof.
  intros Ho Hf Hh HT. unfold eh98_set. cbv zeta.
  destruct (Rle_dec om 0); [lra|]. destruct (Rle_dec f 0); [lra|]. destruct (Rle_dec h 0); [lra|]. destruct (Rle_dec T 0); [lra|]. cbn [fst snd].
  set (w := om * (h * h)). assert (W : 0 < w) by (unfold w; repeat apply Rmult_lt_0_compat; assumption).
  set (b := w * f). assert (B : 0 < b) by (unfold b; apply Rmult_lt_0_compat; lra). set (th := T / (27 / 10)). assert (TH : 0 < th) by (unfold th; apply Rdiv_lt_0_compat; lra).
  assert (T4 : 0 < th ^ 4) by (apply pow_lt, TH). assert (T2 : 0 < th ^ 2) by (apply pow_lt, TH).
  set (zeq := 25000 * w / th ^ 4). assert (ZE : 0 < zeq) by (unfold zeq; apply Rdiv_lt_0_compat; lra). set (keq := 746 / 10000 * w / th ^ 2). assert (KE : 0 < keq) by (unfold keq; apply Rdiv_lt_0_compat; lra).
  match goal with |- context [1 + 1291 * ?a / ?c * ?d] => set (zd := 1291 * a / c * d) end.
  assert (ZD : 0 < zd).
  { unfold zd. pose proof (npow_gt w (251 / 1000) W). pose proof (npow_gt w (828 / 1000) W). pose proof (npow_gt w (- (419 / 1000)) W). pose proof (npow_gt w (674 / 1000) W).
    match goal with |- context [npow b ?e] => pose proof (npow_gt b e B) end. apply Rmult_lt_0_compat; [apply Rdiv_lt_0_compat; lra|].
    match goal with |- 0 < 1 + ?e => assert (0 < e); [|lra] end. apply Rmult_lt_0_compat; [apply Rmult_lt_0_compat; lra|assumption]. }
  clearbody zd. set (rd := 315 / 10 * b / th ^ 4 * (1000 / (1 + zd))). set (re := 315 / 10 * b / th ^ 4 * (1000 / zeq)).
  assert (RD : 0 < rd) by (unfold rd; apply Rmult_lt_0_compat; apply Rdiv_lt_0_compat; lra). assert (RE : 0 < re) by (unfold re; apply Rmult_lt_0_compat; apply Rdiv_lt_0_compat; lra).
  assert (RR : rd / re <= zeq).
  { assert (E : rd / re = zeq / (1 + zd)) by (unfold rd, re; field; repeat split; lra). rewrite E. apply (Rmult_le_reg_r (1 + zd)); [lra|]. unfold Rdiv. rewrite Rmult_assoc, Rinv_l by lra. nra. }
  destruct (sound_ln rd re RD RE) as [L1 L2]. set (lg := ln ((sqrt (1 + rd) + sqrt (rd + re)) / (1 + sqrt re))) in *.
  set (snd0 := 2 / 3 / keq * sqrt (6 / re) * lg).
  assert (K3 : 0 < 2 / 3 / keq) by (apply Rdiv_lt_0_compat; lra). assert (S6 : 0 < sqrt (6 / re)) by (apply sqrt_lt_R0, Rdiv_lt_0_compat; lra).
  assert (SP : 0 < snd0) by (unfold snd0; apply Rmult_lt_0_compat; [apply Rmult_lt_0_compat|]; assumption).
  assert (SB : snd0 * snd0 * w <= 48000000).
  { assert (Q : snd0 * snd0 <= (2 / 3 / keq) * (2 / 3 / keq) * (24 * zeq)).
    { unfold snd0. assert (LL : lg * lg <= 4 * rd). { pose proof (sqrt_sqrt rd ltac:(lra)) as Sd. pose proof (sqrt_pos rd). set (v := sqrt rd) in *. nra. }
      assert (S66 : sqrt (6 / re) * sqrt (6 / re) = 6 / re) by (apply sqrt_sqrt; left; apply Rdiv_lt_0_compat; lra).
      replace (2 / 3 / keq * sqrt (6 / re) * lg * (2 / 3 / keq * sqrt (6 / re) * lg)) with (2 / 3 / keq * (2 / 3 / keq) * (sqrt (6 / re) * sqrt (6 / re) * (lg * lg))) by ring.
      rewrite S66. apply Rmult_le_compat_l; [apply Rmult_le_pos; lra|]. assert (6 / re * (lg * lg) <= 6 / re * (4 * rd)) by (apply Rmult_le_compat_l; [left; apply Rdiv_lt_0_compat; lra|exact LL]).
      assert (6 / re * (4 * rd) = 24 * (rd / re)) by (field; lra). lra. }
    apply Rle_trans with (2 / 3 / keq * (2 / 3 / keq) * (24 * zeq) * w); [apply Rmult_le_compat_r; [lra|exact Q]|].
    unfold keq, zeq. match goal with |- ?e <= _ => replace e with (24 * 25000 * (2 / 3) * (2 / 3) / (746 / 10000) / (746 / 10000)) by (field; repeat split; lra) end. lra. }
  assert (Y : 0 < zeq / (1 + zd)) by (apply Rdiv_lt_0_compat; lra).
  pose proof (G_pos _ Y) as GP.
  assert (BC : 1 <= 1 / (1 + 944 / 1000 / (1 + npow (458 * w) (- (708 / 1000))) * (npow (1 - f) (npow (395 / 1000 * w) (- (266 / 10000))) - 1))).
  { apply beta_c_pos; [exact Hf| |apply npow_gt; lra]. pose proof (npow_gt (458 * w) (- (708 / 1000)) ltac:(lra)).
    split; [left; apply Rdiv_lt_0_compat; lra|]. match goal with |- ?a / ?d < 1 => apply (Rmult_lt_reg_r d); [lra|]; unfold Rdiv at 1; rewrite Rmult_assoc, Rinv_l by lra; lra end. }
  split; [reflexivity|]. split; [constructor; cbn [e_hubble e_obhh e_omhh e_k_eq e_sound e_k_silk e_alpha_c e_beta_c e_alpha_b e_beta_b e_beta_node]|].
  - exact Hh.
  - replace (b / w) with f by (unfold b; field; lra). exact Hf.
  - exact KE.
  - exact SP.
  - pose proof (npow_gt b (52 / 100) B). pose proof (npow_gt w (73 / 100) W). pose proof (npow_gt (104 / 10 * w) (- (95 / 100)) ltac:(lra)). apply Rmult_lt_0_compat; [apply Rmult_lt_0_compat|]; lra.
  - apply Rmult_lt_0_compat; apply npow_gt; (apply Rmult_lt_0_compat; [apply npow_gt; lra|]).
    + pose proof (npow_gt (321 / 10 * w) (- (532 / 1000)) ltac:(lra)). lra.
    + pose proof (npow_gt (45 * w) (- (582 / 1000)) ltac:(lra)). lra.
  - lra.
  - apply Rmult_lt_0_compat; [|exact GP]. apply Rmult_lt_0_compat; [apply Rmult_lt_0_compat; [lra|exact SP]|]. apply npow_gt. lra.
  - pose proof (sqrt_pos ((172 / 10 * w) ^ 2 + 1)). nra.
  - pose proof (npow_gt w (435 / 1000) W). lra.
  - split; [reflexivity|]. split; [exact BC|exact SB].
Qed.
Lemma nr98_good c : sane c -> 0 < omega_b0 c -> good98 (nr_eh98 c) /\ forall k, 0 < k < exp (-16) -> k * e_hubble (nr_eh98 c) * e_sound (nr_eh98 c) <= 3.
Proof.
  intros ([H1 H2] & [H3 H4] & H5 & H6) Hb. unfold nr_eh98.
  assert (F : 0 < baryon_fraction c < 1). { unfold baryon_fraction. split; [apply Rdiv_lt_0_compat; lra|]. apply (Rmult_lt_reg_r (omega_m0 c)); [lra|]. unfold Rdiv. rewrite Rmult_assoc, Rinv_l by lra. lra. }
  destruct (set_good eh98_0 (omega_m0 c) (baryon_fraction c) (hubble c) (2728 / 1000) ltac:(lra) F H5 ltac:(lra)) as (_ & GG & HH & _ & SB).
  split; [exact GG|]. intros k [K1 K2]. rewrite HH. set (s0 := e_sound _) in *. assert (S0 : 0 < s0) by (destruct GG; assumption). clearbody s0.
  pose proof exp_m16 as E. assert (K3 : k < 1 / 800000) by lra.
  assert (M : s0 * hubble c * (s0 * hubble c) <= 48000000000). { replace (s0 * s0 * (omega_m0 c * (hubble c * hubble c))) with ((s0 * hubble c) * (s0 * hubble c) * omega_m0 c) in SB by ring. pose proof (npow_sq_bound (s0 * hubble c) ltac:(apply Rmult_le_pos; lra)). nra. }
  assert (N : s0 * hubble c <= 300000). { apply Rnot_lt_le. intros L. nra. }
  assert (0 < s0 * hubble c) by (apply Rmult_lt_0_compat; assumption). rewrite Rmult_assoc, (Rmult_comm (hubble c)). nra.
Qed.
