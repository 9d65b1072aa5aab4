(** Proofs for C102: the cube root. *)
From Coq Require Import ZArith Reals Lra Lia List Bool.
Require Import Flocq.Core.Core Flocq.IEEE754.BinarySingleNaN.
From Verif Require Import Base ProcFloat InterpFloatProofs MeshFloatModel MeshFloatProofs FredModel FredSpec FredProofs FredProofs3 FknnProofs2 PiBound FdenModel FdenSpec FdenProofs FdenProofs2 FcosModel FcosSpec FcosProofs FcosProofs2 FcosProofs3.
Local Open Scope R_scope.

Definition third64 : b64 := div64 (of_Z64 1) (of_Z64 3).
Lemma third_ok : fin third64 = true /\ 0 <= val third64 <= 1 /\ Rabs (val third64 - / 3) <= B (-55).
Proof.
  destruct one_ok as [V1 F1]. destruct (of_Z64_exact 3 ltac:(lia)) as [V3 F3]. destruct (div64_b (of_Z64 1) (of_Z64 3) F1 ltac:(rewrite V3; lra)) as [G V].
  { rewrite V1, V3, Rabs_right by lra. apply Rle_trans with (B 0); [change (B 0) with 1; lra|apply bpow_le; lia]. }
  rewrite V1, V3 in V. replace (1 / 3) with (/ 3) in V by lra. unfold third64. rewrite V. split; [exact G|]. split; [split; [apply rnd64_pos; lra|rewrite <- one_rnd; apply rnd64_le; lra]|].
  eapply Rle_trans; [apply error_le_half_ulp; apply valid64|]. rewrite ulp_neq_0 by lra. replace (B (-55)) with (/ 2 * B (-54)) by (replace (-54)%Z with (1 + -55)%Z by reflexivity; rewrite bpow_plus; change (B 1) with 2; field).
  apply Rmult_le_compat_l; [lra|]. apply bpow_le. unfold cexp. assert (M : (mag radix2 (/ 3) <= -1)%Z) by (apply mag_le_bpow; [lra|rewrite Rabs_right by lra; change (B (-1)) with (/ 2); lra]). unfold SpecFloat.fexp, SpecFloat.emin. lia.
Qed.
Lemma ln_two k x : (0 <= k)%Z -> B (- k) <= x <= B k -> Rabs (ln x) <= IZR k.
Proof.
  intros K H. pose proof (bpow_gt_0 radix2 (- k)) as P. assert (L2 : 0 < ln 2 <= 1). { split; [rewrite <- ln_1; apply ln_increasing; lra|]. apply Rle_trans with (ln (exp 1)); [|rewrite ln_exp; lra]. pose proof (exp_ineq1_le 1) as E. destruct (Rle_lt_or_eq_dec _ _ E) as [E'|E']; [apply Rlt_le, ln_increasing; lra|right; f_equal; lra]. }
  assert (Lk : forall m, ln (B m) = IZR m * ln 2) by (intros m; rewrite bpow_exp, ln_exp; reflexivity). assert (I0 : 0 <= IZR k) by (apply (IZR_le 0); exact K).
  assert (U : forall a b, 0 < a -> a <= b -> ln a <= ln b) by (intros a b Pa [J|J]; [apply Rlt_le, ln_increasing; assumption|right; f_equal; exact J]). pose proof (U _ _ P (proj1 H)) as A. pose proof (U x (B k) ltac:(lra) (proj2 H)) as C. rewrite Lk in A, C. rewrite opp_IZR in A.
  assert (IZR k * ln 2 <= IZR k * 1) by (apply Rmult_le_compat_l; lra). apply Rabs_le. lra.
Qed.
(** A third of the exponent. *)
Lemma fac_third n m f : fac n f -> (n <= 3 * m)%nat -> fac m (Rpower f (/ 3)).
Proof.
  intros Q Hn. pose proof (fac_more _ _ _ Hn Q) as [A C]. pose proof (fac_pos _ _ Q) as Pf. pose proof (pw_pos (3 * m)) as P0. pose proof (bpow_gt_0 radix2 (-52)) as Pe. assert (P1 : 0 < (1 + ee) ^ m) by (apply pow_lt; lra).
  assert (E : forall t, 0 < t -> Rpower (t ^ 3) (/ 3) = t). { intros t Pt. rewrite <- Rpower_pow by exact Pt. rewrite Rpower_mult. replace (INR 3 * / 3) with 1 by (cbn [INR]; lra). apply Rpower_1, Pt. }
  rewrite (Nat.mul_comm 3), pow_mult in A, C. split.
  - rewrite <- (E (/ (1 + ee) ^ m)) by (apply Rinv_0_lt_compat; exact P1). apply Rle_Rpower_l; [lra|]. split; [apply pow_lt, Rinv_0_lt_compat; exact P1|]. rewrite pow_inv. exact A.
  - rewrite <- (E ((1 + ee) ^ m)) by exact P1. apply Rle_Rpower_l; [lra|]. split; [exact Pf|exact C].
Qed.
Lemma fac_exp y : Rabs y <= 121 * B (-55) -> fac 16 (exp y).
Proof.
  intros H. unfold fac. pose proof (bpow_gt_0 radix2 (-52)) as P. assert (E : B (-55) = / 8 * ee) by (replace (-55)%Z with (-3 + -52)%Z by reflexivity; rewrite bpow_plus; reflexivity). rewrite E in H. assert (S : ee <= / 1024) by (change (/ 1024) with (B (-10)); apply bpow_le; lia).
  assert (T : 1 + 16 * ee <= (1 + ee) ^ 16). { assert (G : forall n, 1 + INR n * ee <= (1 + ee) ^ n). { induction n as [|n IH]; [cbn; lra|]. rewrite S_INR. cbn [pow]. assert (N : 0 <= INR n) by apply pos_INR. apply Rle_trans with ((1 + ee) * (1 + INR n * ee)); [|apply Rmult_le_compat_l; lra]. assert (0 <= INR n * ee * ee) by (repeat apply Rmult_le_pos; lra). replace ((1 + ee) * (1 + INR n * ee)) with (1 + (INR n + 1) * ee + INR n * ee * ee) by ring. lra. }
    specialize (G 16%nat). replace (INR 16) with 16 in G by (cbn [INR]; lra). exact G. }
  set (e := ee) in *. clearbody e. set (p := (1 + e) ^ 16) in *. assert (U : forall t, t <= 121 * (/ 8 * e) -> exp t <= p).
  { intros t Ht. apply Rle_trans with (1 + 16 * e); [|exact T]. pose proof (exp_ineq1_le (- t)) as L. rewrite exp_Ropp in L. pose proof (exp_pos t) as Pt. assert (J : / exp t * exp t = 1) by (apply Rinv_l; lra). assert (K : (1 + - t) * exp t <= 1) by (rewrite <- J; apply Rmult_le_compat_r; lra).
    apply Rmult_le_reg_l with (1 + - t); [lra|]. eapply Rle_trans; [exact K|]. apply Rle_trans with ((1 - 121 * (/ 8 * e)) * (1 + 16 * e)); [|apply Rmult_le_compat_r; lra]. assert (e * e <= e * / 1024) by (apply Rmult_le_compat_l; lra). lra. }
  apply Rabs_le_inv in H. split; [|apply U; lra]. pose proof (exp_pos y) as Py. rewrite <- (Rinv_inv (exp y)), <- exp_Ropp. apply Rinv_le; [apply exp_pos|apply U; lra].
Qed.
Lemma root_close P x r : pow_like P -> close 70 x (r ^ 3) -> 0 < r -> medium 120 (r ^ 3) -> close 44 (P x third64) r.
Proof.
  intros HP C Pr M. destruct third_ok as (Ft & Ht & Et). destruct (close_size _ _ _ _ C M ltac:(lia)) as [Fx Mx]. assert (P3 : 0 < r ^ 3) by (apply pow_lt; exact Pr). pose proof (proj1 (close_pos _ _ _ C) P3) as Px. destruct Mx as [Z|Mx]; [lra|]. change (120 + 1)%Z with 121%Z in Mx.
  assert (T1 : B (-400) <= B (- (121))) by (apply bpow_le; lia). assert (T2 : B 121 <= B 400) by (apply bpow_le; lia). destruct (HP x third64 Fx Ft ltac:(split; lra) Ht) as (F & g & Vg & Qg). split; [exact F|]. change (fac 4 g) in Qg.
  destruct C as (_ & f & Vf & Qf). change (fac 70 f) in Qf. pose proof (fac_pos _ _ Qf) as Pf. pose proof (ln_two 121 (val x) ltac:(lia) Mx) as Lx. exists (Rpower f (/ 3) * exp ((val third64 - / 3) * ln (val x)) * g). split.
  - rewrite Vg. assert (E : Rpower (val x) (val third64) = r * (Rpower f (/ 3) * exp ((val third64 - / 3) * ln (val x)))); [|rewrite E; ring]. replace (Rpower (val x) (val third64)) with (Rpower (val x) (/ 3) * exp ((val third64 - / 3) * ln (val x))) by (unfold Rpower; rewrite <- exp_plus; f_equal; ring).
    rewrite Vf at 1. rewrite <- Rpower_mult_distr by assumption. replace (Rpower (r ^ 3) (/ 3)) with r; [ring|]. rewrite <- Rpower_pow by exact Pr. rewrite Rpower_mult. replace (INR 3 * / 3) with 1 by (cbn [INR]; lra). symmetry. apply Rpower_1, Pr.
  - change 44%nat with (24 + 16 + 4)%nat. apply fac_mul; [|exact Qg]. apply fac_mul; [apply (fac_third 70); [exact Qf|lia]|]. apply fac_exp. rewrite Rabs_mult, Rmult_comm. apply Rmult_le_compat; [apply Rabs_pos|apply Rabs_pos|exact Lx|exact Et].
Qed.
(** ** A power function exists *)
Definition pow64 (x y : b64) : b64 := of_R64 (Rpower (val x) (val y)).
Lemma pow64_like : pow_like pow64.
Proof.
  intros x y Fx Fy Hx Hy. pose proof (bpow_gt_0 radix2 (-400)) as P. assert (U : B (-400) <= Rpower (val x) (val y) <= B 400).
  { assert (T : 1 <= B 400) by (apply (bpow_le radix2 0 400); lia). assert (T2 : B (-400) <= 1) by (apply (bpow_le radix2 (-400) 0); lia). assert (E1 : Rpower (val x) 1 = val x) by (apply Rpower_1; lra). assert (E0 : Rpower (val x) 0 = 1) by (apply Rpower_O; lra).
    destruct (Rle_lt_dec 1 (val x)) as [C|C].
    - pose proof (Rle_Rpower (val x) 0 (val y) C ltac:(lra)). pose proof (Rle_Rpower (val x) (val y) 1 C ltac:(lra)). lra.
    - assert (L : ln (val x) < 0) by (rewrite <- ln_1; apply ln_increasing; lra). assert (D : forall a b, a <= b -> Rpower (val x) b <= Rpower (val x) a). { intros a b Hab. unfold Rpower. assert (K : b * ln (val x) <= a * ln (val x)) by (assert (0 <= (b - a) * - ln (val x)) by (apply Rmult_le_pos; lra); lra). destruct K as [K|K]; [apply Rlt_le, exp_increasing, K|rewrite K; lra]. }
      pose proof (D 0 (val y) ltac:(lra)). pose proof (D (val y) 1 ltac:(lra)). lra. }
  destruct (fac_round (Rpower (val x) (val y))) as (f & Qf & Ef); [right; eapply Rle_trans; [apply bpow_le|apply U]; lia|]. destruct (of_R64_val (Rpower (val x) (val y))) as [F V].
  - assert (R : 0 <= rnd64 (Rpower (val x) (val y)) <= B 400) by (split; [apply rnd64_pos; lra|rewrite <- (bpow64 400) by lia; apply rnd64_le; lra]). rewrite Rabs_right by lra. apply Rle_lt_trans with (B 400); [lra|apply bpow_lt; lia].
  - split; [exact F|]. exists f. split; [unfold pow64; rewrite V; exact Ef|exact (fac_more 1 4 _ ltac:(lia) Qf)].
Qed.
