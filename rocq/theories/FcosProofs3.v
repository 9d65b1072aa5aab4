(** Proofs for C102: densities, order, the scale factor, and the power. *)
From Coq Require Import ZArith Reals Lra Lia List Bool.
Require Import Flocq.Core.Core Flocq.IEEE754.BinarySingleNaN.
From Verif Require Import Base ProcFloat InterpFloatProofs MeshFloatModel MeshFloatProofs FredModel FredSpec FredProofs FredProofs3 FknnProofs2 PiBound FdenModel FdenSpec FdenProofs FdenProofs2 FcosModel FcosSpec FcosProofs FcosProofs2.
Local Open Scope R_scope.

(** ** Densities *)
Section Dens.
Context (h om : b64).
Hypothesis Hh : sized 10 h.
Hypothesis Hom : matter om.
Notation H := (val h).
Notation W := (val om).
Lemma mean0_close : close 29 (mean0_64 h om) (exact_crit0 H * W) /\ medium 640 (exact_crit0 H * W) /\ 0 < exact_crit0 H * W.
Proof.
  destruct (crit0_close h Hh) as (C & M & P). pose proof (om_pos om Hom) as Q. pose proof (medium_mul _ _ _ _ M (om_med om Hom)) as N.
  split; [exact (close_mul _ _ _ _ _ _ _ C (om_close om Hom) N ltac:(lia) ltac:(lia))|]. split; [exact N|apply Rmult_lt_0_compat; lra].
Qed.
Lemma crit_close z : redshift z -> close 36 (crit64 h om z) (exact_crit0 H * exact_E2 W (val z)).
Proof.
  intros Hz. destruct (crit0_close h Hh) as (C & M & P). destruct (e2_close om Hom z Hz) as (Ce & Me & Pe).
  exact (close_mul _ _ _ _ _ _ _ C Ce (medium_mul _ _ _ _ M Me) ltac:(lia) ltac:(lia)).
Qed.
Lemma mean_close z : redshift z -> close 35 (mean64 h om z) (exact_crit0 H * W * (val z + 1) ^ 3).
Proof.
  intros Hz. destruct mean0_close as (C & M & P). destruct (z1_close z Hz) as (C1 & M1 & P1). destruct (close_cube _ _ _ _ C1 M1 ltac:(lia) ltac:(lia) ltac:(lia)) as [C3 M3].
  exact (close_mul _ _ _ _ _ _ _ C C3 (medium_mul _ _ _ _ M M3) ltac:(lia) ltac:(lia)).
Qed.
Lemma ball_close : close 3 ball_coef64 (4 / 3 * PI) /\ medium 4 (4 / 3 * PI) /\ 0 < 4 / 3 * PI.
Proof.
  pose proof PI_20 as Pp. assert (M1 : medium 2 (4 / 3)) by (right; change (bpow radix2 2) with 4; change (bpow radix2 (- (2))) with (/ 4); lra). assert (Mp : medium 2 PI) by (right; change (bpow radix2 2) with 4; change (bpow radix2 (- (2))) with (/ 4); lra).
  pose proof (close_div _ _ _ _ _ _ _ (close_int 4 ltac:(lia)) (close_int 3 ltac:(lia)) ltac:(lra) M1 ltac:(lia) ltac:(lia)) as C1. pose proof (medium_mul _ _ _ _ M1 Mp) as N.
  split; [exact (close_mul _ _ _ _ _ _ _ C1 pi_close N ltac:(lia) ltac:(lia))|]. split; [exact N|lra].
Qed.
Lemma r_to_m_close r : sized 40 r -> close 36 (r_to_m64 h om r) (4 / 3 * PI * val r ^ 3 * (exact_crit0 H * W)) /\ medium 770 (4 / 3 * PI * val r ^ 3 * (exact_crit0 H * W)).
Proof.
  intros Hr. destruct mean0_close as (C & M & P). destruct ball_close as (Cb & Mb & Pb). assert (Mr : medium 40 (val r)) by (right; apply Hr). destruct (close_cube _ _ _ _ (close_exact r (proj1 Hr)) Mr ltac:(lia) ltac:(lia) ltac:(lia)) as [C3 M3].
  pose proof (medium_mul _ _ _ _ Mb M3) as N1. pose proof (close_mul _ _ _ _ _ _ _ Cb C3 N1 ltac:(lia) ltac:(lia)) as D1. pose proof (medium_mul _ _ _ _ N1 M) as N2.
  split; [exact (close_mul _ _ _ _ _ _ _ D1 C N2 ltac:(lia) ltac:(lia))|eapply medium_more; [|exact N2]; lia].
Qed.
Lemma r3_close m r : 0 < r -> medium 120 (r ^ 3) -> close 36 m (4 / 3 * PI * r ^ 3 * (exact_crit0 H * W)) -> medium 770 (4 / 3 * PI * r ^ 3 * (exact_crit0 H * W)) ->
  close 70 (div64 (div64 m (mean0_64 h om)) ball_coef64) (r ^ 3).
Proof.
  intros Pr Mr Cm Mm. destruct mean0_close as (C & M & P). destruct ball_close as (Cb & Mb & Pb). assert (E1 : 4 / 3 * PI * r ^ 3 * (exact_crit0 H * W) / (exact_crit0 H * W) = 4 / 3 * PI * r ^ 3) by (field; apply Rmult_neq_0_reg; lra).
  pose proof (medium_mul _ _ _ _ Mb Mr) as N1. pose proof (close_div 124 _ _ _ _ _ _ Cm C ltac:(lra)) as D1. rewrite E1 in D1. specialize (D1 N1 ltac:(lia) ltac:(lia)). assert (E2 : 4 / 3 * PI * r ^ 3 / (4 / 3 * PI) = r ^ 3) by (field; pose proof PI_RGT_0; lra).
  pose proof (close_div 120 _ _ _ _ _ _ D1 Cb ltac:(lra)) as D2. rewrite E2 in D2. exact (D2 Mr ltac:(lia) ltac:(lia)).
Qed.
End Dens.
(** ** Order *)
Section Order.
Context (om z z' : b64).
Hypothesis Fo : fin om = true.
Hypothesis Ho : 0 <= val om <= 1.
Hypothesis Fz : fin z = true.
Hypothesis Fz' : fin z' = true.
Hypothesis Hz : -1 <= val z <= val z'.
Hypothesis Hb : val z' + 1 <= B 20.
Lemma two20 : B 20 <= B 500 /\ B 500 <= B 1023 /\ 1 <= B 20. Proof. split; [apply bpow_le; lia|]. split; [apply bpow_le; lia|apply (bpow_le radix2 0 20); lia]. Qed.
Lemma z1_up : fin (add64 z (of_Z64 1)) = true /\ fin (add64 z' (of_Z64 1)) = true /\ 0 <= val (add64 z (of_Z64 1)) <= val (add64 z' (of_Z64 1)) /\ val (add64 z' (of_Z64 1)) <= B 20.
Proof.
  destruct one_ok as [V1 F1]. destruct two20 as (T1 & T2 & T3). destruct (add64_b z (of_Z64 1) Fz F1) as [F V]; [rewrite V1, Rabs_right; lra|]. destruct (add64_b z' (of_Z64 1) Fz' F1) as [F' V']; [rewrite V1, Rabs_right; lra|]. rewrite V1 in *. rewrite V, V'.
  split; [exact F|]. split; [exact F'|]. split; [split; [apply rnd64_pos; lra|apply rnd64_le; lra]|]. rewrite <- (bpow64 20) by lia. apply rnd64_le. exact Hb.
Qed.
Lemma mul_small a b k m : fin a = true -> fin b = true -> 0 <= val a <= B k -> 0 <= val b <= B m -> (-1000 <= k + m <= 1000)%Z -> fin (mul64 a b) = true /\ 0 <= val (mul64 a b) <= B (k + m).
Proof.
  intros Fa Fb Ha Hb' Hk. assert (M : 0 <= val a * val b <= B (k + m)) by (rewrite bpow_plus; split; [apply Rmult_le_pos; lra|apply Rmult_le_compat; lra]). assert (K : B (k + m) <= B 1023) by (apply bpow_le; lia). destruct (mul64_b a b Fa Fb) as [F V]; [rewrite Rabs_right; lra|].
  split; [exact F|]. rewrite V. split; [apply rnd64_pos; lra|]. rewrite <- (bpow64 (k + m)) by lia. apply rnd64_le. lra.
Qed.
Lemma cube_up a a' : fin a = true -> fin a' = true -> 0 <= val a <= val a' -> val a' <= B 100 -> fin (cube64 a) = true /\ fin (cube64 a') = true /\ 0 <= val (cube64 a) <= val (cube64 a') /\ val (cube64 a') <= B 300.
Proof.
  intros Fa Fa' Ha K. assert (T : B 100 <= B 500) by (apply bpow_le; lia). assert (T2 : B 200 <= B 500) by (apply bpow_le; lia). destruct (mul_small a' a' 100 100 Fa' Fa' ltac:(split; lra) ltac:(split; lra) ltac:(lia)) as [F1 V1]. destruct (mul_small a' _ 100 200 Fa' F1 ltac:(split; lra) V1 ltac:(lia)) as [F2 V2].
  destruct (mul_up a a' a a' Fa Fa' Fa Fa' Ha Ha ltac:(lra) ltac:(lra)) as [F3 V3]. destruct (mul_up a a' _ _ Fa Fa' F3 F1 Ha V3 ltac:(lra)) as [F4 V4]; [change (100 + 100)%Z with 200%Z in V1; lra|]. unfold cube64. split; [exact F4|]. split; [exact F2|]. split; [exact V4|apply V2].
Qed.
Lemma e2_up : fin (e2_64 om z) = true /\ fin (e2_64 om z') = true /\ 0 <= val (e2_64 om z) <= val (e2_64 om z') /\ val (e2_64 om z') <= B 302.
Proof.
  destruct z1_up as (F & F' & Z & Zb). assert (T : B 20 <= B 100) by (apply bpow_le; lia). destruct (cube_up _ _ F F' Z ltac:(lra)) as (C & C' & V & Vb). assert (T3 : B 300 <= B 500) by (apply bpow_le; lia). assert (O1 : 1 <= B 500) by (apply (bpow_le radix2 0 500); lia).
  assert (V0 : 0 <= val om <= B 0) by (change (B 0) with 1; lra). destruct (mul_small om _ 0 300 Fo C' V0 ltac:(split; lra) ltac:(lia)) as [F1 W1]. destruct (mul_up om om _ _ Fo Fo C C' ltac:(split; lra) V ltac:(lra) ltac:(lra)) as [F2 W2].
  destruct one_ok as [Vo F1o]. destruct (sub64_b (of_Z64 1) om F1o Fo) as [Fl Vl]; [rewrite Vo, Rabs_right by lra; apply Rle_trans with (B 0); [change (B 0) with 1; lra|apply bpow_le; lia]|]. rewrite Vo in Vl. assert (L : 0 <= val (omega_l0_64 om) <= 1) by (unfold omega_l0_64; rewrite Vl; split; [apply rnd64_pos; lra|apply Rle_trans with (rnd64 1); [apply rnd64_le; lra|rewrite one_rnd; lra]]). change (sub64 (of_Z64 1) om) with (omega_l0_64 om) in Fl.
  change (0 + 300)%Z with 300%Z in W1. assert (S : B 302 <= B 1023) by (apply bpow_le; lia). assert (S3 : 1 <= B 300) by (apply (bpow_le radix2 0 300); lia). assert (S2 : B 302 = 4 * B 300) by (replace 302%Z with (2 + 300)%Z by reflexivity; rewrite bpow_plus; reflexivity).
  unfold e2_64. set (l := omega_l0_64 om) in *. set (n := mul64 om (cube64 (add64 z (of_Z64 1)))) in *. set (n' := mul64 om (cube64 (add64 z' (of_Z64 1)))) in *. clearbody l n n'.
  destruct (add64_b l n Fl F2) as [F3 V3]; [rewrite Rabs_right; lra|]. destruct (add64_b l n' Fl F1) as [F4 V4]; [rewrite Rabs_right; lra|]. rewrite V3, V4. split; [exact F3|]. split; [exact F4|]. split; [split; [apply rnd64_pos; lra|apply rnd64_le; lra]|].
  rewrite <- (bpow64 302) by lia. apply rnd64_le. lra.
Qed.
Lemma e_up : fin (efunc64 om z) = true /\ fin (efunc64 om z') = true /\ 0 <= val (efunc64 om z) <= val (efunc64 om z') /\ val (efunc64 om z') <= B 302.
Proof.
  destruct e2_up as (F & F' & V & Vb). destruct (sqrt64_val _ F ltac:(lra)) as [G W]. destruct (sqrt64_val _ F' ltac:(lra)) as [G' W']. unfold efunc64. rewrite W, W'. split; [exact G|]. split; [exact G'|]. split; [split; [apply rnd64_pos, sqrt_pos|apply rnd64_le, sqrt_le_1; lra]|].
  rewrite <- (bpow64 302) by lia. apply rnd64_le. assert (S : 1 <= B 302) by (apply (bpow_le radix2 0 302); lia). destruct (Rle_lt_dec (val (e2_64 om z')) 1) as [C|C].
  - apply Rle_trans with (sqrt 1); [apply sqrt_le_1; lra|rewrite sqrt_1; exact S].
  - apply Rle_trans with (val (e2_64 om z')); [|exact Vb]. apply Rsqr_incr_0_var; [|lra]. rewrite Rsqr_sqrt by lra. unfold Rsqr. rewrite <- (Rmult_1_l (val (e2_64 om z'))) at 1. apply Rmult_le_compat_r; lra.
Qed.
Lemma hub_up : fin (hubble64 om z) = true /\ fin (hubble64 om z') = true /\ 0 <= val (hubble64 om z) <= val (hubble64 om z').
Proof.
  destruct e_up as (F & F' & V & Vb). destruct hub0_close as (C & M & P). pose proof (proj1 (close_pos _ _ _ C) P) as P0. destruct (close_size _ _ _ _ C M ltac:(lia)) as [Fh [Z|[_ Mh]]]; [lra|]. assert (T : B (4 + 1) <= B 500) by (apply bpow_le; lia). assert (T2 : B 302 <= B 500) by (apply bpow_le; lia).
  destruct (mul_up hub0_64 hub0_64 _ _ Fh Fh F F' ltac:(split; lra) V ltac:(lra) ltac:(lra)) as [G W]. destruct (mul_up hub0_64 hub0_64 _ _ Fh Fh F' F' ltac:(split; lra) ltac:(split; lra) ltac:(lra) ltac:(lra)) as [G' _]. unfold hubble64. auto.
Qed.
End Order.
Lemma inv_up x y : fin x = true -> fin y = true -> B (-1000) <= val x <= val y -> fin (div64 (of_Z64 1) y) = true /\ fin (div64 (of_Z64 1) x) = true /\ 0 <= val (div64 (of_Z64 1) y) <= val (div64 (of_Z64 1) x) /\ val (div64 (of_Z64 1) x) <= B 1000.
Proof.
  intros Fx Fy H. pose proof (bpow_gt_0 radix2 (-1000)) as P. destruct one_ok as [V1 F1]. assert (I : forall t, B (-1000) <= t -> 0 <= 1 / t <= B 1000). { intros t Ht. unfold Rdiv. rewrite Rmult_1_l. split; [apply Rlt_le, Rinv_0_lt_compat; lra|]. replace (B 1000) with (/ B (-1000)) by (rewrite <- bpow_opp; reflexivity). apply Rinv_le; lra. }
  pose proof (I (val x) ltac:(lra)) as Ix. pose proof (I (val y) ltac:(lra)) as Iy. assert (T : B 1000 <= B 1023) by (apply bpow_le; lia).
  destruct (div64_b (of_Z64 1) x F1 ltac:(lra)) as [G V]; [rewrite V1, Rabs_right; lra|]. destruct (div64_b (of_Z64 1) y F1 ltac:(lra)) as [G' V']; [rewrite V1, Rabs_right; lra|]. rewrite V1 in *. rewrite V, V'. split; [exact G'|]. split; [exact G|]. split; [split; [apply rnd64_pos, Iy|apply rnd64_le; unfold Rdiv; apply Rmult_le_compat_l; [lra|apply Rinv_le; lra]]|].
  rewrite <- (bpow64 1000) by lia. apply rnd64_le, Ix.
Qed.
Lemma z2a_down z z' : redshift z -> redshift z' -> val z <= val z' -> val (z2a64 z') <= val (z2a64 z).
Proof.
  intros (F & A & C) (F' & A' & C') H. pose proof (bpow_gt_0 radix2 (-20)) as P. destruct (z1_up z z' F F' ltac:(split; lra) C') as (G & G' & V & _). assert (L : B (-20) <= val (add64 z (of_Z64 1))).
  { destruct one_ok as [V1 F1]. destruct two20 as (T1 & T2 & T3). destruct (add64_b z (of_Z64 1) F F1) as [_ W]; [rewrite V1, Rabs_right; lra|]. rewrite W, V1. rewrite <- (bpow64 (-20)) by lia. apply rnd64_le. exact A. }
  assert (L2 : B (-1000) <= B (-20)) by (apply bpow_le; lia). destruct (inv_up _ _ G G' ltac:(split; lra)) as (_ & _ & R & _). unfold z2a64. lra.
Qed.
Lemma sub_one q : fin q = true -> 0 <= val q <= B 1000 -> fin (sub64 q (of_Z64 1)) = true /\ val (sub64 q (of_Z64 1)) = rnd64 (val q - 1).
Proof.
  intros F H. destruct one_ok as [V1 F1]. assert (T : B 1000 + 1 <= B 1023). { replace 1023%Z with (1 + 1022)%Z by reflexivity. rewrite bpow_plus. change (B 1) with 2. assert (B 1000 <= B 1022) by (apply bpow_le; lia). assert (1 <= B 1022) by (apply (bpow_le radix2 0 1022); lia). lra. }
  destruct (sub64_b q (of_Z64 1) F F1) as [G V]; [rewrite V1; apply Rabs_le; lra|]. rewrite V1 in V. auto.
Qed.
Lemma a2z_down a a' : fin a = true -> fin a' = true -> B (-1000) <= val a <= val a' -> fin (a2z64 a) = true /\ fin (a2z64 a') = true /\ val (a2z64 a') <= val (a2z64 a).
Proof.
  intros F F' H. destruct (inv_up _ _ F F' H) as (G & G' & V & Vb). destruct (sub_one _ G ltac:(split; lra)) as [S W]. destruct (sub_one _ G' ltac:(split; lra)) as [S' W']. unfold a2z64. rewrite W, W'. split; [exact S'|]. split; [exact S|]. apply rnd64_le. lra.
Qed.
(** ** The scale factor and back *)
Lemma above_one x : 1 <= val x -> val x = 1 \/ B (-52) <= val x - 1.
Proof.
  intros H. destruct (Req_dec (val x) 1) as [E|N]; [left; exact E|right]. assert (F0 : generic_format radix2 (SpecFloat.fexp 53 1024) (B 0)) by (apply generic_format_bpow; unfold SpecFloat.fexp, SpecFloat.emin; lia).
  pose proof (succ_le_lt radix2 (SpecFloat.fexp 53 1024) (B 0) (val x) F0 (generic_format_B2R 53 1024 x)) as G. rewrite succ_eq_pos in G by apply bpow_ge_0. rewrite ulp_bpow in G. change (B 0) with 1 in G. change (SpecFloat.fexp 53 1024 (0 + 1)) with (-52)%Z in G. specialize (G ltac:(lra)). lra.
Qed.
Lemma inv_q a : fin a = true -> B (-20) <= val a <= 1 -> let q := div64 (of_Z64 1) a in
  fin q = true /\ 1 <= val q <= B 21 /\ exists f, fac 1 f /\ val q = 1 / val a * f.
Proof.
  intros F H. cbn zeta. pose proof (bpow_gt_0 radix2 (-20)) as P. assert (L2 : B (-1000) <= B (-20)) by (apply bpow_le; lia). destruct one_ok as [V1 F1]. assert (M1 : medium 1 1) by (right; change (bpow radix2 1) with 2; change (bpow radix2 (- (1))) with (/ 2); lra). assert (Ma : medium 20 (val a)) by (right; split; [apply H|apply Rle_trans with 1; [lra|apply (bpow_le radix2 0 20); lia]]).
  pose proof (medium_div _ _ _ _ M1 Ma ltac:(lra)) as Md. assert (I : 1 <= 1 / val a) by (apply Rmult_le_reg_r with (val a); [lra|]; unfold Rdiv; rewrite Rmult_assoc, Rinv_l by lra; lra). destruct (div64_b (of_Z64 1) a F1 ltac:(lra)) as [G V]; [rewrite V1; apply (in_range 21 _ Md); lia|]. rewrite V1 in V. split; [exact G|]. rewrite V. split.
  - split; [apply Rle_trans with (rnd64 1); [rewrite one_rnd; lra|apply rnd64_le, I]|]. rewrite <- (bpow64 21) by lia. apply rnd64_le. destruct Md as [E|[_ E]]; [lra|exact E].
  - apply fac_round. right. apply Rle_trans with 1; [apply (bpow_le radix2 _ 0); lia|exact I].
Qed.
Lemma a2z_fac a : fin a = true -> B (-20) <= val a <= 1 -> fin (a2z64 a) = true /\ 0 <= val (a2z64 a) /\ val (a2z64 a) + 1 <= B 21 /\ exists f g q, fac 1 f /\ fac 1 g /\ 1 <= q <= B 21 /\ q = 1 / val a * f /\ val (a2z64 a) = (q - 1) * g /\ val (a2z64 a) = rnd64 (q - 1).
Proof.
  intros F H. destruct (inv_q a F H) as (G & Q & f & Ff & E). assert (T : B 21 <= B 1000) by (apply bpow_le; lia). destruct (sub_one _ G ltac:(split; lra)) as [S V]. unfold a2z64. set (q := div64 (of_Z64 1) a) in *. clearbody q.
  destruct (fac_round (val q - 1)) as (g & Gg & Eg). { destruct (above_one q ltac:(lra)) as [K|K]; [left; lra|right]. eapply Rle_trans; [apply bpow_le|exact K]; lia. }
  split; [exact S|]. split; [rewrite V; apply rnd64_pos; lra|]. split.
  - rewrite V. destruct (of_Z64_exact (2 ^ 21 - 1) ltac:(lia)) as [Vz Fz]. assert (Bz : B 21 = IZR (2 ^ 21 - 1) + 1) by (rewrite <- plus_IZR; reflexivity). assert (R : rnd64 (val q - 1) <= rnd64 (val (of_Z64 (2 ^ 21 - 1)))) by (apply rnd64_le; lra). rewrite rnd64_val in R. lra.
  - exists f, g, (val q). rewrite V. auto 10.
Qed.
Lemma pw_small n e : 0 <= e -> (1 + e) ^ n <= 1 + INR n * e * (1 + e) ^ n.
Proof.
  intros He. induction n as [|n IH]; [cbn; lra|]. rewrite S_INR. cbn [pow]. assert (P : 1 <= (1 + e) ^ n) by (apply pow_R1_Rle; lra). assert (N : 0 <= INR n) by apply pos_INR.
  set (p := (1 + e) ^ n) in *. set (k := INR n) in *. clearbody p k. assert (A : (1 + e) * p <= (1 + e) * (1 + k * e * p)) by (apply Rmult_le_compat_l; lra). assert (0 <= k * e * e * p) by (repeat apply Rmult_le_pos; lra). assert (0 <= e * e) by (apply Rmult_le_pos; lra).
  replace (1 + (k + 1) * e * ((1 + e) * p)) with (1 + k * e * p + k * e * e * p + e * ((1 + e) * p)) by ring. assert (e <= e * ((1 + e) * p)). { rewrite <- (Rmult_1_r e) at 1. apply Rmult_le_compat_l; [exact He|]. apply Rle_trans with (1 * 1); [lra|apply Rmult_le_compat; lra]. } replace ((1 + e) * (1 + k * e * p)) with (1 + k * e * p + k * e * e * p + e) in A by ring. lra.
Qed.
Lemma fac_dist n f : fac n f -> (Z.of_nat n <= 2 ^ 50)%Z -> Rabs (f - 1) <= 2 * INR n * ee.
Proof.
  intros [A C] Hn. pose proof (bpow_gt_0 radix2 (-52)) as P. pose proof (pw_two n Hn) as T. pose proof (pw n) as L. pose proof (pw_small n ee ltac:(lra)) as S. assert (N : 0 <= INR n * ee) by (apply Rmult_le_pos; [apply pos_INR|lra]). set (p := (1 + ee) ^ n) in *. assert (K : INR n * ee * p <= INR n * ee * 2) by (apply Rmult_le_compat_l; lra).
  assert (I : 1 - / p <= p - 1). { assert (J : / p * p = 1) by (apply Rinv_l; lra). assert (0 < / p) by (apply Rinv_0_lt_compat; lra). assert (Y : 0 <= (p - 1) * (p - 1)) by (apply Rle_0_sqr). assert (Q : (1 - / p) * p <= (p - 1) * p) by lra. apply Rmult_le_reg_r with p; lra. }
  apply Rabs_le. lra.
Qed.
Lemma a_back a : fin a = true -> B (-20) <= val a <= 1 -> close 4 (z2a64 (a2z64 a)) (val a).
Proof.
  intros F H. pose proof (bpow_gt_0 radix2 (-20)) as P. destruct (a2z_fac a F H) as (Fz & Zp & Zu & f & g & q & Ff & Fg & Hq & Eq & Ez & _). unfold z2a64. set (z := a2z64 a) in *. clearbody z. destruct one_ok as [V1 F1].
  destruct (fac_max 1 0 g 1 (q - 1) 1 Fg (fac_1 0) ltac:(lra) ltac:(lra)) as (t & Ft & Et). change (Nat.max 1 0) with 1%nat in Ft. assert (Ez1 : val z + 1 = 1 / val a * (f * t)) by (replace (val z + 1) with ((q - 1) * g + 1 * 1) by (rewrite Ez; ring); rewrite Et, Eq; ring).
  assert (M1 : medium 1 1) by (right; change (bpow radix2 1) with 2; change (bpow radix2 (- (1))) with (/ 2); lra). assert (Ma : medium 20 (val a)) by (right; split; [apply H|apply Rle_trans with 1; [lra|apply (bpow_le radix2 0 20); lia]]). pose proof (medium_div _ _ _ _ M1 Ma ltac:(lra)) as Md.
  assert (T : B 21 <= B 1023) by (apply bpow_le; lia). destruct (add64_b z (of_Z64 1) Fz F1) as [G V]; [rewrite V1, Rabs_right; lra|]. rewrite V1, Ez1 in V. pose proof (round_close 21 (1 / val a) 2 (f * t) _ Md ltac:(lia) ltac:(lia) (fac_mul _ _ _ _ Ff Ft) G V) as C.
  assert (I : 1 / (1 / val a) = val a) by (field; lra). assert (Np : 1 / val a <> 0) by (assert (0 < 1 / val a) by (apply Rmult_lt_0_compat; [lra|apply Rinv_0_lt_compat; lra]); lra). pose proof (close_div 20 _ _ _ _ _ _ (close_int 1 ltac:(lia)) C Np) as D. rewrite I in D. exact (D Ma ltac:(lia) ltac:(lia)).
Qed.
Lemma z_back z : redshift z -> 0 <= val z -> Rabs (val (a2z64 (z2a64 z)) - val z) <= B (-48) * (1 + val z).
Proof.
  intros Hz Pz. destruct (z2a_close z Hz) as ((F & f & E & Ff) & M & P). destruct (z1_close z Hz) as (C1 & M1 & P1). change (fac 2 f) in Ff. assert (U : val (z2a64 z) <= 1).
  { destruct one_ok as [V1 F1]. destruct Hz as (Fz & _ & Zb). destruct two20 as (T1 & T2 & T3). destruct (add64_b z (of_Z64 1) Fz F1) as [Fa Va]; [rewrite V1, Rabs_right; lra|]. rewrite V1 in Va. assert (A1 : 1 <= val (add64 z (of_Z64 1))) by (rewrite Va; apply Rle_trans with (rnd64 1); [rewrite one_rnd; lra|apply rnd64_le; lra]).
    unfold z2a64. destruct (div64_b (of_Z64 1) (add64 z (of_Z64 1)) F1 ltac:(lra)) as [_ V]; rewrite V1 in *.
    - assert (R : 0 <= 1 / val (add64 z (of_Z64 1)) <= 1) by (split; [apply Rmult_le_pos; [lra|apply Rlt_le, Rinv_0_lt_compat; lra]|apply Rmult_le_reg_r with (val (add64 z (of_Z64 1))); [lra|]; unfold Rdiv; rewrite Rmult_assoc, Rinv_l by lra; lra]). rewrite Rabs_right by lra. apply Rle_trans with 1; [lra|]. apply (bpow_le radix2 0 1023). lia.
    - rewrite V. apply Rle_trans with (rnd64 1); [apply rnd64_le|rewrite one_rnd; lra]. apply Rmult_le_reg_r with (val (add64 z (of_Z64 1))); [lra|]; unfold Rdiv; rewrite Rmult_assoc, Rinv_l by lra; lra. }
  assert (L : B (-20) <= val (z2a64 z)). { destruct Hz as (Fz & _ & Zb). destruct one_ok as [V1 F1]. destruct two20 as (T1 & T2 & T3). destruct (add64_b z (of_Z64 1) Fz F1) as [Fa Va]; [rewrite V1, Rabs_right; lra|]. rewrite V1 in Va. assert (A1 : 1 <= val (add64 z (of_Z64 1)) <= B 20) by (rewrite Va; split; [apply Rle_trans with (rnd64 1); [rewrite one_rnd; lra|apply rnd64_le; lra]|rewrite <- (bpow64 20) by lia; apply rnd64_le; lra]).
    assert (R : B (-20) <= 1 / val (add64 z (of_Z64 1)) <= 1). { split; [unfold Rdiv; rewrite Rmult_1_l; change (-20)%Z with (- (20))%Z; rewrite bpow_opp; apply Rinv_le; lra|apply Rmult_le_reg_r with (val (add64 z (of_Z64 1))); [lra|]; unfold Rdiv; rewrite Rmult_assoc, Rinv_l by lra; lra]. } assert (Q : 0 <= B (-20)) by apply bpow_ge_0.
    unfold z2a64. destruct (div64_b (of_Z64 1) (add64 z (of_Z64 1)) F1 ltac:(lra)) as [_ V]; rewrite V1 in *; [rewrite Rabs_right by lra; apply Rle_trans with 1; [lra|]; apply (bpow_le radix2 0 1023); lia|]. rewrite V. rewrite <- (bpow64 (-20)) by lia. apply rnd64_le. lra. }
  destruct (a2z_fac (z2a64 z) F (conj L U)) as (_ & _ & _ & g & t & q & Fg & Ft & Hq & Eq & Ez & _). rewrite E in Eq. pose proof (fac_pos _ _ Ff) as Pf. assert (Eq2 : q = (val z + 1) * (/ f * g)) by (rewrite Eq; field; split; lra). pose proof (fac_mul _ _ _ _ (fac_inv _ _ Ff) Fg) as F3. change (2 + 1)%nat with 3%nat in F3.
  pose proof (fac_dist _ _ F3 ltac:(lia)) as D3. pose proof (fac_dist _ _ Ft ltac:(lia)) as D1. pose proof (fac_two 3 _ ltac:(lia) F3) as T3. cbn [INR] in D3, D1. set (k := / f * g) in *. clearbody k. rewrite Ez. replace ((q - 1) * t - val z) with ((q - 1) * (t - 1) + (val z + 1) * (k - 1)) by (rewrite Eq2; ring).
  eapply Rle_trans; [apply Rabs_triang|]. rewrite !Rabs_mult. rewrite (Rabs_right (val z + 1)), (Rabs_right (q - 1)) by lra. pose proof (bpow_gt_0 radix2 (-52)) as Pe. assert (Kq : q - 1 <= (val z + 1) * 2) by (rewrite Eq2; assert ((val z + 1) * k <= (val z + 1) * 2) by (apply Rmult_le_compat_l; lra); lra).
  assert (A : (q - 1) * Rabs (t - 1) <= (val z + 1) * 2 * (2 * ee)) by (apply Rmult_le_compat; [lra|apply Rabs_pos|lra|lra]). assert (A2 : (val z + 1) * Rabs (k - 1) <= (val z + 1) * (6 * ee)) by (apply Rmult_le_compat_l; lra). assert (E48 : B (-48) = 16 * ee) by (replace (-48)%Z with (4 + -52)%Z by reflexivity; rewrite bpow_plus; reflexivity). rewrite E48.
  assert (0 <= (val z + 1) * ee) by (apply Rmult_le_pos; lra). lra.
Qed.
