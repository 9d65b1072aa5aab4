(** Proofs for C102: redshifts. *)
From Coq Require Import ZArith Reals Lra Lia List Bool.
Require Import Flocq.Core.Core Flocq.IEEE754.BinarySingleNaN.
From Verif Require Import Base ProcFloat InterpFloatProofs MeshFloatModel MeshFloatProofs FredModel FredSpec FredProofs FredProofs3 FknnProofs2 PiBound FdenModel FdenSpec FdenProofs FdenProofs2 FcosModel FcosSpec FcosProofs.
Local Open Scope R_scope.

Lemma one_ok : val (of_Z64 1) = 1 /\ fin (of_Z64 1) = true.
Proof. apply of_Z64_exact. lia. Qed.
(** Numbers within a quarter of the spacing of 1 round to 1. *)
Lemma near_one s : Rabs (s - 1) <= B (-54) -> rnd64 s = 1.
Proof.
  intros H. apply Rabs_le_inv in H. destruct one_ok as [V1 F1]. set (t := @B754_finite 53 1024 false 4503599627370496 (-106) eq_refl : b64).
  assert (Ft : fin t = true) by reflexivity. assert (Vt : val t = B (-54)). { unfold val, t. cbn [B2R cond_Zopp]. unfold F2R. cbn [Fnum Fexp]. change 4503599627370496 with (B 52). rewrite <- bpow_plus. reflexivity. }
  pose proof (bpow_gt_0 radix2 (-54)) as P. assert (Q : B (-54) <= 1) by (apply (bpow_le radix2 (-54) 0); lia). assert (W : 2 <= B 1023) by (apply (bpow_le radix2 1 1023); lia).
  assert (Lo : rnd64 (1 - B (-54)) = 1). { destruct (sub64_b (of_Z64 1) t F1 Ft) as [_ V]; [rewrite V1, Vt, Rabs_right; lra|]. rewrite V1, Vt in V. rewrite <- V, <- V1. f_equal. apply B2SF_inj. vm_compute. reflexivity. }
  assert (Hi : rnd64 (1 + B (-54)) = 1). { destruct (add64_b (of_Z64 1) t F1 Ft) as [_ V]; [rewrite V1, Vt, Rabs_right; lra|]. rewrite V1, Vt in V. rewrite <- V, <- V1. f_equal. apply B2SF_inj. vm_compute. reflexivity. }
  apply Rle_antisym; [rewrite <- Hi|rewrite <- Lo]; apply rnd64_le; lra.
Qed.
(** Below one, rounding errs by at most 2^-54. *)
Lemma err_below x : 0 <= x <= 1 -> Rabs (rnd64 x - x) <= B (-54).
Proof.
  intros H. pose proof (bpow_gt_0 radix2 (-54)) as P. destruct (Req_dec x 1) as [->|N]; [rewrite one_rnd, Rminus_diag_eq by reflexivity; rewrite Rabs_R0; lra|]. destruct (Req_dec x 0) as [->|N0]; [rewrite rnd64_0, Rminus_diag_eq by reflexivity; rewrite Rabs_R0; lra|].
  eapply Rle_trans; [apply error_le_half_ulp; apply valid64|]. rewrite ulp_neq_0 by exact N0. replace (B (-54)) with (/ 2 * B (-53)) by (replace (-53)%Z with (1 + -54)%Z by reflexivity; rewrite bpow_plus; change (B 1) with 2; field).
  apply Rmult_le_compat_l; [lra|]. apply bpow_le. unfold cexp. assert (M : (mag radix2 x <= 0)%Z) by (apply mag_le_bpow; [exact N0|rewrite Rabs_right by lra; change (B 0) with 1; lra]). unfold SpecFloat.fexp, SpecFloat.emin. lia.
Qed.
(** A double below 1 is at most 1 - 2^-53. *)
Lemma below_one x : val x <= 1 -> val x = 1 \/ B (-53) <= 1 - val x.
Proof.
  intros H. destruct (Req_dec (val x) 1) as [E|N]; [left; exact E|right]. pose proof (pred_ge_gt radix2 (SpecFloat.fexp 53 1024) (val x) (B 0)) as G. rewrite pred_bpow in G.
  assert (F0 : generic_format radix2 (SpecFloat.fexp 53 1024) (B 0)) by (apply generic_format_bpow; unfold SpecFloat.fexp, SpecFloat.emin; lia). specialize (G (generic_format_B2R 53 1024 x) F0). change (B 0) with 1 in G. change (SpecFloat.fexp 53 1024 0) with (-53)%Z in G. specialize (G ltac:(lra)). lra.
Qed.
(** Products of larger numbers are not smaller. *)
Lemma mul_up a a' b b' : fin a = true -> fin a' = true -> fin b = true -> fin b' = true -> 0 <= val a <= val a' -> 0 <= val b <= val b' -> val a' <= B 500 -> val b' <= B 500 ->
  fin (mul64 a b) = true /\ 0 <= val (mul64 a b) <= val (mul64 a' b').
Proof.
  intros Fa Fa' Fb Fb' Ha Hb Ma Mb. assert (M : val a * val b <= val a' * val b') by (apply Rmult_le_compat; lra). assert (M0 : 0 <= val a * val b) by (apply Rmult_le_pos; lra). assert (M' : val a' * val b' <= B 1000) by (replace 1000%Z with (500 + 500)%Z by reflexivity; rewrite bpow_plus; apply Rmult_le_compat; lra).
  assert (K : B 1000 <= B 1023) by (apply bpow_le; lia). destruct (mul64_b a b Fa Fb) as [F V]; [rewrite Rabs_right; lra|]. destruct (mul64_b a' b' Fa' Fb') as [F' V']; [rewrite Rabs_right; lra|]. rewrite V, V'. split; [exact F|]. split; [apply rnd64_pos, M0|apply rnd64_le, M].
Qed.
Lemma close_size k n x X : close n x X -> medium k X -> (Z.of_nat n <= 2 ^ 50)%Z -> fin x = true /\ medium (k + 1) (val x).
Proof. intros (F & f & V & Q) M Hn. split; [exact F|]. rewrite V. exact (scaled k X n f M Hn Q). Qed.
Lemma close_pos n x X : close n x X -> (0 < X -> 0 < val x) /\ (0 <= X -> 0 <= val x) .
Proof. intros (F & f & V & Q). pose proof (fac_pos _ _ Q) as P. rewrite V. split; intros H; [apply Rmult_lt_0_compat; lra|apply Rmult_le_pos; lra]. Qed.

Section Zed.
Context (om : b64).
Hypothesis Hom : matter om.
Notation W := (val om).
Lemma om_med : medium 20 W.
Proof. destruct Hom as (F & A & C). right. split; [exact A|]. eapply Rle_trans; [exact C|]. apply (bpow_le radix2 0 20). lia. Qed.
Lemma om_pos : 0 < W <= 1.
Proof. destruct Hom as (F & A & C). pose proof (bpow_gt_0 radix2 (-20)). lra. Qed.
Lemma om_close : close 0 om W. Proof. apply close_exact, Hom. Qed.
Lemma l0_close : close 1 (omega_l0_64 om) (1 - W) /\ medium 60 (1 - W) /\ 0 <= 1 - W <= 1.
Proof.
  pose proof om_pos as P. destruct one_ok as [V1 F1]. assert (M : medium 60 (1 - W)). { destruct (below_one om ltac:(lra)) as [E|E]; [left; lra|right]. split; [eapply Rle_trans; [apply bpow_le|exact E]; lia|]. apply Rle_trans with (B 0); [change (B 0) with 1; lra|apply bpow_le; lia]. }
  split; [|split; [exact M|lra]]. destruct (sub64_b (of_Z64 1) om F1 (proj1 Hom)) as [F V]; [rewrite V1, Rabs_right by lra; apply Rle_trans with (B 0); [change (B 0) with 1; lra|apply bpow_le; lia]|]. rewrite V1 in V. unfold omega_l0_64.
  exact (round_close 60 (1 - W) 0 1 _ M ltac:(lia) ltac:(lia) (fac_1 0) F ltac:(rewrite V; f_equal; ring)).
Qed.
Section One.
Context (z : b64).
Hypothesis Hz : redshift z.
Notation Z1 := (val z + 1).
Lemma z1_close : close 1 (add64 z (of_Z64 1)) Z1 /\ medium 20 Z1 /\ 0 < Z1.
Proof.
  destruct Hz as (F & A & C). destruct one_ok as [V1 F1]. pose proof (bpow_gt_0 radix2 (-20)) as P. assert (M : medium 20 Z1) by (right; split; [exact A|exact C]). split; [|split; [exact M|lra]].
  destruct (add64_b z (of_Z64 1) F F1) as [Fa Va]; [rewrite V1; apply (in_range 20 _ M); lia|]. rewrite V1 in Va. exact (round_close 20 Z1 0 1 _ M ltac:(lia) ltac:(lia) (fac_1 0) Fa ltac:(rewrite Va; f_equal; ring)).
Qed.
Lemma num_close : close 6 (mul64 om (cube64 (add64 z (of_Z64 1)))) (W * Z1 ^ 3) /\ medium 80 (W * Z1 ^ 3) /\ 0 < W * Z1 ^ 3.
Proof.
  destruct z1_close as (C1 & M1 & P1). destruct (close_cube _ _ _ _ C1 M1 ltac:(lia) ltac:(lia) ltac:(lia)) as [C3 M3]. pose proof (medium_mul _ _ _ _ om_med M3) as M. pose proof (close_mul _ _ _ _ _ _ _ om_close C3 M ltac:(lia) ltac:(lia)) as C.
  split; [exact C|]. split; [exact M|]. apply Rmult_lt_0_compat; [apply om_pos|apply pow_lt; exact P1].
Qed.
Lemma e2_close : close 7 (e2_64 om z) (exact_E2 W (val z)) /\ medium 81 (exact_E2 W (val z)) /\ 0 < exact_E2 W (val z).
Proof.
  destruct l0_close as (Cl & _ & Pl). destruct num_close as (Cn & Mn & Pn). unfold exact_E2. set (Q := W * Z1 ^ 3) in *. assert (M : medium 81 (1 - W + Q)).
  { right. destruct Mn as [E|[A C]]; [lra|]. split; [apply Rle_trans with (B (- (80))); [apply bpow_le; lia|lra]|]. replace 81%Z with (80 + 1)%Z by reflexivity. rewrite bpow_plus. change (B 1) with 2. assert (1 <= B 80) by (apply (bpow_le radix2 0 80); lia). lra. }
  split; [|split; [exact M|lra]]. unfold e2_64. exact (close_add 81 _ _ _ _ _ _ Cl Cn ltac:(lra) ltac:(lra) M ltac:(lia) ltac:(cbn; lia)).
Qed.
Lemma e_close : close 8 (efunc64 om z) (sqrt (exact_E2 W (val z))) /\ medium 81 (sqrt (exact_E2 W (val z))).
Proof. destruct e2_close as (C & M & P). split; [exact (close_sqrt 81 _ _ _ ltac:(lia) C M ltac:(lia) ltac:(lia))|apply medium_sqrt; [lia|exact M]]. Qed.
Lemma hub_close : close 10 (hubble64 om z) (exact_H0 * sqrt (exact_E2 W (val z))).
Proof. destruct e_close as [C M]. destruct hub0_close as (Ch & Mh & _). exact (close_mul _ _ _ _ _ _ _ Ch C (medium_mul _ _ _ _ Mh M) ltac:(lia) ltac:(lia)). Qed.
Lemma om_z_close : close 14 (omega_m64 om z) (W * Z1 ^ 3 / exact_E2 W (val z)) /\ close 9 (omega_l64 om z) ((1 - W) / exact_E2 W (val z)).
Proof.
  destruct e2_close as (C & M & P). destruct num_close as (Cn & Mn & _). destruct l0_close as (Cl & Ml & _). split.
  - exact (close_div _ _ _ _ _ _ _ Cn C ltac:(lra) (medium_div _ _ _ _ Mn M ltac:(lra)) ltac:(lia) ltac:(lia)).
  - exact (close_div _ _ _ _ _ _ _ Cl C ltac:(lra) (medium_div _ _ _ _ Ml M ltac:(lra)) ltac:(lia) ltac:(lia)).
Qed.
Lemma z2a_close : close 2 (z2a64 z) (1 / Z1) /\ medium 21 (1 / Z1) /\ 0 < 1 / Z1.
Proof.
  destruct z1_close as (C & M & P). assert (M1 : medium 1 1) by (right; change (bpow radix2 1) with 2; change (bpow radix2 (- (1))) with (/ 2); lra). pose proof (medium_div _ _ _ _ M1 M ltac:(lra)) as Md. split; [exact (close_div _ _ _ _ _ _ _ (close_int 1 ltac:(lia)) C ltac:(lra) Md ltac:(lia) ltac:(lia))|]. split; [exact Md|]. apply Rmult_lt_0_compat; [lra|apply Rinv_0_lt_compat; exact P].
Qed.
(** The shares in the total. *)
Lemma shares : fin (omega_m64 om z) = true /\ fin (omega_l64 om z) = true /\ 0 <= val (omega_m64 om z) <= 1 /\ 0 <= val (omega_l64 om z) <= 1 /\ Rabs (val (omega_m64 om z) + val (omega_l64 om z) - 1) <= B (-50).
Proof.
  destruct e2_close as (C & M & P). destruct num_close as (Cn & Mn & Pn). destruct l0_close as (Cl & Ml & Pl). destruct (close_size _ _ _ _ Cn Mn ltac:(lia)) as [Fn Sn]. destruct (close_size _ _ _ _ Cl Ml ltac:(lia)) as [Fl Sl]. destruct (close_size _ _ _ _ C M ltac:(lia)) as [Fe Se].
  pose proof (proj1 (close_pos _ _ _ C) P) as Pe. pose proof (proj1 (close_pos _ _ _ Cn) Pn) as Pn'. pose proof (proj2 (close_pos _ _ _ Cl) (proj1 Pl)) as Pl'.
  unfold omega_m64, omega_l64. assert (Ve : exists f, fac 1 f /\ val (e2_64 om z) = (val (omega_l0_64 om) + val (mul64 om (cube64 (add64 z (of_Z64 1))))) * f /\ val (e2_64 om z) = rnd64 (val (omega_l0_64 om) + val (mul64 om (cube64 (add64 z (of_Z64 1)))))).
  { unfold e2_64. set (nn := mul64 om _) in *. set (ll := omega_l0_64 om) in *. destruct (add64_b ll nn Fl Fn) as [_ V].
    - rewrite Rabs_right by lra. assert (K1 : val nn <= B 81) by (destruct Sn as [Sn|[_ Sn]]; [rewrite Sn; apply bpow_ge_0|exact Sn]). assert (K2 : val ll <= B 61) by (destruct Sl as [Sl|[_ Sl]]; [rewrite Sl; apply bpow_ge_0|exact Sl]).
      assert (K3 : B 61 <= B 81) by (apply bpow_le; lia). apply Rle_trans with (B (1 + 81)); [rewrite bpow_plus; change (B 1) with 2; lra|apply bpow_le; lia].
    - destruct (fac_round (val ll + val nn)) as (f & Ff & Ef). { right. destruct Sn as [Sn|[Sn _]]; [lra|]. apply Rle_trans with (B (- (80 + 1))); [apply bpow_le; lia|lra]. } exists f. split; [exact Ff|]. split; [rewrite V; exact Ef|exact V]. }
  destruct Ve as (f & Ff & Ve & Vr). unfold e2_64 in *. set (nn := mul64 om _) in *. set (ll := omega_l0_64 om) in *. set (d := add64 ll nn) in *. clearbody nn ll d.
  assert (Nd : val nn <= val d /\ val ll <= val d) by (rewrite Vr; split; [rewrite <- (rnd64_val nn) at 1|rewrite <- (rnd64_val ll) at 1]; apply rnd64_le; lra).
  assert (Q : forall x, fin x = true -> 0 <= val x <= val d -> medium 81 (val x) -> fin (div64 x d) = true /\ 0 <= val (div64 x d) <= 1 /\ exists g, fac 1 g /\ val (div64 x d) = val x / val d * g).
  { intros x Fx Hx Mx. assert (R : 0 <= val x / val d <= 1) by (split; [apply Rmult_le_pos; [lra|apply Rlt_le, Rinv_0_lt_compat; exact Pe]|apply Rmult_le_reg_r with (val d); [exact Pe|]; unfold Rdiv; rewrite Rmult_assoc, Rinv_l by lra; lra]).
    destruct (div64_b x d Fx ltac:(lra)) as [Fd Vd]; [rewrite Rabs_right by lra; apply Rle_trans with 1; [lra|apply (bpow_le radix2 0 1023); lia]|]. split; [exact Fd|]. rewrite Vd. split; [split; [apply rnd64_pos; lra|rewrite <- one_rnd; apply rnd64_le; lra]|].
    destruct (fac_round (val x / val d)) as (g & G & E); [|exists g; auto]. destruct (medium_div _ _ _ _ Mx Se ltac:(lra)) as [E|[E _]]; [left; exact E|right]. eapply Rle_trans; [apply bpow_le|exact E]; lia. }
  destruct (Q nn Fn ltac:(lra) Sn) as (F1 & R1 & g1 & G1 & E1). destruct (Q ll Fl ltac:(lra)) as (F2 & R2 & g2 & G2 & E2). { eapply medium_more; [|exact Sl]; lia. }
  split; [exact F1|]. split; [exact F2|]. split; [exact R1|]. split; [exact R2|]. rewrite E1, E2. destruct (fac_max 1 1 g1 g2 (val nn / val d) (val ll / val d) G1 G2) as (q & Qf & ->); [apply Rmult_le_pos; [lra|apply Rlt_le, Rinv_0_lt_compat; exact Pe]|apply Rmult_le_pos; [lra|apply Rlt_le, Rinv_0_lt_compat; exact Pe]|].
  pose proof (fac_pos _ _ Ff) as Pf. assert (E : val nn / val d + val ll / val d = / f) by (rewrite Ve; field; split; lra). rewrite E. pose proof (fac_mul _ _ _ _ (fac_inv _ _ Ff) Qf) as [A1 A2]. change (Nat.max 1 1) with 1%nat in *. change (1 + 1)%nat with 2%nat in *.
  clear - A1 A2. pose proof (bpow_gt_0 radix2 (-52)) as P. assert (Z : ee <= / 4) by (change (/ 4) with (B (-2)); apply bpow_le; lia). assert (Z2 : B (-50) = 4 * ee) by (replace (-50)%Z with (2 + -52)%Z by reflexivity; rewrite bpow_plus; reflexivity). rewrite Z2. set (e := ee) in *. clearbody e.
  assert (Ee : e * e <= e * / 4) by (apply Rmult_le_compat_l; lra). assert (U : (1 + e) ^ 2 <= 1 + 3 * e) by (cbn [pow]; lra). assert (L : 1 - 3 * e <= / (1 + e) ^ 2). { apply Rmult_le_reg_r with ((1 + e) ^ 2); [apply pow_lt; lra|]. rewrite Rinv_l by (apply pow_nonzero; lra). destruct (Rle_lt_dec (1 - 3 * e) 0) as [C|C]; [assert (0 < (1 + e) ^ 2) by (apply pow_lt; lra); assert ((1 - 3 * e) * (1 + e) ^ 2 <= 0 * (1 + e) ^ 2) by (apply Rmult_le_compat_r; lra); lra|]. apply Rle_trans with ((1 - 3 * e) * (1 + 3 * e)); [apply Rmult_le_compat_l; lra|]. assert (0 <= e * e) by (apply Rmult_le_pos; lra). lra. }
  apply Rabs_le. lra.
Qed.
End One.
End Zed.
