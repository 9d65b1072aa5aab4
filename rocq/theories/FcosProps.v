(** C102: the flat cosmology in double precision. *)
From Coq Require Import ZArith Reals Lra Lia List Bool.
Require Import Flocq.Core.Core Flocq.IEEE754.BinarySingleNaN.
From Verif Require Import Base ProcFloat InterpFloatProofs MeshFloatModel MeshFloatProofs FredModel FredSpec FredProofs FredProofs3 FknnProofs2 PiBound FdenModel FdenSpec FdenProofs FdenProofs2 FcosModel FcosSpec FcosProofs FcosProofs2 FcosProofs3 FcosProofs4.
Local Open Scope R_scope.

(** The constants are the doubles nearest to the literals: 10^10 M_sun, Mpc, Gyr, G and H0. *)
Theorem C102_literals :
  val mpc64 = rnd64 (3085677581491367 * 10 ^ 7) /\ val gyr64 = rnd64 (315576 * 10 ^ 11) /\ val msun64 = rnd64 (1988409870698051 * 10 ^ 15) /\ val bigG64 = rnd64 (66743 / 10 ^ 15) /\ val hub0_64 = rnd64 exact_H0.
Proof.
  destruct (of_Z64_exact 3085677581491367 ltac:(lia)) as [V1 F1]. destruct (of_Z64_exact (10 ^ 7) ltac:(lia)) as [V2 F2]. destruct (of_Z64_exact 315576 ltac:(lia)) as [V3 F3]. destruct (of_Z64_exact (10 ^ 11) ltac:(lia)) as [V4 F4].
  destruct (of_Z64_exact 1988409870698051 ltac:(lia)) as [V5 F5]. destruct (of_Z64_exact (10 ^ 15) ltac:(lia)) as [V6 F6]. destruct (of_Z64_exact 66743 ltac:(lia)) as [V7 F7]. destruct (of_Z64_exact 204542433009139 ltac:(lia)) as [V8 F8]. destruct (of_Z64_exact (2 * 10 ^ 15) ltac:(lia)) as [V9 F9].
  assert (T : 10 ^ 40 <= B 1023) by (apply Rle_trans with (B 140); [change (B 140) with 1393796574908163946345982392040522594123776; lra|apply bpow_le; lia]).
  assert (E2 : IZR (10 ^ 7) = 10 ^ 7) by (change (10 ^ 7)%Z with 10000000%Z; lra). assert (E4 : IZR (10 ^ 11) = 10 ^ 11) by (change (10 ^ 11)%Z with 100000000000%Z; lra). assert (E6 : IZR (10 ^ 15) = 10 ^ 15) by (change (10 ^ 15)%Z with 1000000000000000%Z; lra). assert (E9 : IZR (2 * 10 ^ 15) = 2 * 10 ^ 15) by (change (2 * 10 ^ 15)%Z with 2000000000000000%Z; lra).
  rewrite E2 in V2. rewrite E4 in V4. rewrite E6 in V6. rewrite E9 in V9.
  split. { destruct (mul64_b _ _ F1 F2) as [_ V]; [rewrite V1, V2, Rabs_right; lra|]. unfold mpc64. rewrite V, V1, V2. reflexivity. }
  split. { destruct (mul64_b _ _ F3 F4) as [_ V]; [rewrite V3, V4, Rabs_right; lra|]. unfold gyr64. rewrite V, V3, V4. reflexivity. }
  split. { destruct (mul64_b _ _ F5 F6) as [_ V]; [rewrite V5, V6, Rabs_right; lra|]. unfold msun64. rewrite V, V5, V6. reflexivity. }
  split. { destruct (div64_b (of_Z64 66743) _ F7 ltac:(rewrite V6; lra)) as [_ V]; [rewrite V7, V6, Rabs_right; lra|]. unfold bigG64. rewrite V, V7, V6. reflexivity. }
  destruct (div64_b (of_Z64 204542433009139) _ F8 ltac:(rewrite V9; lra)) as [_ V]; [rewrite V8, V9, Rabs_right; lra|]. unfold hub0_64. rewrite V, V8, V9. f_equal. unfold exact_H0. lra.
Qed.
Print Assumptions C102_literals.

(** Today, for every matter density: E = 1 exactly, H is the constant, the shares are the given ones, a = 1, and a = 1 is redshift 0. *)
Theorem C102_today : forall om z one, fin om = true -> 0 <= val om <= 1 -> fin z = true -> val z = 0 -> fin one = true -> val one = 1 ->
  val (e2_64 om z) = 1 /\ val (efunc64 om z) = 1 /\ val (hubble64 om z) = rnd64 exact_H0 /\ val (omega_m64 om z) = val om /\ val (omega_l64 om z) = rnd64 (1 - val om) /\
  val (z2a64 z) = 1 /\ val (a2z64 one) = 0.
Proof.
  intros om z one Fo Ho Fz Vz Fi Vi. destruct one_ok as [V1 F1]. assert (T : 2 <= B 1023) by (apply (bpow_le radix2 1 1023); lia).
  destruct (add64_b z (of_Z64 1) Fz F1) as [Fs Vs]; [rewrite V1, Vz, Rabs_right; lra|]. rewrite V1, Vz, Rplus_0_l, one_rnd in Vs.
  destruct (mul64_b _ _ Fs Fs) as [Fq Vq]; [rewrite Vs, Rabs_right; lra|]. rewrite Vs, Rmult_1_l, one_rnd in Vq. destruct (mul64_b _ _ Fs Fq) as [Fc Vc]; [rewrite Vs, Vq, Rabs_right; lra|]. rewrite Vs, Vq, Rmult_1_l, one_rnd in Vc.
  change (mul64 (add64 z (of_Z64 1)) (mul64 (add64 z (of_Z64 1)) (add64 z (of_Z64 1)))) with (cube64 (add64 z (of_Z64 1))) in *.
  destruct (mul64_b om _ Fo Fc) as [Fn Vn]; [rewrite Vc, Rabs_right; lra|]. rewrite Vc, Rmult_1_r, rnd64_val in Vn.
  destruct (sub64_b (of_Z64 1) om F1 Fo) as [Fl Vl]; [rewrite V1, Rabs_right; lra|]. rewrite V1 in Vl. change (sub64 (of_Z64 1) om) with (omega_l0_64 om) in *. pose proof (err_below (1 - val om) ltac:(lra)) as D. rewrite <- Vl in D.
  assert (Rl : 0 <= val (omega_l0_64 om) <= 1) by (rewrite Vl; split; [apply rnd64_pos; lra|apply Rle_trans with (rnd64 1); [apply rnd64_le; lra|rewrite one_rnd; lra]]).
  destruct (add64_b _ _ Fl Fn) as [Fe Ve]; [rewrite Vn, Rabs_right; lra|]. rewrite Vn, near_one in Ve by (replace (val (omega_l0_64 om) + val om - 1) with (val (omega_l0_64 om) - (1 - val om)) by ring; exact D). change (add64 (omega_l0_64 om) (mul64 om (cube64 (add64 z (of_Z64 1))))) with (e2_64 om z) in *.
  destruct (sqrt64_val _ Fe ltac:(lra)) as [Fr Vr]. rewrite Ve, sqrt_1, one_rnd in Vr. change (sqrt64 (e2_64 om z)) with (efunc64 om z) in *. destruct hub0_close as (Ch & Mh & _). destruct (close_size _ _ _ _ Ch Mh ltac:(lia)) as [Fh Sh].
  split; [exact Ve|]. split; [exact Vr|]. split.
  { unfold hubble64. destruct (mul64_b hub0_64 _ Fh Fr) as [_ V]; [rewrite Vr, Rmult_1_r; apply (in_range 5 _ Sh); lia|]. rewrite V, Vr, Rmult_1_r, rnd64_val. apply C102_literals. }
  split. { unfold omega_m64. destruct (div64_b _ (e2_64 om z) Fn ltac:(lra)) as [_ V]; [rewrite Vn, Ve, Rabs_right; lra|]. rewrite V, Vn, Ve. unfold Rdiv. rewrite Rinv_1, Rmult_1_r. apply rnd64_val. }
  split. { unfold omega_l64. destruct (div64_b _ (e2_64 om z) Fl ltac:(lra)) as [_ V]; [rewrite Ve, Rabs_right; lra|]. rewrite V, Ve. unfold Rdiv. rewrite Rinv_1, Rmult_1_r, rnd64_val. exact Vl. }
  split. { unfold z2a64. destruct (div64_b (of_Z64 1) _ F1 ltac:(rewrite Vs; lra)) as [_ V]; [rewrite V1, Vs, Rabs_right; lra|]. rewrite V, V1, Vs. unfold Rdiv. rewrite Rinv_1, Rmult_1_r. apply one_rnd. }
  unfold a2z64. destruct (div64_b (of_Z64 1) one F1 ltac:(lra)) as [Fd Vd]; [rewrite V1, Vi, Rabs_right; lra|]. rewrite V1, Vi in Vd. unfold Rdiv in Vd. rewrite Rinv_1, Rmult_1_r, one_rnd in Vd. destruct (sub64_b _ _ Fd F1) as [_ V]; [rewrite V1, Vd, Rminus_diag_eq, Rabs_R0 by reflexivity; lra|].
  rewrite V, V1, Vd, Rminus_diag_eq by reflexivity. apply rnd64_0.
Qed.
Print Assumptions C102_today.

(** The shares of matter and dark energy are in [0, 1] and add up to one within 2^-50. *)
Theorem C102_fractions : forall om z, matter om -> redshift z ->
  fin (omega_m64 om z) = true /\ fin (omega_l64 om z) = true /\ 0 <= val (omega_m64 om z) <= 1 /\ 0 <= val (omega_l64 om z) <= 1 /\ Rabs (val (omega_m64 om z) + val (omega_l64 om z) - 1) <= bpow radix2 (-50).
Proof. intros om z Ho Hz. exact (shares om Ho z Hz). Qed.
Print Assumptions C102_fractions.

(** How close the double-precision results are to the formulas: [close n x X] is at most n relative errors of 2^-52. *)
Theorem C102_accuracy : forall om z, matter om -> redshift z ->
  close 1 (omega_l0_64 om) (1 - val om) /\ close 7 (e2_64 om z) (exact_E2 (val om) (val z)) /\ close 8 (efunc64 om z) (sqrt (exact_E2 (val om) (val z))) /\
  close 10 (hubble64 om z) (exact_H0 * sqrt (exact_E2 (val om) (val z))) /\
  close 14 (omega_m64 om z) (val om * (val z + 1) ^ 3 / exact_E2 (val om) (val z)) /\ close 9 (omega_l64 om z) ((1 - val om) / exact_E2 (val om) (val z)) /\
  close 2 (z2a64 z) (1 / (val z + 1)).
Proof.
  intros om z Ho Hz. split; [apply (l0_close om Ho)|]. split; [apply (e2_close om Ho z Hz)|]. split; [apply (e_close om Ho z Hz)|]. split; [apply (hub_close om Ho z Hz)|].
  destruct (om_z_close om Ho z Hz) as [A C]. split; [exact A|]. split; [exact C|]. apply (z2a_close z Hz).
Qed.
Print Assumptions C102_accuracy.

(** The baryon fraction is one rounding from the quotient. *)
Theorem C102_baryons : forall om ob, matter om -> matter ob -> close 1 (baryon64 om ob) (val ob / val om).
Proof.
  intros om ob Ho Hb. pose proof (om_pos om Ho) as P. pose proof (medium_div _ _ _ _ (om_med ob Hb) (om_med om Ho) ltac:(lra)) as M. exact (close_div _ _ _ _ _ _ _ (om_close ob Hb) (om_close om Ho) ltac:(lra) M ltac:(lia) ltac:(lia)).
Qed.
Print Assumptions C102_baryons.

(** G in cosmological units, the densities and the mass in a ball. *)
Theorem C102_densities : forall h om z r, sized 10 h -> matter om -> redshift z -> sized 40 r ->
  close 20 (grav64 h) (exact_G (val h)) /\ close 28 (crit0_64 h) (exact_crit0 (val h)) /\ close 36 (crit64 h om z) (exact_crit0 (val h) * exact_E2 (val om) (val z)) /\
  close 29 (mean0_64 h om) (exact_crit0 (val h) * val om) /\ close 35 (mean64 h om z) (exact_crit0 (val h) * val om * (val z + 1) ^ 3) /\
  close 36 (r_to_m64 h om r) (4 / 3 * PI * val r ^ 3 * (exact_crit0 (val h) * val om)).
Proof.
  intros h om z r Hh Ho Hz Hr. split; [apply (grav_close h Hh)|]. split; [apply (crit0_close h Hh)|]. split; [apply (crit_close h om Hh Ho z Hz)|]. split; [apply (mean0_close h om Hh Ho)|]. split; [apply (mean_close h om Hh Ho z Hz)|apply (r_to_m_close h om Hh Ho r Hr)].
Qed.
Print Assumptions C102_densities.

(** Rounding never reverses an order: expansion does not slow down with redshift, and the scale factor does not grow. *)
Theorem C102_monotone : forall om z z', fin om = true -> 0 <= val om <= 1 -> fin z = true -> fin z' = true -> -1 <= val z <= val z' -> val z' + 1 <= bpow radix2 20 ->
  fin (hubble64 om z) = true /\ fin (hubble64 om z') = true /\ 0 <= val (e2_64 om z) <= val (e2_64 om z') /\ 0 <= val (efunc64 om z) <= val (efunc64 om z') /\ 0 <= val (hubble64 om z) <= val (hubble64 om z') /\
  (bpow radix2 (-20) <= val z + 1 -> val (z2a64 z') <= val (z2a64 z)).
Proof.
  intros om z z' Fo Ho Fz Fz' Hz Hb. destruct (e2_up om z z' Fo Ho Fz Fz' Hz Hb) as (_ & _ & E2 & _). destruct (e_up om z z' Fo Ho Fz Fz' Hz Hb) as (_ & _ & E & _). destruct (hub_up om z z' Fo Ho Fz Fz' Hz Hb) as (Fh & Fh' & E').
  split; [exact Fh|]. split; [exact Fh'|]. split; [exact E2|]. split; [exact E|]. split; [exact E'|]. intros L. apply z2a_down; [split; [exact Fz|lra]|split; [exact Fz'|lra]|lra].
Qed.
Print Assumptions C102_monotone.
Theorem C102_monotone_scale : forall a a', fin a = true -> fin a' = true -> bpow radix2 (-1000) <= val a <= val a' ->
  fin (a2z64 a) = true /\ fin (a2z64 a') = true /\ val (a2z64 a') <= val (a2z64 a).
Proof. exact a2z_down. Qed.
Print Assumptions C102_monotone_scale.
(** A larger ball does not hold less mass. *)
Theorem C102_monotone_mass : forall h om r r', sized 10 h -> matter om -> sized 40 r -> sized 40 r' -> val r <= val r' -> val (r_to_m64 h om r) <= val (r_to_m64 h om r').
Proof.
  intros h om r r' Hh Ho Hr Hr' L. destruct Hr as (F & A & C), Hr' as (F' & A' & C'). pose proof (bpow_gt_0 radix2 (- (40))) as P. assert (T : B 40 <= B 100) by (apply bpow_le; lia). destruct (cube_up r r' F F' ltac:(split; lra) ltac:(lra)) as (G & G' & V & Vb).
  destruct (mean0_close h om Hh Ho) as (Cm & Mm & Pm). destruct (close_size _ _ _ _ Cm Mm ltac:(lia)) as [Fm Sm]. pose proof (proj1 (close_pos _ _ _ Cm) Pm) as Pm'. destruct ball_close as (Cb & Mb & Pb). destruct (close_size _ _ _ _ Cb Mb ltac:(lia)) as [Fb Sb]. pose proof (proj1 (close_pos _ _ _ Cb) Pb) as Pb'.
  destruct Sm as [Z|[_ Sm]]; [lra|]. destruct Sb as [Z|[_ Sb]]; [lra|]. change (4 + 1)%Z with 5%Z in Sb. assert (T1 : B 5 <= B 500) by (apply bpow_le; lia). assert (T2 : B 300 <= B 500) by (apply bpow_le; lia).
  destruct (mul_up ball_coef64 ball_coef64 _ _ Fb Fb G G' ltac:(split; lra) V ltac:(lra) ltac:(lra)) as [K1 W1]. destruct (mul_small ball_coef64 _ 5 300 Fb G' ltac:(split; lra) ltac:(split; lra) ltac:(lia)) as [K2 W2].
  unfold r_to_m64. set (x := mul64 ball_coef64 (cube64 r)) in *. set (x' := mul64 ball_coef64 (cube64 r')) in *. set (m := mean0_64 h om) in *. clearbody x x' m. change (640 + 1)%Z with 641%Z in Sm. change (5 + 300)%Z with 305%Z in W2.
  assert (M : val x * val m <= val x' * val m) by (apply Rmult_le_compat_r; lra). assert (M0 : 0 <= val x * val m) by (apply Rmult_le_pos; lra). assert (M' : val x' * val m <= B 946) by (replace 946%Z with (305 + 641)%Z by reflexivity; rewrite bpow_plus; apply Rmult_le_compat; lra). assert (K : B 946 <= B 1023) by (apply bpow_le; lia).
  destruct (mul64_b x m K1 Fm) as [_ E]; [rewrite Rabs_right; lra|]. destruct (mul64_b x' m K2 Fm) as [_ E']; [rewrite Rabs_right; lra|]. rewrite E, E'. apply rnd64_le, M.
Qed.
Print Assumptions C102_monotone_mass.

(** From the scale factor to the redshift and back: four roundings; and the other way. *)
Theorem C102_scale : forall a, fin a = true -> bpow radix2 (-20) <= val a <= 1 -> fin (a2z64 a) = true /\ 0 <= val (a2z64 a) /\ close 4 (z2a64 (a2z64 a)) (val a).
Proof. intros a F H. destruct (a2z_fac a F H) as (G & P & _). split; [exact G|]. split; [exact P|apply (a_back a F H)]. Qed.
Print Assumptions C102_scale.
Theorem C102_redshift : forall z, redshift z -> 0 <= val z -> Rabs (val (a2z64 (z2a64 z)) - val z) <= bpow radix2 (-48) * (1 + val z).
Proof. exact z_back. Qed.
Print Assumptions C102_redshift.

(** The mass of a ball gives its radius back. *)
Theorem C102_radius : forall P h om r, pow_like P -> sized 10 h -> matter om -> sized 40 r -> close 44 (m_to_r64 P h om (r_to_m64 h om r)) (val r).
Proof.
  intros P h om r HP Hh Ho Hr. destruct (r_to_m_close h om Hh Ho r Hr) as [C M]. pose proof (bpow_gt_0 radix2 (- (40))) as Pb. assert (Pr : 0 < val r) by (destruct Hr as (_ & A & _); lra). assert (Mr : medium 40 (val r)) by (right; apply Hr). destruct (close_cube _ _ _ _ (close_exact r (proj1 Hr)) Mr ltac:(lia) ltac:(lia) ltac:(lia)) as [_ M3]. change (3 * 40)%Z with 120%Z in M3.
  apply (root_close P _ _ HP); [apply (r3_close h om Hh Ho _ _ Pr M3 C M)|exact Pr|exact M3].
Qed.
Print Assumptions C102_radius.

(** Such power functions exist. *)
Theorem C102_power_exists : exists P, pow_like P.
Proof. exists pow64. exact pow64_like. Qed.
Print Assumptions C102_power_exists.

(** The Planck 2015 parameters of the file, at redshift 1 and in a ball of 8 Mpc/h. *)
Example ex_planck : let om := div64 (of_Z64 3089) (of_Z64 10000) in let ob := div64 (of_Z64 486) (of_Z64 10000) in let h := div64 (of_Z64 6774) (of_Z64 10000) in
  matter om /\ matter ob /\ sized 10 h /\ redshift (of_Z64 1) /\ redshift (of_Z64 0) /\ sized 40 (of_Z64 8).
Proof.
  cbn zeta. assert (G : forall n, (256 <= n <= 8192)%Z -> let q := div64 (of_Z64 n) (of_Z64 10000) in fin q = true /\ / 128 <= val q <= 1).
  { intros n Hn. cbn zeta. destruct (of_Z64_exact n ltac:(lia)) as [V F]. destruct (of_Z64_exact 10000 ltac:(lia)) as [V2 F2]. assert (R : / 64 <= IZR n / 10000 <= 1) by (pose proof (IZR_le 256 n ltac:(lia)); pose proof (IZR_le n 8192 ltac:(lia)); lra).
    destruct (div64_b (of_Z64 n) (of_Z64 10000) F ltac:(rewrite V2; lra)) as [Fq Vq]; [rewrite V, V2, Rabs_right by lra; apply Rle_trans with (B 0); [change (B 0) with 1; lra|apply bpow_le; lia]|]. split; [exact Fq|]. rewrite Vq, V, V2. split; [|rewrite <- one_rnd; apply rnd64_le; lra].
    apply Rle_trans with (rnd64 (B (-6))); [rewrite bpow64 by lia; change (B (-6)) with (/ 64); lra|apply rnd64_le; change (B (-6)) with (/ 64); lra]. }
  assert (L : B (-20) <= / 128) by (change (/ 128) with (B (-7)); apply bpow_le; lia). assert (L2 : B (- (10)) <= / 128) by (change (/ 128) with (B (-7)); apply bpow_le; lia). assert (U : 16 <= B 10) by (apply (bpow_le radix2 4 10); lia). assert (U2 : B 10 <= B 20) by (apply bpow_le; lia). assert (L3 : B (- (40)) <= B (-20)) by (apply bpow_le; lia). assert (U3 : B 10 <= B 40) by (apply bpow_le; lia).
  destruct (G 3089%Z ltac:(lia)) as [A1 A2]. destruct (G 486%Z ltac:(lia)) as [B1 B2]. destruct (G 6774%Z ltac:(lia)) as [C1 C2]. destruct (of_Z64_exact 1 ltac:(lia)) as [V1 F1]. destruct (of_Z64_exact 0 ltac:(lia)) as [V0 F0]. destruct (of_Z64_exact 8 ltac:(lia)) as [V8 F8].
  split; [split; [exact A1|lra]|]. split; [split; [exact B1|lra]|]. split; [split; [exact C1|lra]|]. split; [split; [exact F1|rewrite V1; lra]|]. split; [split; [exact F0|rewrite V0; lra]|split; [exact F8|rewrite V8; lra]].
Qed.
