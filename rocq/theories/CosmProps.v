(** C55: the flat cosmology without radiation, and its unit system. *)
From Coq Require Import Reals Lra Lia.
From Verif Require Import CosmModel.
Local Open Scope R_scope.

(** What the rest of the library uses: 0 < Omega_m <= 1, h > 0. *)
Definition usual (c : cosm) : Prop := 0 < omega_m0 c <= 1 /\ 0 < hubble c.

(** ** Powers *)
Lemma npow_pos x y : 0 < x -> npow x y = Rpower x y.
Proof. intros H. unfold npow. destruct (Req_EM_T x 0); [lra|reflexivity]. Qed.
Lemma cube_of_root x : 0 <= x -> npow x (1 / 3) ^ 3 = x.
Proof.
  intros H. destruct (Req_dec x 0) as [->|N]; [unfold npow; destruct (Req_EM_T 0 0); [ring|lra]|].
  rewrite npow_pos by lra. rewrite <- Rpower_pow by apply exp_pos. rewrite Rpower_mult. replace (1 / 3 * INR 3) with 1 by (simpl; lra). apply Rpower_1. lra.
Qed.
Lemma root_of_cube x : 0 <= x -> npow (x ^ 3) (1 / 3) = x.
Proof.
  intros H. destruct (Req_dec x 0) as [->|N]; [unfold npow; destruct (Req_EM_T (0 ^ 3) 0); [reflexivity|exfalso; lra]|].
  rewrite npow_pos by (apply pow_lt; lra). rewrite <- Rpower_pow by lra. rewrite Rpower_mult. replace (INR 3 * (1 / 3)) with 1 by (simpl; lra). apply Rpower_1. lra.
Qed.
Lemma npow_nonneg x y : 0 <= npow x y.
Proof. unfold npow. destruct (Req_EM_T x 0); [lra|]. left. apply exp_pos. Qed.
Lemma npow_incr x x' y : 0 < y -> 0 <= x < x' -> npow x y < npow x' y.
Proof.
  intros Hy [H1 H2]. rewrite (npow_pos x') by lra. destruct (Req_dec x 0) as [->|N].
  - unfold npow. destruct (Req_EM_T 0 0); [apply exp_pos|lra].
  - rewrite npow_pos by lra. unfold Rpower. apply exp_increasing. apply Rmult_lt_compat_l; [lra|]. apply ln_increasing; lra.
Qed.

Lemma cube_lt a b : 0 <= a < b -> a ^ 3 < b ^ 3.
Proof.
  intros [H1 H2]. assert (0 < (b - a) * (b * b + a * b + a * a)); [|nra].
  apply Rmult_lt_0_compat; [lra|]. assert (0 < b * b) by (apply Rmult_lt_0_compat; lra). assert (0 <= a * b) by (apply Rmult_le_pos; lra). assert (0 <= a * a) by (apply Rmult_le_pos; lra). lra.
Qed.

(** ** Expansion *)
Lemma e2_pos c z : usual c -> -1 < z -> 0 < efunc_sqr c z.
Proof. intros [[H1 H2] _] Hz. unfold efunc_sqr, omega_l0. assert (0 < (z + 1) ^ 3) by (apply pow_lt; lra). nra. Qed.
(** The densities always add up to the critical one; today they are the parameters; H(z)^2 = H0^2 (Om (1+z)^3 + 1 - Om). *)
Theorem C55_budget : forall c z, usual c -> -1 < z ->
  omega_m c z + omega_l c z = 1 /\ 0 < omega_m c z <= 1 /\ 0 <= omega_l c z < 1 /\ omega_m c 0 = omega_m0 c /\ omega_l c 0 = 1 - omega_m0 c /\
  efunc c 0 = 1 /\ big_hubble c z ^ 2 = big_hubble0 ^ 2 * (omega_m0 c * (1 + z) ^ 3 + (1 - omega_m0 c)).
Proof.
  intros c z U Hz. pose proof (e2_pos c z U Hz) as P. destruct U as [[H1 H2] _]. assert (P3 : 0 < (z + 1) ^ 3) by (apply pow_lt; lra).
  assert (S : omega_m c z + omega_l c z = 1) by (unfold omega_m, omega_l; rewrite <- Rdiv_plus_distr; unfold efunc_sqr in *; field; lra).
  assert (Pm : 0 < omega_m c z) by (unfold omega_m; apply Rdiv_lt_0_compat; [apply Rmult_lt_0_compat; lra|exact P]).
  assert (Pl : 0 <= omega_l c z) by (unfold omega_l, Rdiv; apply Rmult_le_pos; [unfold omega_l0; lra|left; apply Rinv_0_lt_compat; exact P]).
  assert (E0 : efunc_sqr c 0 = 1) by (unfold efunc_sqr, omega_l0; ring).
  repeat split; try lra.
  - unfold omega_m. rewrite E0. field.
  - unfold omega_l. rewrite E0. unfold omega_l0. field.
  - unfold efunc. rewrite E0. apply sqrt_1.
  - unfold big_hubble, efunc. rewrite Rpow_mult_distr. rewrite pow2_sqrt by lra. unfold efunc_sqr, omega_l0. ring.
Qed.
Print Assumptions C55_budget.
(** Towards higher redshift the Universe expands faster and matter matters more. *)
Theorem C55_monotone : forall c z z', usual c -> -1 < z -> z < z' ->
  efunc c z < efunc c z' /\ big_hubble c z < big_hubble c z' /\ omega_m c z <= omega_m c z' /\ omega_l c z' <= omega_l c z /\ (omega_m0 c < 1 -> omega_m c z < omega_m c z').
Proof.
  intros c z z' U Hz L. pose proof (e2_pos c z U Hz) as P. pose proof (e2_pos c z' U ltac:(lra)) as P'.
  destruct (C55_budget c z U Hz) as (S & _). destruct (C55_budget c z' U ltac:(lra)) as (S' & _). destruct U as [[H1 H2] H3].
  assert (C : (z + 1) ^ 3 < (z' + 1) ^ 3) by (apply cube_lt; lra).
  assert (E : efunc_sqr c z < efunc_sqr c z') by (unfold efunc_sqr; nra).
  assert (EE : efunc c z < efunc c z') by (unfold efunc; apply sqrt_lt_1; lra).
  assert (L1 : omega_l c z' <= omega_l c z).
  { unfold omega_l, Rdiv. apply Rmult_le_compat_l; [unfold omega_l0; lra|]. apply Rinv_le_contravar; lra. }
  split; [exact EE|]. split; [unfold big_hubble; apply Rmult_lt_compat_l; [unfold big_hubble0; lra|exact EE]|]. split; [lra|]. split; [exact L1|].
  intros O1. assert (omega_l c z' < omega_l c z); [|lra]. unfold omega_l, Rdiv. apply Rmult_lt_compat_l; [unfold omega_l0; lra|]. apply Rinv_lt_contravar; [apply Rmult_lt_0_compat; assumption|exact E].
Qed.
Print Assumptions C55_monotone.
(** Scale factor and redshift are inverse, order-reversing. *)
Theorem C55_scale_factor : forall a z, (a <> 0 -> z2a (a2z a) = a) /\ (z <> -1 -> a2z (z2a z) = z) /\ z2a 0 = 1 /\
  (forall z', -1 < z -> z < z' -> 0 < z2a z' < z2a z) /\ (forall a', 0 < a -> a < a' -> -1 < a2z a' < a2z a).
Proof.
  intros a z. unfold z2a, a2z. split; [intros H; field; split; [exact H|lra]|]. split; [intros H; field; lra|]. split; [field|]. split.
  - intros z' H1 H2. split; [apply Rdiv_lt_0_compat; lra|]. unfold Rdiv. rewrite !Rmult_1_l. apply Rinv_lt_contravar; [apply Rmult_lt_0_compat; lra|lra].
  - intros a' H1 H2. assert (0 < 1 / a') by (apply Rdiv_lt_0_compat; lra). assert (1 / a' < 1 / a) by (unfold Rdiv; rewrite !Rmult_1_l; apply Rinv_lt_contravar; [apply Rmult_lt_0_compat; lra|lra]). lra.
Qed.
Print Assumptions C55_scale_factor.

(** ** Units *)
(** Unit factors give back the SI constants: a number in internal units times the unit is the SI value. *)
Theorem C55_units : forall l t m, 0 < l -> 0 < t -> 0 < m -> let u := make_units l t m in
  us_gravity_constant u * u_gravity u = c_gravity cc /\ us_light_speed u * u_velocity u = c_light cc /\ us_light_speed u * u_velocity_in_kmps u = c_light cc / 1000 /\ us_proton_mass u * u_mass u = c_proton cc /\
  us_solar_mass u * u_mass u = c_solar cc /\ us_pc u * u_length u = pc_to_m cc /\ us_yr u * u_time u = yr_to_s cc /\ us_salpeter_time u * u_time u = c_salpeter cc /\
  u_velocity u * u_time u = u_length u /\ u_density u * u_length u ^ 3 = u_mass u /\ u_big_hubble u * u_time u = 1 /\ u_gravity u * u_density u * u_time u ^ 2 = 1.
Proof.
  intros l t m Hl Ht Hm. unfold make_units. cbn [u_length u_time u_mass u_gravity u_density u_big_hubble u_velocity u_velocity_in_kmps us_proton_mass us_solar_mass us_pc us_yr us_salpeter_time us_light_speed us_gravity_constant].
  assert (l <> 0) by lra. assert (t <> 0) by lra. assert (m <> 0) by lra. repeat split; field; auto.
Qed.
Print Assumptions C55_units.
(** The SI constants themselves: a (Julian) year is 365.25 days of 86400 s, a Myr a million, a Gyr a thousand million of them; the Salpeter time
    is 450.49 Myr; a Mpc is a million pc. *)
Theorem C55_constants : yr_to_s cc = 36525 / 100 * 86400 /\ kyr_to_s cc = 10 ^ 3 * yr_to_s cc /\ myr_to_s cc = 10 ^ 6 * yr_to_s cc /\ gyr_to_s cc = 10 ^ 9 * yr_to_s cc /\
  c_salpeter cc = 45049 / 100 * myr_to_s cc /\ mpc_to_m cc = 10 ^ 6 * pc_to_m cc /\ c_solar cc = msun_to_kg cc /\
  c_light cc = 299792458 /\ c_gravity cc = 6.6743 / 10 ^ 11 /\ c_proton cc = 1.67262192369 / 10 ^ 27 /\ msun_to_kg cc = 1.988409870698051 * 10 ^ 30 /\ mpc_to_m cc = 3.085677581491367 * 10 ^ 22.
Proof. unfold cc. cbn [mpc_to_m kpc_to_m pc_to_m gyr_to_s myr_to_s kyr_to_s yr_to_s msun_to_kg c_light c_proton c_gravity c_solar c_salpeter]. repeat split; lra. Qed.
Print Assumptions C55_constants.
(** In a cosmology's units (Mpc/h, Gyr/h, 10^10 Msun/h) the gravitational constant, hence the critical density, does not
    depend on h; the solar mass is h 10^-10, the parsec h 10^-6, the year h 10^-9. *)
Theorem C55_h_free : forall h h', 0 < h -> 0 < h' -> us_gravity_constant (cosmology_units h) = us_gravity_constant (cosmology_units h') /\
  us_light_speed (cosmology_units h) = us_light_speed (cosmology_units h') /\
  us_solar_mass (cosmology_units h) = h / 10 ^ 10 /\ us_pc (cosmology_units h) = h / 10 ^ 6 /\ us_yr (cosmology_units h) = h / 10 ^ 9.
Proof.
  intros h h' H H'. unfold cosmology_units, make_units. cbn [us_gravity_constant us_light_speed us_solar_mass us_pc us_yr].
  unfold cc. cbn [mpc_to_m gyr_to_s msun_to_kg c_gravity c_light c_solar pc_to_m yr_to_s]. repeat split; field; lra.
Qed.
Print Assumptions C55_h_free.
(** The Hubble constant is 100 h km/s/Mpc: the literal agrees with the other constants to 10^-15. *)
Theorem C55_hubble_literal : Rabs (big_hubble0 * (u_velocity_in_kmps (cosmology_units 1)) - 100) < 100 / 10 ^ 14.
Proof.
  unfold big_hubble0, cosmology_units, make_units, cc. cbn [u_velocity_in_kmps mpc_to_m gyr_to_s].
  apply Rabs_def1; match goal with |- ?a < ?b => idtac end.
  - apply Rminus_gt_0_lt. match goal with |- 0 < ?e => replace e with (e * 1) by ring end. field_simplify. lra.
  - apply Rminus_gt_0_lt. field_simplify. lra.
Qed.
Print Assumptions C55_hubble_literal.
(** Friedmann's equation holds in SI units for every h: H(z)^2 = 8 pi G rho_crit(z) / 3. *)
Theorem C55_friedmann : forall c z, usual c -> -1 < z ->
  (big_hubble c z * u_big_hubble (us c)) ^ 2 = 8 * PI * c_gravity cc / 3 * (crit c z * u_density (us c)) /\
  crit c z * omega_m c z = mean c z /\ crit c z * omega_l c z = crit0 c * (1 - omega_m0 c) /\ mean c 0 = mean0 c /\ crit c 0 = crit0 c /\ 0 < mean0 c.
Proof.
  intros c z U Hz. pose proof (e2_pos c z U Hz) as P. destruct (C55_budget c z U Hz) as (_ & _ & _ & _ & _ & _ & HH). destruct U as [[H1 H2] H3].
  pose proof PI_RGT_0 as Pi.
  assert (G : 0 < us_gravity_constant (us c)).
  { unfold us, cosmology_units, make_units, cc. cbn [us_gravity_constant c_gravity mpc_to_m gyr_to_s msun_to_kg].
    apply Rdiv_lt_0_compat; [lra|]. apply Rdiv_lt_0_compat; [apply Rdiv_lt_0_compat; apply pow_lt; apply Rdiv_lt_0_compat; lra | apply Rdiv_lt_0_compat; lra]. }
  assert (P0 : 0 < crit0 c) by (unfold crit0; apply Rdiv_lt_0_compat; [unfold big_hubble0; nra|nra]).
  split.
  - rewrite Rpow_mult_distr, HH. unfold crit, crit0.
    assert (UU : us_gravity_constant (us c) * u_gravity (us c) = c_gravity cc /\ u_gravity (us c) * u_density (us c) * u_time (us c) ^ 2 = 1 /\ u_big_hubble (us c) * u_time (us c) = 1).
    { unfold us, cosmology_units. assert (A1 : 0 < mpc_to_m cc / hubble c) by (apply Rdiv_lt_0_compat; [unfold cc; cbn [mpc_to_m]; lra|exact H3]).
      assert (A2 : 0 < gyr_to_s cc / hubble c) by (apply Rdiv_lt_0_compat; [unfold cc; cbn [gyr_to_s]; lra|exact H3]).
      assert (A3 : 0 < msun_to_kg cc * 10 ^ 10 / hubble c) by (apply Rdiv_lt_0_compat; [unfold cc; cbn [msun_to_kg]; lra|exact H3]).
      destruct (C55_units _ _ _ A1 A2 A3) as (Q1 & _ & _ & _ & _ & _ & _ & _ & _ & _ & Q2 & Q3). auto. }
    destruct UU as (U1 & U2 & U3). rewrite <- U1. assert (T : u_time (us c) <> 0) by (intros Z; rewrite Z in U3; lra).
    assert (D : u_gravity (us c) * u_density (us c) = 1 / u_time (us c) ^ 2) by (rewrite <- U2; field; exact T).
    assert (B : u_big_hubble (us c) = 1 / u_time (us c)) by (rewrite <- U3; field; exact T). rewrite B.
    transitivity (big_hubble0 ^ 2 * efunc_sqr c z * (u_gravity (us c) * u_density (us c))); [rewrite D; unfold efunc_sqr, omega_l0; field; exact T|field; split; lra].
  - split; [unfold crit, omega_m, mean, mean0; field; lra|]. split; [unfold crit, omega_l, omega_l0; field; lra|]. split; [unfold mean; ring|]. split; [unfold crit, efunc_sqr, omega_l0; ring|].
    unfold mean0. apply Rmult_lt_0_compat; lra.
Qed.
Print Assumptions C55_friedmann.
(** Mass and radius of a sphere of mean density are inverse and strictly increasing. *)
Theorem C55_mass_radius : forall c, usual c -> (forall r, 0 <= r -> m_to_r c (r_to_m c r) = r) /\ (forall m, 0 <= m -> r_to_m c (m_to_r c m) = m /\ 0 <= m_to_r c m) /\
  (forall r r', 0 <= r < r' -> r_to_m c r < r_to_m c r') /\ (forall m m', 0 <= m < m' -> m_to_r c m < m_to_r c m') /\ r_to_m c 0 = 0 /\ m_to_r c 0 = 0.
Proof.
  intros c U. destruct (C55_friedmann c 0 U ltac:(lra)) as (_ & _ & _ & _ & _ & P). pose proof PI_RGT_0 as Pi.
  assert (I : forall m m', 0 <= m < m' -> m_to_r c m < m_to_r c m').
  { intros m m' [A B]. unfold m_to_r. apply npow_incr; [lra|]. assert (K : 0 < / mean0 c) by (apply Rinv_0_lt_compat; exact P). assert (K' : 0 < / (4 / 3 * PI)) by (apply Rinv_0_lt_compat; lra). unfold Rdiv.
    split; [apply Rmult_le_pos; [apply Rmult_le_pos|]; lra|]. apply Rmult_lt_compat_r; [exact K'|]. apply Rmult_lt_compat_r; assumption. }
  assert (S : forall m, 0 <= m -> r_to_m c (m_to_r c m) = m).
  { intros m Hm. unfold r_to_m, m_to_r. rewrite cube_of_root; [field; split; lra|]. unfold Rdiv. apply Rmult_le_pos; [apply Rmult_le_pos; [exact Hm|left; apply Rinv_0_lt_compat; exact P]|left; apply Rinv_0_lt_compat; lra]. }
  split; [|split; [|split; [|split; [exact I|split]]]].
  - intros r Hr. unfold m_to_r, r_to_m. replace (4 / 3 * PI * r ^ 3 * mean0 c / mean0 c / (4 / 3 * PI)) with (r ^ 3) by (field; split; lra). apply root_of_cube. exact Hr.
  - intros m Hm. split; [apply S; exact Hm|apply npow_nonneg].
  - intros r r' [A B]. unfold r_to_m. apply Rmult_lt_compat_r; [exact P|]. apply Rmult_lt_compat_l; [lra|]. apply cube_lt; lra.
  - unfold r_to_m. ring.
  - unfold m_to_r, npow. destruct (Req_EM_T _ 0) as [|N]; [reflexivity|]. exfalso. apply N. unfold Rdiv. ring.
Qed.
Print Assumptions C55_mass_radius.
(** Finding: the kiloparsec is a million kiloparsecs. *)
Theorem C55_kpc_refuted : kpc_to_m cc = 10 ^ 6 * (1000 * pc_to_m cc) /\ mpc_to_m cc = 10 ^ 6 * pc_to_m cc.
Proof. unfold cc. cbn [kpc_to_m mpc_to_m pc_to_m]. split; field. Qed.
Print Assumptions C55_kpc_refuted.

(** The predefined Planck 2015 cosmology (flat_lambda_cdm_nr.py:112-117) is covered. *)
Example C55_planck : usual {| hubble := 6774 / 10000; omega_m0 := 3089 / 10000; omega_b0 := 486 / 10000; n_spec := 9667 / 10000; sigma_8 := 8159 / 10000 |}.
Proof. unfold usual. cbn [omega_m0 hubble]. lra. Qed.
