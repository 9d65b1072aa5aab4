(** Model of /repo/src/pyhipp/astro/cosmology/flat_lambda_cdm_nr.py and of the numba unit system in
    /repo/src/pyhipp/astro/quantity/unit_system.py.  Floats are real numbers (no rounding); [npow x y] is the float power for
    x >= 0 and y > 0 (a negative base with a fractional exponent is NaN in the code: excluded by the hypotheses). *)
From Coq Require Import Reals.
Local Open Scope R_scope.

(** numpy's and numba's x**y for x >= 0 and y > 0 (flat_lambda_cdm_nr.py:165-172, unit_system.py:74-102). *)
Definition npow (x y : R) : R := if Req_EM_T x 0 then 0 else Rpower x y.

(** unit_system.py:9-44 _Constants.__init__, SI units. *)
Record constants := { mpc_to_m : R; kpc_to_m : R; pc_to_m : R; gyr_to_s : R; myr_to_s : R; kyr_to_s : R; yr_to_s : R; msun_to_kg : R;
  c_light : R; c_proton : R; c_gravity : R; c_solar : R; c_salpeter : R }.
(** unit_system.py:28-47, the constants. *)
Definition cc : constants :=
  let mpc := 3085677581491367 * 10 ^ 7 in let gyr := 315576 * 10 ^ 11 in
  {| mpc_to_m := mpc; kpc_to_m := mpc * 10 ^ 3; pc_to_m := mpc / 10 ^ 6;
     gyr_to_s := gyr; myr_to_s := gyr / 10 ^ 3; kyr_to_s := gyr / 10 ^ 6; yr_to_s := gyr / 10 ^ 9;
     msun_to_kg := 1988409870698051 * 10 ^ 15; c_light := 299792458; c_proton := 167262192369 / 10 ^ 38; c_gravity := 66743 / 10 ^ 15;
     c_solar := 1988409870698051 * 10 ^ 15; c_salpeter := 45049 / 100 * (gyr * (1 / 10 ^ 3)) |}.
(** unit_system.py:74-102 _UnitSystem.__init__ (the temperature unit is stored and used nowhere). *)
Record units := { u_length : R; u_time : R; u_mass : R; u_gravity : R; u_density : R; u_big_hubble : R; u_velocity : R; u_velocity_in_kmps : R;
  us_proton_mass : R; us_solar_mass : R; us_pc : R; us_yr : R; us_salpeter_time : R; us_light_speed : R; us_gravity_constant : R }.
(** unit_system.py:74-102. *)
Definition make_units (l t m : R) : units :=
  let ug := l ^ 3 / t ^ 2 / m in let uv := l / t in
  {| u_length := l; u_time := t; u_mass := m; u_gravity := ug; u_density := m / l ^ 3; u_big_hubble := 1 / t; u_velocity := uv; u_velocity_in_kmps := uv / 10 ^ 3;
     us_proton_mass := c_proton cc / m; us_solar_mass := c_solar cc / m; us_pc := pc_to_m cc / l; us_yr := yr_to_s cc / t; us_salpeter_time := c_salpeter cc / t;
     us_light_speed := c_light cc / uv; us_gravity_constant := c_gravity cc / ug |}.
(** flat_lambda_cdm_nr.py:23-31 _make_us_for_cosmology. *)
Definition cosmology_units (h : R) : units := make_units (mpc_to_m cc / h) (gyr_to_s cc / h) (msun_to_kg cc * 10 ^ 10 / h).

(** flat_lambda_cdm_nr.py:34-72 _FlatLambdaCDMNR. *)
Record cosm := { hubble : R; omega_m0 : R; omega_b0 : R; n_spec : R; sigma_8 : R }.
(** flat_lambda_cdm_nr.py:69. *)
Definition omega_l0 (c : cosm) : R := 1 - omega_m0 c.
(** flat_lambda_cdm_nr.py:70, the Hubble constant in the code units. *)
Definition big_hubble0 : R := 1022712165045695 / 10 ^ 16.
(** flat_lambda_cdm_nr.py:72, the unit system. *)
Definition us (c : cosm) : units := cosmology_units (hubble c).
(** flat_lambda_cdm_nr.py:74-106 *)
Definition efunc_sqr (c : cosm) (z : R) : R := omega_l0 c + omega_m0 c * (z + 1) ^ 3.
(** flat_lambda_cdm_nr.py:81-85. *)
Definition efunc (c : cosm) (z : R) : R := sqrt (efunc_sqr c z).
(** flat_lambda_cdm_nr.py:87-89. *)
Definition omega_m (c : cosm) (z : R) : R := omega_m0 c * (z + 1) ^ 3 / efunc_sqr c z.
(** flat_lambda_cdm_nr.py:91-92. *)
Definition omega_l (c : cosm) (z : R) : R := omega_l0 c / efunc_sqr c z.
(** flat_lambda_cdm_nr.py:94-95. *)
Definition baryon_fraction (c : cosm) : R := omega_b0 c / omega_m0 c.
(** flat_lambda_cdm_nr.py:97-101. *)
Definition big_hubble (c : cosm) (z : R) : R := big_hubble0 * efunc c z.
(** flat_lambda_cdm_nr.py:103-104. *)
Definition a2z (a : R) : R := 1 / a - 1.
(** flat_lambda_cdm_nr.py:106-107. *)
Definition z2a (z : R) : R := 1 / (z + 1).
(** flat_lambda_cdm_nr.py:120-172 _Densities. *)
Definition crit0 (c : cosm) : R := 3 * big_hubble0 ^ 2 / (8 * PI * us_gravity_constant (us c)).
(** flat_lambda_cdm_nr.py:137-142. *)
Definition crit (c : cosm) (z : R) : R := crit0 c * efunc_sqr c z.
(** flat_lambda_cdm_nr.py:144-149. *)
Definition mean0 (c : cosm) : R := crit0 c * omega_m0 c.
(** flat_lambda_cdm_nr.py:151-156. *)
Definition mean (c : cosm) (z : R) : R := mean0 c * (z + 1) ^ 3.
(** flat_lambda_cdm_nr.py:158-163. *)
Definition r_to_m (c : cosm) (r : R) : R := 4 / 3 * PI * r ^ 3 * mean0 c.
(** flat_lambda_cdm_nr.py:165-172. *)
Definition m_to_r (c : cosm) (m : R) : R := npow (m / mean0 c / (4 / 3 * PI)) (1 / 3).
