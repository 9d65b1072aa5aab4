(** The flat cosmology of /repo/src/pyhipp/astro/cosmology/flat_lambda_cdm_nr.py and the units it uses (astro/quantity/unit_system.py) in IEEE-754 binary64 (Flocq).
    numba compiles x**2 and x**3 (constant exponents) to x*x and x*(x*x); the power with exponent 1/3 is an argument. *)
From Coq Require Import ZArith Bool List.
Require Import Flocq.Core.Core Flocq.IEEE754.BinarySingleNaN.
From Verif Require Import Base ProcFloat MeshFloatModel FredModel FdenModel.

(** flat_lambda_cdm_nr.py:78, 88, 90, 95 ..: x**2 and x**3. *)
Definition sq64 (x : b64) : b64 := mul64 x x.
(** flat_lambda_cdm_nr.py:78, 90, 157, 164: x**3. *)
Definition cube64 (x : b64) : b64 := mul64 x (mul64 x x).
(** unit_system.py:28-47 _Constants.__init__, those used here: 3.085677581491367e+22, 3.15576e+16, 1.988409870698051e+30, 6.6743e-11.  Each is one correctly rounded operation on exact numbers, so the literal. *)
Definition mpc64 : b64 := mul64 (of_Z64 3085677581491367) (of_Z64 (10 ^ 7)).
(** unit_system.py:33. *)
Definition gyr64 : b64 := mul64 (of_Z64 315576) (of_Z64 (10 ^ 11)).
(** unit_system.py:37. *)
Definition msun64 : b64 := mul64 (of_Z64 1988409870698051) (of_Z64 (10 ^ 15)).
(** unit_system.py:41. *)
Definition bigG64 : b64 := div64 (of_Z64 66743) (of_Z64 (10 ^ 15)).
(** unit_system.py:86: u_gravity_constant = u_length**3 / u_time**2 / u_mass. *)
Definition u_grav64 (l t m : b64) : b64 := div64 (div64 (cube64 l) (sq64 t)) m.
(** flat_lambda_cdm_nr.py:23-31 _make_us_for_cosmology and unit_system.py:102: G in the units of a cosmology. *)
Definition grav64 (h : b64) : b64 := div64 bigG64 (u_grav64 (div64 mpc64 h) (div64 gyr64 h) (div64 (mul64 msun64 (of_Z64 (10 ^ 10))) h)).
(** flat_lambda_cdm_nr.py:69 omega_l0. *)
Definition omega_l0_64 (om : b64) : b64 := sub64 (of_Z64 1) om.
(** flat_lambda_cdm_nr.py:70 big_hubble0 = 0.1022712165045695 (= 204542433009139 / (2 10^15), one rounding). *)
Definition hub0_64 : b64 := div64 (of_Z64 204542433009139) (of_Z64 (2 * 10 ^ 15)).
(** flat_lambda_cdm_nr.py:74-79 efunc_sqr. *)
Definition e2_64 (om z : b64) : b64 := add64 (omega_l0_64 om) (mul64 om (cube64 (add64 z (of_Z64 1)))).
(** flat_lambda_cdm_nr.py:81-85 efunc. *)
Definition efunc64 (om z : b64) : b64 := sqrt64 (e2_64 om z).
(** flat_lambda_cdm_nr.py:87-89 omega_m. *)
Definition omega_m64 (om z : b64) : b64 := div64 (mul64 om (cube64 (add64 z (of_Z64 1)))) (e2_64 om z).
(** flat_lambda_cdm_nr.py:91-92 omega_l. *)
Definition omega_l64 (om z : b64) : b64 := div64 (omega_l0_64 om) (e2_64 om z).
(** flat_lambda_cdm_nr.py:94-95 baryon_fraction. *)
Definition baryon64 (om ob : b64) : b64 := div64 ob om.
(** flat_lambda_cdm_nr.py:97-101 big_hubble. *)
Definition hubble64 (om z : b64) : b64 := mul64 hub0_64 (efunc64 om z).
(** flat_lambda_cdm_nr.py:103-104 a2z. *)
Definition a2z64 (a : b64) : b64 := sub64 (div64 (of_Z64 1) a) (of_Z64 1).
(** flat_lambda_cdm_nr.py:106-107 z2a. *)
Definition z2a64 (z : b64) : b64 := div64 (of_Z64 1) (add64 z (of_Z64 1)).
(** flat_lambda_cdm_nr.py:128-135 _Densities.crit0. *)
Definition crit0_64 (h : b64) : b64 := div64 (mul64 (of_Z64 3) (sq64 hub0_64)) (mul64 (mul64 (of_Z64 8) pi64) (grav64 h)).
(** flat_lambda_cdm_nr.py:137-142 crit. *)
Definition crit64 (h om z : b64) : b64 := mul64 (crit0_64 h) (e2_64 om z).
(** flat_lambda_cdm_nr.py:144-149 mean0. *)
Definition mean0_64 (h om : b64) : b64 := mul64 (crit0_64 h) om.
(** flat_lambda_cdm_nr.py:151-156 mean. *)
Definition mean64 (h om z : b64) : b64 := mul64 (mean0_64 h om) (cube64 (add64 z (of_Z64 1))).
(** flat_lambda_cdm_nr.py:158-163: 4.0/3.0 * np.pi. *)
Definition ball_coef64 : b64 := mul64 (div64 (of_Z64 4) (of_Z64 3)) pi64.
(** flat_lambda_cdm_nr.py:158-163 r_to_m. *)
Definition r_to_m64 (h om r : b64) : b64 := mul64 (mul64 ball_coef64 (cube64 r)) (mean0_64 h om).
(** flat_lambda_cdm_nr.py:165-172 m_to_r; [P] is the library's power. *)
Definition m_to_r64 (P : b64 -> b64 -> b64) (h om m : b64) : b64 := P (div64 (div64 m (mean0_64 h om)) ball_coef64) (div64 (of_Z64 1) (of_Z64 3)).
