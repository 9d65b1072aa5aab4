(** Model of /repo/src/pyhipp/astro/cosmology/model.py (LambdaCDM and its calculators) and of UnitSystem in
    /repo/src/pyhipp/astro/quantity/unit_system.py:104-201.  An astropy quantity is its value in SI units, so ".to" and
    "conv_coef" are divisions.  astropy.cosmology.FlatLambdaCDM (massless neutrinos) is represented by its documented formulas,
    with exact Riemann integrals for its quadratures; rounding is not modelled. *)
From Coq Require Import Reals.
From Coquelicot Require Import Coquelicot.
From Verif Require Import Base CosmModel ParamModel HaloModel.
Local Open Scope string_scope. Local Open Scope list_scope. Local Open Scope R_scope.

(** ** unit_system.py:104-201 UnitSystem.__init__, create_for_cosmology; SI values. *)
(** unit_system.py:104-201, as above. *)
Definition erg : R := 1 / 10 ^ 7.
(** unit_system.py:189-197. *)
Definition h_planck : R := 662607015 / 10 ^ 42.
(** unit_system.py:104-169. *)
Record usys := { u_l : R; u_t : R; u_m : R; u_v : R; u_e : R; u_power : R; u_angular_momentum : R; u_G : R; u_rho : R; u_H : R;
  u_l_to_pc : R; u_t_to_yr : R; u_m_to_sol : R; u_v_to_kmps : R; u_e_to_erg : R; u_power_to_ergps : R;
  k_gravity : R; k_m_sun : R; k_light_speed : R; k_m_p : R; k_h_planck : R }.
(** unit_system.py:124-169. *)
Definition unit_system (l t m : R) : usys :=
  let v := l / t in let e := m * v ^ 2 in let pw := e / t in let am := l * m * v in let g := l ^ 3 / t ^ 2 / m in
  {| u_l := l; u_t := t; u_m := m; u_v := v; u_e := e; u_power := pw; u_angular_momentum := am; u_G := g; u_rho := m / l ^ 3; u_H := 1 / t;
     u_l_to_pc := l / pc_to_m cc; u_t_to_yr := t / yr_to_s cc; u_m_to_sol := m / msun_to_kg cc; u_v_to_kmps := v / 10 ^ 3; u_e_to_erg := e / erg; u_power_to_ergps := pw / erg;
     k_gravity := c_gravity cc / g; k_m_sun := msun_to_kg cc / m; k_light_speed := c_light cc / v; k_m_p := c_proton cc / m; k_h_planck := h_planck / am |}.
(** unit_system.py:171-181. *)
Definition create_for_cosmology (hubble : R) : usys := unit_system (mpc_to_m cc / hubble) (gyr_to_s cc / hubble) (msun_to_kg cc * 10 ^ 10 / hubble).

(** ** astropy.cosmology.FlatLambdaCDM(H0, Om0, Tcmb0, Neff, Ob0) *)
(** astropy.cosmology.FlatLambdaCDM as model.py:18-37 builds it: its parameters. *)
Record apy := { a_h : R; a_om0 : R; a_tcmb : R; a_neff : R; a_ob0 : R }.
(** model.py:116-118: H0 in 1/s, from a_h * 100 km/s/Mpc. *)
Definition a_H0 (p : apy) : R := a_h p * 100 * (10 ^ 3 / mpc_to_m cc).
(** astropy.cosmology.FlatLambdaCDM as model.py:18-37 builds it: critical density today (model.py:153-158). *)
Definition a_crit0 (p : apy) : R := 3 * a_H0 p ^ 2 / (8 * PI * c_gravity cc).
(** model.py:30-36: Photons and massless neutrinos: 4 sigma / c^3 T^4 (1 + 0.2271.. Neff) over the critical density. *)
Definition stefan : R := 5670374419 / 10 ^ 17.
(** astropy.cosmology.FlatLambdaCDM as model.py:18-37 builds it: radiation. *)
Definition a_or0 (p : apy) : R := 4 * stefan / c_light cc ^ 3 * a_tcmb p ^ 4 / a_crit0 p * (1 + 22710731766 / 10 ^ 11 * a_neff p).
(** astropy.cosmology.FlatLambdaCDM as model.py:18-37 builds it: dark energy. *)
Definition a_ode0 (p : apy) : R := 1 - a_om0 p - a_or0 p.
(** astropy.cosmology.FlatLambdaCDM as model.py:18-37 builds it: E(z)^2. *)
Definition a_E2 (p : apy) (z : R) : R := a_om0 p * (1 + z) ^ 3 + a_or0 p * (1 + z) ^ 4 + a_ode0 p.
(** astropy.cosmology.FlatLambdaCDM as model.py:18-37 builds it: E(z). *)
Definition a_E (p : apy) (z : R) : R := sqrt (a_E2 p z).
(** model.py:116-118, astropy H(z). *)
Definition a_H (p : apy) (z : R) : R := a_H0 p * a_E p z.
(** model.py:124-125, astropy Om(z). *)
Definition a_Om (p : apy) (z : R) : R := a_om0 p * (1 + z) ^ 3 / a_E2 p z.
(** model.py:138-139, astropy Ob(z). *)
Definition a_Ob (p : apy) (z : R) : R := a_ob0 p * (1 + z) ^ 3 / a_E2 p z.
(** model.py:131-132, astropy Ode(z). *)
Definition a_Ode (p : apy) (z : R) : R := a_ode0 p / a_E2 p z.
(** model.py:153-158, astropy critical_density(z). *)
Definition a_crit (p : apy) (z : R) : R := a_crit0 p * a_E2 p z.
(** model.py:169-174, 199-236: Distances in metres, times in seconds.  The age's integral over [z, infinity) of dz/((1+z)E) is written in a = 1/(1+z). *)
Definition a_comoving (p : apy) (z : R) : R := c_light cc / a_H0 p * RInt (fun t => / a_E p t) 0 z.
(** model.py:206-211, astropy. *)
Definition a_angular (p : apy) (z : R) : R := a_comoving p z / (1 + z).
(** model.py:213-218, astropy. *)
Definition a_luminosity (p : apy) (z : R) : R := (1 + z) * a_comoving p z.
(** Decimal logarithm (model.py:220-222). *)
Definition lg (x : R) : R := ln x / ln 10.
(** model.py:220-222, astropy distmod. *)
Definition a_distmod (p : apy) (z : R) : R := 5 * lg (Rabs (a_luminosity p z / mpc_to_m cc)) + 25.
(** model.py:231-236, astropy. *)
Definition a_lookback (p : apy) (z : R) : R := / a_H0 p * RInt (fun t => / ((1 + t) * a_E p t)) 0 z.
(** model.py:169-174, astropy. *)
Definition age_integrand (p : apy) (a : R) : R := a / sqrt (a_om0 p * a + a_or0 p + a_ode0 p * a ^ 4).
(** model.py:169-174, astropy. *)
Definition a_age (p : apy) (z : R) : R := / a_H0 p * RInt (age_integrand p) 0 (1 / (1 + z)).

(** ** model.py:17-37 LambdaCDM.__init__.  Parameters are objects that can be written later (param.py, abc.py:123-124): [live] holds
    the present values, [fixed] what astropy and the unit system were built with. *)
(** abc.py:123-124, as above. *)
Record lcdm := { live : list (string * R); fixed : apy; us_of : usys; l_name : string }.
(** param.py:25-28, a missing name is a KeyError. *)
Definition param_of (d : list (string * R)) (k : string) : result R := match od_get String.eqb d k with Some v => Ok v | None => Err KeyError end.
(** model.py:30-36: The arguments astropy refuses. *)
Definition refused (om0 ob0 : R) : bool := if Rlt_dec om0 0 then true else if Rlt_dec ob0 0 then true else if Rlt_dec om0 ob0 then true else false.
(** model.py:30-36, astropy. *)
Definition neff_default : R := 304 / 100.
(** model.py:18-37 [__init__]. *)
Definition lambda_cdm (params : list (string * R)) (name : string) : result lcdm :=
  bind (param_of params "hubble") (fun h => bind (param_of params "omega_m0") (fun om => bind (param_of params "t_cmb") (fun t => bind (param_of params "omega_b0") (fun ob =>
  if refused om ob then Err ValueError
  else Ok {| live := params; fixed := {| a_h := h; a_om0 := om; a_tcmb := t; a_neff := neff_default; a_ob0 := ob |}; us_of := create_for_cosmology h; l_name := name |})))).
(** model.py:58-84 from_parameters (a dictionary has no key twice: ParamList keeps one parameter per name, see ParamModel). *)
Definition from_parameters (params : list (string * R)) (name : option string) : result lcdm :=
  lambda_cdm params (match name with Some n => n | None => "" end).
(** model.py:86-98 from_astropy_model *)
Definition from_astropy_model (p : apy) (name : option string) : result lcdm :=
  from_parameters [("hubble", a_h p); ("omega_m0", a_om0 p); ("omega_l0", a_ode0 p); ("omega_b0", a_ob0 p); ("t_cmb", a_tcmb p)] name.
(** model.py:39-56 from_conf_file: the file's dictionary; what is not recognised becomes the meta data. *)
Inductive jv := JNum (x : R) | JStr (s : string) | JMap (m : list (string * R)).
(** model.py:39-56. *)
Definition ends_with_json (f : string) : bool := let n := String.length f in Nat.leb 5 n && String.eqb (substring (n - 5) 5 f) ".json".
(** model.py:39-56 (a name that is not a string is accepted by the code and not modelled). *)
Definition from_conf_file (file : string) (conf : list (string * jv)) : result (lcdm * list (string * jv)) :=
  if negb (ends_with_json file) then Err AssertionError else
  match od_get String.eqb conf "parameters" with
  | Some (JMap ps) => match od_get String.eqb conf "name" with
      | Some (JStr n) => match od_get String.eqb conf "data_dir" with
          | Some (JStr _) => rmap (fun m => (m, od_del String.eqb (od_del String.eqb (od_del String.eqb conf "parameters") "name") "data_dir")) (lambda_cdm ps n)
          | Some _ => Err TypeError | None => Err KeyError end
      | Some _ => Err TypeError | None => Err KeyError end
  | Some _ => Err AttributeError | None => Err KeyError end.
(** core/abc.py:125-126: A parameter's value is written: model.params[k].set_value(v). *)
Definition set_param (m : lcdm) (k : string) (v : R) : lcdm := {| live := od_set String.eqb (live m) k v; fixed := fixed m; us_of := us_of m; l_name := l_name m |}.

(** model.py:108-151: the properties *)
Definition get (m : lcdm) (k : string) : result R := param_of (live m) k.
(** model.py:18-37. *)
Definition big_hubble0_attr : R := 1022712165045695 / 10 ^ 16.
(** model.py:116-118. *)
Definition big_hubble (m : lcdm) (z : R) : R := a_H (fixed m) z / u_H (us_of m).
(** model.py:124-125. *)
Definition omega_m (m : lcdm) (z : R) : R := a_Om (fixed m) z.
(** model.py:131-132. *)
Definition omega_l (m : lcdm) (z : R) : R := a_Ode (fixed m) z.
(** model.py:138-139. *)
Definition omega_b (m : lcdm) (z : R) : R := a_Ob (fixed m) z.
(** model.py:153-158. *)
Definition rho_crit (m : lcdm) (z : R) : R := a_crit (fixed m) z / u_rho (us_of m).
(** model.py:160-167. *)
Definition rho_matter (m : lcdm) (z : R) : R := rho_crit m z * omega_m m z.
(** model.py:169-174. *)
Definition age (m : lcdm) (z : R) : R := a_age (fixed m) z / u_t (us_of m).
(** model.py:193-222 DistanceCalculator, TimeCalculator: [hubble] is the parameter's value object, so it is read live. *)
Definition comoving_at (m : lcdm) (z : R) : result R := rmap (fun h => a_comoving (fixed m) z / mpc_to_m cc * h) (get m "hubble").
(** model.py:206-211. *)
Definition angular_diameter_at (m : lcdm) (z : R) : result R := rmap (fun h => a_angular (fixed m) z / mpc_to_m cc * h) (get m "hubble").
(** model.py:213-218. *)
Definition luminosity_at (m : lcdm) (z : R) : result R := rmap (fun h => a_luminosity (fixed m) z / mpc_to_m cc * h) (get m "hubble").
(** model.py:220-222. *)
Definition distance_modulus_at (m : lcdm) (z : R) : R := a_distmod (fixed m) z.
(** model.py:231-236. *)
Definition lookback_at (m : lcdm) (z : R) : result R := rmap (fun h => a_lookback (fixed m) z / gyr_to_s cc * h) (get m "hubble").
(** model.py:239-250: RedshiftCalculator.at_comoving: astropy's z_at_value with its default bracket looks for a z in [1e-8, 1000] at which the
    function takes the value; [at_comoving m d z]: such a z is a possible answer. *)
Definition at_comoving (m : lcdm) (d z : R) : Prop :=
  exists h, get m "hubble" = Ok h /\ 1 / 10 ^ 8 <= z <= 1000 /\ a_comoving (fixed m) z = Rmax d (1 / 10 ^ 4) / h * mpc_to_m cc.
(** halo_theory.py uses the model through these (HaloModel.model). *)
Definition halo_model (m : lcdm) : HaloModel.model :=
  {| HaloModel.rho_crit := rho_crit m; om := omega_m m; G := k_gravity (us_of m); v_to_kmps := u_v_to_kmps (us_of m) |}.

(** ** Vocabulary of the theorems *)
(** Vocabulary of the theorems about model.py: A cosmology with some matter, radiation, and no more than the critical density. *)
Definition sane (p : apy) : Prop := 0 < a_h p /\ 0 < a_om0 p /\ 0 <= a_ob0 p <= a_om0 p /\ 0 <= a_or0 p /\ a_om0 p + a_or0 p <= 1.
