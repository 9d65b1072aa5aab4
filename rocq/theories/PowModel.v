(** Model of /repo/src/pyhipp/astro/cosmology/power_spectrum.py over the real numbers.  scipy's quad is the exact Riemann
    integral (Coquelicot's RInt) and float powers of positive numbers are real powers; rounding and quadrature errors are
    not modelled.  Powers of zero with a negative exponent (only met at k = 0) are not modelled: the theorems take k > 0. *)
From Coq Require Import Reals.
From Coquelicot Require Import Coquelicot.
From Verif Require Import Base CosmModel.
Local Open Scope R_scope.

(** ** power_spectrum.py:530-564 _GrowthFactorCarroll92 *)
(** power_spectrum.py:530-564, as above. *)
Definition growth_raw (c : cosm) (norm z : R) : R :=
  let om := omega_m c z in let ol := omega_l c z in
  norm * (5 / 2) * om / (1 + z) / (npow om (4 / 7) - ol + (1 + om / 2) * (1 + ol / 70)).
(** power_spectrum.py:548-561. *)
Definition growth (c : cosm) (z : R) : R := growth_raw c (1 / growth_raw c 1 0) z.
(** power_spectrum.py:563-564. *)
Definition delta_crit (c : cosm) (z : R) : R := 1686 / 1000 / growth c z.

(** ** 568-729 _PowerSpectrumFlatLambdaCDMNR, for a transfer function [T] (of k in h/Mpc) *)
(** power_spectrum.py:620-629 _j1, window_func *)
Definition j1 (x : R) : R := if Rlt_dec x (1 / 100000) then 1 / 3 * x else (sin x - x * cos x) / (x * x).
(** power_spectrum.py:625-629. *)
Definition window (k r : R) : R := let x := k * r in if Rlt_dec x (1 / 100000) then 1 else 3 * j1 x / x.
(** power_spectrum.py:649-659 _sigma_sqr_integrand *)
Definition integrand (T : R -> R) (c : cosm) (r z ln_k : R) : R :=
  let k := exp ln_k in
  npow k (3 + n_spec c) * (1000 * T k * growth c z * window k r) ^ 2.
(** power_spectrum.py:661-673 sigma_sqr, with the current normalisation *)
Definition sigma_sqr_with (norm : R) (T : R -> R) (c : cosm) (r z : R) : R := RInt (integrand T c r z) (-23) 23 * norm.
(** power_spectrum.py:699-702 _normalize_tf, called with norm = 1 in __init__ *)
Definition norm_of (T : R -> R) (c : cosm) : R := sigma_8 c ^ 2 / sigma_sqr_with 1 T c 8 0.
(** power_spectrum.py:661-673, after __init__ (607-618). *)
Definition sigma_sqr (T : R -> R) (c : cosm) (r z : R) : R := sigma_sqr_with (norm_of T c) T c r z.
(** power_spectrum.py:675-680 sigma_sqr_at_mass *)
Definition sigma_sqr_at_mass (T : R -> R) (c : cosm) (m z : R) : R := sigma_sqr T c (m_to_r c m) z.
(** power_spectrum.py:704-729 big_delta_sqr, power *)
Definition big_delta_sqr (T : R -> R) (c : cosm) (k z : R) : R := norm_of T c * npow k (3 + n_spec c) * (1000 * T k * growth c z) ^ 2.
(** power_spectrum.py:718-729. *)
Definition power (T : R -> R) (c : cosm) (k z : R) : R := norm_of T c * (2 * PI ^ 2 * npow k (n_spec c)) * (1000 * T k * growth c z) ^ 2.

(** ** power_spectrum.py:300-477 _TransferFunctionEH98 *)
(** power_spectrum.py:300-335, the attributes. *)
Record eh98 := { e_hubble : R; e_omhh : R; e_obhh : R; e_k_eq : R; e_sound : R; e_k_silk : R; e_alpha_c : R; e_beta_c : R; e_alpha_b : R; e_beta_b : R; e_beta_node : R }.
(** power_spectrum.py:337-429: set_cosmology: the attributes _transfer_function reads; nothing is stored if an argument is refused. *)
Definition eh98_set (s : eh98) (omega0 f_baryon hubble Tcmb : R) : eh98 * option exn :=
  if Rle_dec omega0 0 then (s, Some ValueError) else if Rle_dec f_baryon 0 then (s, Some ValueError)
  else if Rle_dec hubble 0 then (s, Some ValueError) else if Rle_dec Tcmb 0 then (s, Some ValueError) else
  let omhh := omega0 * (hubble * hubble) in let obhh := omhh * f_baryon in let theta := Tcmb / (27 / 10) in
  let z_eq := 25000 * omhh / theta ^ 4 in let k_eq := 746 / 10000 * omhh / theta ^ 2 in
  let b1 := 313 / 1000 * npow omhh (- (419 / 1000)) * (1 + 607 / 1000 * npow omhh (674 / 1000)) in
  let b2 := 238 / 1000 * npow omhh (223 / 1000) in
  let z_drag := 1291 * npow omhh (251 / 1000) / (1 + 659 / 1000 * npow omhh (828 / 1000)) * (1 + b1 * npow obhh b2) in
  let R_drag := 315 / 10 * obhh / theta ^ 4 * (1000 / (1 + z_drag)) in
  let R_eq := 315 / 10 * obhh / theta ^ 4 * (1000 / z_eq) in
  let sound := 2 / 3 / k_eq * sqrt (6 / R_eq) * ln ((sqrt (1 + R_drag) + sqrt (R_drag + R_eq)) / (1 + sqrt R_eq)) in
  let k_silk := 16 / 10 * npow obhh (52 / 100) * npow omhh (73 / 100) * (1 + npow (104 / 10 * omhh) (- (95 / 100))) in
  let a1 := npow (469 / 10 * omhh) (670 / 1000) * (1 + npow (321 / 10 * omhh) (- (532 / 1000))) in
  let a2 := npow (12 * omhh) (424 / 1000) * (1 + npow (45 * omhh) (- (582 / 1000))) in
  let alpha_c := npow a1 (- f_baryon) * npow a2 (- (f_baryon ^ 3)) in
  let bc1 := 944 / 1000 / (1 + npow (458 * omhh) (- (708 / 1000))) in
  let bc2 := npow (395 / 1000 * omhh) (- (266 / 10000)) in
  let beta_c := 1 / (1 + bc1 * (npow (1 - f_baryon) bc2 - 1)) in
  let y := z_eq / (1 + z_drag) in
  let G := y * (- (6) * sqrt (1 + y) + (2 + 3 * y) * ln ((sqrt (1 + y) + 1) / (sqrt (1 + y) - 1))) in
  let alpha_b := 207 / 100 * k_eq * sound * npow (1 + R_drag) (- (75 / 100)) * G in
  let beta_node := 841 / 100 * npow omhh (435 / 1000) in
  let beta_b := 1 / 2 + f_baryon + (3 - 2 * f_baryon) * sqrt ((172 / 10 * omhh) ^ 2 + 1) in
  ({| e_hubble := hubble; e_omhh := omhh; e_obhh := obhh; e_k_eq := k_eq; e_sound := sound; e_k_silk := k_silk; e_alpha_c := alpha_c; e_beta_c := beta_c;
      e_alpha_b := alpha_b; e_beta_b := beta_b; e_beta_node := beta_node |}, None).
(** power_spectrum.py:431-474 _transfer_function: full, baryonic, CDM. *)
Definition eh98_cdm (s : eh98) (k : R) : R :=
  let q := k / (1341 / 100) / e_k_eq s in let xx := k * e_sound s in
  let L := ln (2718282 / 1000000 + 18 / 10 * e_beta_c s * q) in
  let Ca := 142 / 10 / e_alpha_c s + 386 / (1 + 699 / 10 * npow q (108 / 100)) in
  let Cn := 142 / 10 + 386 / (1 + 699 / 10 * npow q (108 / 100)) in
  let f := 1 / (1 + (xx / (54 / 10)) ^ 4) in
  f * L / (L + Cn * q ^ 2) + (1 - f) * L / (L + Ca * q ^ 2).
(** power_spectrum.py:431-474. *)
Definition eh98_baryon (s : eh98) (k : R) : R :=
  let q := k / (1341 / 100) / e_k_eq s in let xx := k * e_sound s in
  let L := ln (2718282 / 1000000 + 18 / 10 * q) in
  let Cn := 142 / 10 + 386 / (1 + 699 / 10 * npow q (108 / 100)) in
  let xt := k * (e_sound s * npow (1 + (e_beta_node s / xx) ^ 3) (- (1 / 3))) in
  sin xt / xt * (L / (L + Cn * q ^ 2) / (1 + (xx / (52 / 10)) ^ 2) + e_alpha_b s / (1 + (e_beta_b s / xx) ^ 3) * exp (- npow (k / e_k_silk s) (14 / 10))).
(** power_spectrum.py:431-474. *)
Definition eh98_tf3 (s : eh98) (kk : R) : R * R * R :=
  let k := Rabs (kk * e_hubble s) in
  if Req_EM_T k 0 then (1, 1, 1)
  else let f := e_obhh s / e_omhh s in (f * eh98_baryon s k + (1 - f) * eh98_cdm s k, eh98_baryon s k, eh98_cdm s k).
(** power_spectrum.py:476-477. *)
Definition eh98_tf (s : eh98) (kk : R) : R := fst (fst (eh98_tf3 s kk)).
(** ** power_spectrum.py:42-297 _TransferFunctionEH99 *)
(** power_spectrum.py:42-106, the attributes. *)
Record eh99 := { g_alpha_gamma : R; g_beta_c : R; g_ndeg : R; g_f_cb : R; g_f_hdm : R; g_growth_k0 : R; g_hubble : R; g_omhh : R; g_p_cb : R; g_sound : R; g_theta : R }.
(** power_spectrum.py:131-150: the arguments refused *)
Definition eh99_check (omega_baryon omega_hdm hubble redshift : R) : option exn :=
  if Rlt_dec omega_baryon 0 then Some ValueError else if Rlt_dec omega_hdm 0 then Some ValueError
  else if Rle_dec hubble 0 then Some ValueError else if Rlt_dec 2 hubble then Some ValueError
  else if Rle_dec redshift (-1) then Some ValueError else if Rlt_dec 99 redshift then Some ValueError else None.
(** power_spectrum.py:108-244 set_cosmology: the attributes _transfer_function reads; [ndeg] already at least 1. *)
Definition eh99_params (omega_matter omega_baryon omega_hdm ndeg omega_lambda hubble redshift : R) : eh99 :=
  let theta := 2728 / 1000 / (27 / 10) in
  let ob := if Rle_dec omega_baryon 0 then 1 / 100000 else omega_baryon in
  let oh := if Rle_dec omega_hdm 0 then 1 / 100000 else omega_hdm in
  let h2 := hubble * hubble in let omega_curv := 1 - omega_matter - omega_lambda in
  let omhh := omega_matter * h2 in let obhh := ob * h2 in
  let f_baryon := ob / omega_matter in let f_hdm := oh / omega_matter in
  let f_cdm := 1 - f_baryon - f_hdm in let f_cb := f_cdm + f_baryon in let f_bnu := f_baryon + f_hdm in
  let z_eq := 25000 * omhh / (theta ^ 2) ^ 2 in
  let b1 := 313 / 1000 * npow omhh (- (419 / 1000)) * (1 + 607 / 1000 * npow omhh (674 / 1000)) in
  let b2 := 238 / 1000 * npow omhh (223 / 1000) in
  let z_drag := 1291 * npow omhh (251 / 1000) / (1 + 659 / 1000 * npow omhh (828 / 1000)) * (1 + b1 * npow obhh b2) in
  let y_drag := z_eq / (1 + z_drag) in
  let sound := 445 / 10 * ln (983 / 100 / omhh) / sqrt (1 + 10 * npow obhh (75 / 100)) in
  let p_c := 1 / 4 * (5 - sqrt (1 + 24 * f_cdm)) in let p_cb := 1 / 4 * (5 - sqrt (1 + 24 * f_cb)) in
  let denom := omega_lambda + (1 + redshift) ^ 2 * (omega_curv + omega_matter * (1 + redshift)) in
  let ol_z := omega_lambda / denom in let om_z := omega_matter * (1 + redshift) ^ 2 * (1 + redshift) / denom in
  let growth_k0 := z_eq / (1 + redshift) * (5 / 2) * om_z / (npow om_z (4 / 7) - ol_z + (1 + om_z / 2) * (1 + ol_z / 70)) in
  let alpha_nu := f_cdm / f_cb * (5 - 2 * (p_c + p_cb)) / (5 - 4 * p_cb) * npow (1 + y_drag) (p_cb - p_c) * (1 + f_bnu * (- (553 / 1000) + 126 / 1000 * f_bnu * f_bnu)) /
     (1 - 193 / 1000 * sqrt (f_hdm * ndeg) + 169 / 1000 * f_hdm * npow ndeg (2 / 10)) * (1 + (p_c - p_cb) / 2 * (1 + 1 / (3 - 4 * p_c) / (7 - 4 * p_cb)) / (1 + y_drag)) in
  {| g_alpha_gamma := sqrt alpha_nu; g_beta_c := 1 / (1 - 949 / 1000 * f_bnu); g_ndeg := ndeg; g_f_cb := f_cb; g_f_hdm := f_hdm; g_growth_k0 := growth_k0;
     g_hubble := hubble; g_omhh := omhh; g_p_cb := p_cb; g_sound := sound; g_theta := theta |}.
(** power_spectrum.py:249-297 _transfer_function: (CDM + baryons, CDM + baryons + neutrinos). *)
Definition eh99_tf2 (s : eh99) (kk : R) : R * R :=
  let k := kk * g_hubble s in
  let qq := k / g_omhh s * (g_theta s) ^ 2 in
  let y_fs := 172 / 10 * g_f_hdm s * (1 + 488 / 1000 * npow (g_f_hdm s) (- (7 / 6))) * (g_ndeg s * qq / g_f_hdm s) ^ 2 in
  let temp1 := npow (g_growth_k0 s) (1 - g_p_cb s) in
  let temp2 := npow (g_growth_k0 s / (1 + y_fs)) (7 / 10) in
  let growth_cb := npow (1 + temp2) (g_p_cb s / (7 / 10)) * temp1 in
  let growth_cbnu := npow (npow (g_f_cb s) (7 / 10 / g_p_cb s) + temp2) (g_p_cb s / (7 / 10)) * temp1 in
  let gamma_eff := g_omhh s * (g_alpha_gamma s + (1 - g_alpha_gamma s) / (1 + (k * g_sound s * (43 / 100)) ^ 4)) in
  let qq_eff := qq * g_omhh s / gamma_eff in
  let L := ln (271828 / 100000 + 184 / 100 * g_beta_c s * g_alpha_gamma s * qq_eff) in
  let C := 144 / 10 + 325 / (1 + 605 / 10 * npow qq_eff (111 / 100)) in
  let tf_sup := L / (L + C * qq_eff ^ 2) in
  let qq_nu := 392 / 100 * qq * sqrt (g_ndeg s / g_f_hdm s) in
  let corr := 1 + 12 / 10 * npow (g_f_hdm s) (64 / 100) * npow (g_ndeg s) (3 / 10 + 6 / 10 * g_f_hdm s) / (npow qq_nu (- (16 / 10)) + npow qq_nu (8 / 10)) in
  let master := tf_sup * corr in
  (master * growth_cb / g_growth_k0 s, master * growth_cbnu / g_growth_k0 s).
(** power_spectrum.py:294-297. *)
Definition eh99_tf (s : eh99) (with_neutrino : bool) (kk : R) : R := if with_neutrino then snd (eh99_tf2 s kk) else fst (eh99_tf2 s kk).
(** power_spectrum.py:480-517 _TransferFunctionFlatLambdaCDMNR: does the constructor raise, and the function itself (redshift 0, no neutrinos). *)
Definition variant_check (c : cosm) (with_baryon : bool) : option exn :=
  if with_baryon then (if Rle_dec (omega_m0 c) 0 then Some ValueError else if Rle_dec (baryon_fraction c) 0 then Some ValueError else if Rle_dec (hubble c) 0 then Some ValueError else None)
  else eh99_check (omega_b0 c) 0 (hubble c) 0.
(** power_spectrum.py:496-510. *)
Definition nr_eh99 (c : cosm) : eh99 := eh99_params (omega_m0 c) (omega_b0 c) 0 1 (omega_l0 c) (hubble c) 0.
(** power_spectrum.py:334-335, before set_cosmology. *)
Definition eh98_0 : eh98 := {| e_hubble := 0; e_omhh := 0; e_obhh := 0; e_k_eq := 0; e_sound := 0; e_k_silk := 0; e_alpha_c := 0; e_beta_c := 0; e_alpha_b := 0; e_beta_b := 0; e_beta_node := 0 |}.
(** power_spectrum.py:496-510. *)
Definition nr_eh98 (c : cosm) : eh98 := fst (eh98_set eh98_0 (omega_m0 c) (baryon_fraction c) (hubble c) (2728 / 1000)).
(** power_spectrum.py:512-517. *)
Definition nr_tf (c : cosm) (with_baryon : bool) (k : R) : R := if with_baryon then eh98_tf (nr_eh98 c) k else eh99_tf (nr_eh99 c) false k.

(** ** Vocabulary of the theorems (not in the code) *)
(** Vocabulary of the theorems about power_spectrum.py: The parameters the library uses: at least 1/1000 of matter, at most half of it baryons. *)
Definition sane (c : cosm) : Prop := 1 / 1000 <= omega_m0 c <= 1 /\ 0 <= omega_b0 c <= omega_m0 c / 2 /\ 0 < hubble c <= 2.
(** Vocabulary of the theorems about power_spectrum.py: The same cosmology with another sigma_8. *)
Definition with_sigma_8 (c : cosm) (s : R) : cosm := {| hubble := hubble c; omega_m0 := omega_m0 c; omega_b0 := omega_b0 c; n_spec := n_spec c; sigma_8 := s |}.
