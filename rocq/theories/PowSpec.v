(** Reference for C56: the published fitting formulas that power_spectrum.py says it computes, written down from the publications (and their authors'
    public code where that differs): Carroll, Press & Turner 1992, eq. 29; Eisenstein & Hu 1998, eqs. 2-24; Eisenstein & Hu 1999, eqs. 1-24.
    [w_m] = Omega_m h^2, [w_b] = Omega_b h^2, [th] = T_cmb / 2.7 K, [k] in 1/Mpc.  [x ** y] is the real power. *)
From Coq Require Import Reals.
From Verif Require Import Base CosmModel.
Local Open Scope R_scope.

(** The power of a positive number. *)
Local Notation "x ** y" := (Rpower x y) (at level 30, right associativity).

(** ** Carroll, Press & Turner 1992: growth suppression g, for density parameters at the redshift in question. *)
Definition cpt92_g (om ol : R) : R := 5 / 2 * om / (om ** (4 / 7) - ol + (1 + om / 2) * (1 + ol / 70)).

(** ** Eisenstein & Hu 1998 *)
Definition z_eq (w_m th : R) : R := 25000 * w_m / th ^ 4.                                                       (* eq. 2 *)
Definition k_eq (w_m th : R) : R := (746 / 10000) * w_m / th ^ 2.                                               (* eq. 3 *)
Definition z_d (w_m w_b : R) : R :=                                                                             (* eq. 4 *)
  let b1 := (313 / 1000) * w_m ** (- (419 / 1000)) * (1 + (607 / 1000) * w_m ** (674 / 1000)) in
  let b2 := (238 / 1000) * w_m ** (223 / 1000) in
  1291 * w_m ** (251 / 1000) / (1 + (659 / 1000) * w_m ** (828 / 1000)) * (1 + b1 * w_b ** b2).
Definition R_at (w_b th z : R) : R := (315 / 10) * w_b / th ^ 4 * (1000 / z).                                   (* eq. 5 *)
Definition sound_horizon (w_m w_b th : R) : R :=                                                                (* eq. 6; R_d at 1 + z_d, as in the authors' code *)
  let R_eq := R_at w_b th (z_eq w_m th) in let R_d := R_at w_b th (1 + z_d w_m w_b) in
  2 / 3 / k_eq w_m th * sqrt (6 / R_eq) * ln ((sqrt (1 + R_d) + sqrt (R_d + R_eq)) / (1 + sqrt R_eq)).
Definition k_silk (w_m w_b : R) : R := (16 / 10) * w_b ** (52 / 100) * w_m ** (73 / 100) * (1 + (104 / 10 * w_m) ** (- (95 / 100))).   (* eq. 7 *)
Definition eh_alpha_c (w_m f_b : R) : R :=                                                                      (* eq. 11 *)
  let a1 := (469 / 10 * w_m) ** (670 / 1000) * (1 + (321 / 10 * w_m) ** (- (532 / 1000))) in
  let a2 := (12 * w_m) ** (424 / 1000) * (1 + (45 * w_m) ** (- (582 / 1000))) in
  a1 ** (- f_b) * a2 ** (- f_b ^ 3).
Definition eh_beta_c (w_m f_b : R) : R :=                                                                       (* eq. 12 *)
  let b1 := (944 / 1000) / (1 + (458 * w_m) ** (- (708 / 1000))) in let b2 := (395 / 1000 * w_m) ** (- (266 / 10000)) in
  1 / (1 + b1 * ((1 - f_b) ** b2 - 1)).
Definition eh_G (y : R) : R := y * (- 6 * sqrt (1 + y) + (2 + 3 * y) * ln ((sqrt (1 + y) + 1) / (sqrt (1 + y) - 1))).   (* eq. 15 *)
Definition eh_alpha_b (w_m w_b th : R) : R :=                                                                   (* eq. 14 *)
  (207 / 100) * k_eq w_m th * sound_horizon w_m w_b th * (1 + R_at w_b th (1 + z_d w_m w_b)) ** (- (75 / 100)) * eh_G (z_eq w_m th / (1 + z_d w_m w_b)).
Definition eh_beta_node (w_m : R) : R := (841 / 100) * w_m ** (435 / 1000).                                     (* eq. 23 *)
Definition eh_beta_b (w_m f_b : R) : R := 1 / 2 + f_b + (3 - 2 * f_b) * sqrt ((172 / 10 * w_m) ^ 2 + 1).        (* eq. 24 *)
Definition T0 (q alpha beta : R) : R :=                                                                         (* eqs. 19-20 *)
  let L := ln (2718282 / 1000000 + 18 / 10 * beta * q) in let C := 142 / 10 / alpha + 386 / (1 + 699 / 10 * q ** (108 / 100)) in L / (L + C * q ^ 2).
Definition T_c (w_m w_b f_b th k : R) : R :=                                                                    (* eqs. 10, 17, 18 *)
  let q := k / (1341 / 100) / k_eq w_m th in let f := 1 / (1 + (k * sound_horizon w_m w_b th / (54 / 10)) ^ 4) in
  f * T0 q 1 (eh_beta_c w_m f_b) + (1 - f) * T0 q (eh_alpha_c w_m f_b) (eh_beta_c w_m f_b).
Definition T_b (w_m w_b f_b th k : R) : R :=                                                                    (* eqs. 21, 22 *)
  let q := k / (1341 / 100) / k_eq w_m th in let s := sound_horizon w_m w_b th in
  let st := s * (1 + (eh_beta_node w_m / (k * s)) ^ 3) ** (- (1 / 3)) in
  sin (k * st) / (k * st) *
    (T0 q 1 1 / (1 + (k * s / (52 / 10)) ^ 2) + eh_alpha_b w_m w_b th / (1 + (eh_beta_b w_m f_b / (k * s)) ^ 3) * exp (- (k / k_silk w_m w_b) ** (14 / 10))).
(** eqs. 16 and 8; [kk] in h/Mpc, [T] in K *)
Definition EH98 (om f_b h T kk : R) : R :=
  let w_m := om * h ^ 2 in let w_b := f_b * w_m in let th := T / (27 / 10) in
  f_b * T_b w_m w_b f_b th (kk * h) + (1 - f_b) * T_c w_m w_b f_b th (kk * h).

(** ** Eisenstein & Hu 1999, CDM + baryon (weighted), [n_nu] degenerate neutrinos; theta for 2.728 K.  Fractions of the matter density:
    [f_c] cold, [f_b] baryons, [f_nu] neutrinos. *)
Definition sound_fit (w_m w_b : R) : R := (445 / 10) * ln (983 / 100 / w_m) / sqrt (1 + 10 * w_b ** (75 / 100)).        (* eq. 4 *)
Definition p_of (f : R) : R := 1 / 4 * (5 - sqrt (1 + 24 * f)).                                                 (* eq. 14 *)
Definition alpha_nu (f_c f_b f_nu n_nu y_d : R) : R :=                                                          (* eq. 15 *)
  let f_cb := f_c + f_b in let f_nb := f_b + f_nu in let p_c := p_of f_c in let p_cb := p_of f_cb in
  f_c / f_cb * (5 - 2 * (p_c + p_cb)) / (5 - 4 * p_cb) * (1 - 553 / 1000 * f_nb + 126 / 1000 * f_nb ^ 3) /
   (1 - 193 / 1000 * sqrt (f_nu * n_nu) + 169 / 1000 * f_nu * n_nu ** (2 / 10)) * (1 + y_d) ** (p_cb - p_c) *
   (1 + (p_c - p_cb) / 2 * (1 + 1 / ((3 - 4 * p_c) * (7 - 4 * p_cb))) / (1 + y_d)).
Definition beta_nb (f_nb : R) : R := 1 / (1 - 949 / 1000 * f_nb).                                               (* eq. 21 *)
Definition y_free (f_nu n_nu q : R) : R := 172 / 10 * f_nu * (1 + 488 / 1000 * f_nu ** (- (7 / 6))) * (q * n_nu / f_nu) ^ 2.     (* eq. 14 *)
Definition D_cb (D1 p_cb yfs : R) : R := (1 + (D1 / (1 + yfs)) ** (7 / 10)) ** (p_cb / (7 / 10)) * D1 ** (1 - p_cb).           (* eq. 12 *)
Definition D_cbnu (D1 p_cb f_cb yfs : R) : R :=                                                                 (* eq. 13 *)
  (f_cb ** (7 / 10 / p_cb) + (D1 / (1 + yfs)) ** (7 / 10)) ** (p_cb / (7 / 10)) * D1 ** (1 - p_cb).
Definition T_master (w_m w_b f_c f_b f_nu n_nu th y_d k : R) : R :=                                             (* eqs. 5, 16-20, 22-24 *)
  let q := k / w_m * th ^ 2 in let ag := sqrt (alpha_nu f_c f_b f_nu n_nu y_d) in
  let Gamma := w_m * (ag + (1 - ag) / (1 + (k * sound_fit w_m w_b * (43 / 100)) ^ 4)) in
  let qe := q * w_m / Gamma in let L := ln (271828 / 100000 + 184 / 100 * beta_nb (f_b + f_nu) * ag * qe) in
  let C := 144 / 10 + 325 / (1 + 605 / 10 * qe ** (111 / 100)) in let qn := 392 / 100 * q * sqrt (n_nu / f_nu) in
  L / (L + C * qe ^ 2) * (1 + 12 / 10 * f_nu ** (64 / 100) * n_nu ** (3 / 10 + 6 / 10 * f_nu) / (qn ** (- (16 / 10)) + qn ** (8 / 10))).
(** eqs. 6, 7, 9-11 at redshift [z], [kk] in h/Mpc; of the cold matter and baryons or, with [nu], of all matter. *)
Definition EH99 (nu : bool) (om ob onu n_nu ol h z kk : R) : R :=
  let w_m := om * h ^ 2 in let w_b := ob * h ^ 2 in let th := 2728 / 1000 / (27 / 10) in
  let f_b := ob / om in let f_nu := onu / om in let f_c := 1 - f_b - f_nu in let f_cb := f_c + f_b in
  let y_d := z_eq w_m th / (1 + z_d w_m w_b) in
  let E2 := ol + (1 + z) ^ 2 * (1 - om - ol + om * (1 + z)) in
  let D1 := z_eq w_m th / (1 + z) * cpt92_g (om * (1 + z) ^ 3 / E2) (ol / E2) in
  let k := kk * h in let yfs := y_free f_nu n_nu (k / w_m * th ^ 2) in
  T_master w_m w_b f_c f_b f_nu n_nu th y_d k * (if nu then D_cbnu D1 (p_of f_cb) f_cb yfs else D_cb D1 (p_of f_cb) yfs) / D1.
(** The quantity under the square root in Gamma_eff, eq. 15 at these parameters. *)
Definition EH99_alpha (om ob onu n_nu h : R) : R :=
  let w_m := om * h ^ 2 in alpha_nu (1 - ob / om - onu / om) (ob / om) (onu / om) n_nu (z_eq w_m (2728 / 1000 / (27 / 10)) / (1 + z_d w_m (ob * h ^ 2))).
