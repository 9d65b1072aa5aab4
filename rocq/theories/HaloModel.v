(** Model of /repo/src/pyhipp/astro/cosmology/halo_theory.py over the real numbers.  The astropy cosmology is a parameter: its
    physical critical density and matter fraction as functions of redshift (model.py:153-167), and the gravitational constant in
    the model's units.  Rounding is not modelled. *)
From Coq Require Import Reals.
From Verif Require Import Base CosmModel LinModel.
Local Open Scope string_scope. Local Open Scope list_scope. Local Open Scope R_scope.

(** The LambdaCDM object (model.py:17-190) as far as halo_theory.py uses it. *)
Record model := { rho_crit : R -> R; om : R -> R; G : R; v_to_kmps : R }.
(** model.py:160-167 rho_matter *)
Definition rho_matter (m : model) (z : R) : R := rho_crit m z * om m z.
(** halo_theory.py:94-110 rho_vir_mean, rho_vir_crit (comoving) *)
Definition rho_vir_mean (m : model) (f z : R) : R := let a := 1 / (1 + z) in f * (rho_matter m z * a ^ 3).
(** halo_theory.py:103-110. *)
Definition rho_vir_crit (m : model) (f z : R) : R := let a := 1 / (1 + z) in f * (rho_crit m z * a ^ 3).
(** halo_theory.py:124-130 r_vir; 132-140 v_vir *)
Definition r_vir (m_vir rho : R) : R := npow (m_vir / rho / (4 / 3 * PI)) (1 / 3).
(** halo_theory.py:132-140. *)
Definition v_vir (m : model) (m_vir r : R) (to_kmps : bool) : R := let v := sqrt (G m * m_vir / r) in if to_kmps then v * v_to_kmps m else v.
(** halo_theory.py:14-31 VirialProperties, 227-232 __vir_props *)
Record virial := { vp_m : R; vp_rho : R; vp_r : R; vp_r_phy : R; vp_v : R }.
(** halo_theory.py:227-232 [__vir_props]. *)
Definition vir_props (m : model) (m_vir rho z : R) : virial :=
  let r := r_vir m_vir rho in let a := 1 / (1 + z) in let r_phy := a * r in
  {| vp_m := m_vir; vp_rho := rho; vp_r := r; vp_r_phy := r_phy; vp_v := v_vir m m_vir r_phy false |}.
(** halo_theory.py:28-31. *)
Definition t_dyn (p : virial) : R := vp_r_phy p / vp_v p.
(** halo_theory.py:112-122 vir_props_mean, vir_props_crit *)
Definition vir_props_mean (m : model) (m_vir f z : R) : virial := vir_props m m_vir (rho_vir_mean m f z) z.
(** halo_theory.py:118-122. *)
Definition vir_props_crit (m : model) (m_vir f z : R) : virial := vir_props m m_vir (rho_vir_crit m f z) z.

(** ** halo_theory.py:43-72 NFWProfileCalculator *)
(** halo_theory.py:49-51. *)
Definition mu (x : R) : R := ln (1 + x) - x / (1 + x).
(** halo_theory.py:53-57. *)
Definition c_to_v (c : R) : R := sqrt (216217 / 1000000 * c / mu c).
(** halo_theory.py:62-72: numpy.linspace(a, b, n) *)
Definition linspace (a b : R) (n : nat) : list R := map (fun i => match n with 1%nat => a | _ => a + INR i * ((b - a) / INR (n - 1)) end) (seq 0 n).
(** halo_theory.py:62-72, the nodes. *)
Definition c_nodes (n : nat) : list R := linspace (21626 / 10000) 50 n ++ linspace 51 100 n ++ linspace 101 1000 n.
(** halo_theory.py:59-72: v_max2vir_to_c: the interpolator is built at the first use. *)
Definition v_to_c (n : nat) (v : R) : result R := bind (interp1d (map c_to_v (c_nodes n)) (c_nodes n) false) (fun f => f v).

(** ** 161-191 mass_function: the keywords handed to hmf.MassFunction.  Dictionaries are objects: [h] gives their contents, [impl_kw]
    is the one passed (the default argument is one object shared by all calls). *)
(** halo_theory.py:161-191, a dict; values are opaque codes. *)
Definition dict := list (string * nat).
(** halo_theory.py:161-191. *)
Definition kw_own (lo hi d z : nat) : dict := [("Mmin", lo); ("Mmax", hi); ("dlog10m", d); ("z", z)].
(** halo_theory.py:161-191, an in-place change of a dict. *)
Definition set_heap (h : nat -> dict) (a : nat) (d : dict) : nat -> dict := fun b => if Nat.eqb b a then d else h b.
(** halo_theory.py:161-191: Values are opaque codes: [so_crit], [so_mean], [od200] stand for 'SOCritical', 'SOMean' and {'overdensity': 200.0}; [lo], [hi], [d], [z] for
    lgM_min + 10, lgM_max + 10 + dlgM/1000, dlgM, z. *)
Definition so_crit : nat := 0%nat. Definition so_mean : nat := 1%nat. Definition od200 : nat := 2%nat.
(** halo_theory.py:161-191. *)
Definition mass_function_kw (h : nat -> dict) (impl_kw : nat) (mass_def : string) (lo hi d z : nat) : result dict * (nat -> dict) :=
  let own := kw_own lo hi d z in
  if String.eqb mass_def "200crit" then (Ok (od_update String.eqb (od_update String.eqb [("mdef_model", so_crit); ("mdef_params", od200)] (h impl_kw)) own), h)
  else if String.eqb mass_def "200mean" then (Ok (od_update String.eqb (od_update String.eqb [("mdef_model", so_mean); ("mdef_params", od200)] (h impl_kw)) own), h)
  else if String.eqb mass_def "custom" then let d' := od_update String.eqb (h impl_kw) own in (Ok d', set_heap h impl_kw d')
  else (Err ValueError, h).
