(** C75: the LambdaCDM model and its unit system. *)
From Coq Require Import Reals Ranalysis5 Lra Lia Psatz.
From Coquelicot Require Import Coquelicot.
From Verif Require Import Base CosmModel HaloModel HaloProps LcdmModel LcdmProofs.
Local Open Scope string_scope. Local Open Scope list_scope. Local Open Scope R_scope.

Lemma Ok_inj {A} (a b : A) : Ok a = Ok b -> a = b.
Proof. congruence. Qed.
(** The literals: Planck's and Stefan's constants in SI units, and the radiation of a universe at 2.7255 K with three light neutrinos:
    4 sigma T^4 / c^3 of photons and 22.7% of it per neutrino, near 4.2e-5 / h^2 of the critical density. *)
Theorem C75_constants : h_planck = 6.62607015 / 10 ^ 34 /\ stefan = 5.670374419 / 10 ^ 8 /\ erg = 1 / 10 ^ 7 /\
  (forall p, a_crit0 p <> 0 -> a_or0 p * a_crit0 p * c_light cc ^ 3 = 4 * stefan * a_tcmb p ^ 4 * (1 + 0.22710731766 * a_neff p)) /\
  (forall p, 0 < a_h p -> a_tcmb p = 2.7255 -> a_neff p = 3.04 -> 3.9 / 10 ^ 5 < a_or0 p * a_h p ^ 2 < 5.4 / 10 ^ 5).
Proof.
  split; [unfold h_planck; lra|]. split; [unfold stefan; lra|]. split; [reflexivity|]. split.
  - intros p H. unfold a_or0. assert (c_light cc <> 0) by (cbn [cc c_light]; lra). replace 0.22710731766 with (22710731766 / 10 ^ 11) by lra. field. split; assumption.
  - intros p Hh Ht Hn. unfold a_or0, a_crit0, a_H0. rewrite Ht, Hn.
    assert (E : 4 * stefan / c_light cc ^ 3 * 2.7255 ^ 4 / (3 * (a_h p * 100 * (10 ^ 3 / mpc_to_m cc)) ^ 2 / (8 * PI * c_gravity cc)) * (1 + 22710731766 / 10 ^ 11 * 3.04) * a_h p ^ 2 =
      PI * (4 * stefan / c_light cc ^ 3 * 2.7255 ^ 4 * 8 * c_gravity cc * mpc_to_m cc ^ 2 / (3 * (100 * 10 ^ 3) ^ 2) * (1 + 22710731766 / 10 ^ 11 * 3.04))).
    { pose proof PI_RGT_0. assert (c_light cc <> 0) by (cbn [cc c_light]; lra). assert (c_gravity cc <> 0) by (cbn [cc c_gravity]; lra). assert (mpc_to_m cc <> 0) by (cbn [cc mpc_to_m]; lra).
      field. repeat split; lra. }
    rewrite E. clear E. set (K := 4 * stefan / _ * _ * 8 * _ * _ / _ * _).
    assert (B : 1.3 / 10 ^ 5 < K < 1.35 / 10 ^ 5) by (unfold K, stefan; cbn [cc c_light c_gravity mpc_to_m]; lra).
    pose proof PI2_3_2 as P3. pose proof PI_4 as P4. nra.
Qed.
Print Assumptions C75_constants.
(** ** Units *)
(** Physics is the same in every unit system: numbers computed with the system's constants, times the system's units, are the SI
    values (circular velocity, Schwarzschild radius, critical density, a photon's energy), and the conversion factors are the
    named units. *)
Theorem C75_units : forall l t m, 0 < l -> 0 < t -> 0 < m -> let u := unit_system l t m in
  (forall M r, 0 < M -> 0 < r -> sqrt (k_gravity u * (M / u_m u) / (r / u_l u)) * u_v u = sqrt (c_gravity cc * M / r)) /\
  (forall M, 2 * k_gravity u * (M / u_m u) / k_light_speed u ^ 2 * u_l u = 2 * c_gravity cc * M / c_light cc ^ 2) /\
  (forall H, 3 * (H / u_H u) ^ 2 / (8 * PI * k_gravity u) * u_rho u = 3 * H ^ 2 / (8 * PI * c_gravity cc)) /\
  (forall nu, k_h_planck u * (nu / u_H u) * u_e u = h_planck * nu) /\
  k_m_p u * k_light_speed u ^ 2 * u_e u = c_proton cc * c_light cc ^ 2 /\
  k_m_sun u * u_m_to_sol u = 1 /\ u_l_to_pc u * (mpc_to_m cc / 10 ^ 6) = u_l u /\ u_t_to_yr u * (gyr_to_s cc / 10 ^ 9) = u_t u /\ u_v_to_kmps u * 10 ^ 3 = u_v u /\
  u_e_to_erg u = u_e u * 10 ^ 7 /\ u_power_to_ergps u * u_t u = u_e_to_erg u.
Proof.
  intros l t m Hl Ht Hm u. pose proof PI_RGT_0 as P. pose proof G_pos as Gp. pose proof c_pos as Cp. pose proof msun_pos as Ms. pose proof mpc_pos as Mp. pose proof gyr_pos as Gy.
  unfold u, unit_system. cbv zeta. cbn [u_l u_t u_m u_v u_e u_power u_angular_momentum u_G u_rho u_H u_l_to_pc u_t_to_yr u_m_to_sol u_v_to_kmps u_e_to_erg u_power_to_ergps k_gravity k_m_sun k_light_speed k_m_p k_h_planck].
  split; [|repeat split; intros].
  - intros M r HM Hr. assert (LT : 0 < l / t) by (apply Rdiv_lt_0_compat; assumption). replace (l / t) with (sqrt ((l / t) ^ 2)) by (apply sqrt_pow2; lra).
    rewrite <- sqrt_mult_alt.
    + f_equal. field. repeat split; lra.
    + left. apply Rdiv_lt_0_compat; [|apply Rdiv_lt_0_compat; assumption]. apply Rmult_lt_0_compat; [|apply Rdiv_lt_0_compat; assumption]. apply Rdiv_lt_0_compat; [exact Gp|].
      apply Rdiv_lt_0_compat; [|exact Hm]. apply Rdiv_lt_0_compat; apply pow_lt; assumption.
  - field. repeat split; lra.
  - field. repeat split; lra.
  - field. repeat split; lra.
  - field. repeat split; lra.
  - field. repeat split; lra.
  - change (pc_to_m cc) with (mpc_to_m cc / 10 ^ 6). field. lra.
  - change (yr_to_s cc) with (gyr_to_s cc / 10 ^ 9). field. lra.
  - field. lra.
  - unfold erg. field. lra.
  - unfold erg. field. lra.
Qed.
Print Assumptions C75_units.
(** In the cosmological system the numbers do not depend on h: G, the speed of light and the velocity unit are the same for every
    h, lengths are Mpc/h, times Gyr/h, masses 1e10 Msun/h; G is 43.007 in Mpc (km/s)^2 / 1e10 Msun. *)
Theorem C75_cosmological_units : forall h, 0 < h -> let u := create_for_cosmology h in let u1 := create_for_cosmology 1 in
  k_gravity u = k_gravity u1 /\ k_light_speed u = k_light_speed u1 /\ u_v u = u_v u1 /\ u_v_to_kmps u = u_v_to_kmps u1 /\
  u_l_to_pc u * h = 10 ^ 6 /\ u_t_to_yr u * h = 10 ^ 9 /\ u_m_to_sol u * h = 10 ^ 10 /\ k_m_sun u = h / 10 ^ 10 /\
  4300 / 100 < k_gravity u * u_v_to_kmps u ^ 2 < 4301 / 100 /\ Rabs (k_light_speed u * u_v_to_kmps u - 299792458 / 1000) = 0.
Proof.
  intros h Hh u u1. pose proof G_pos as Gp. pose proof c_pos as Cp. pose proof msun_pos as Ms. pose proof mpc_pos as Mp. pose proof gyr_pos as Gy.
  assert (KG : k_gravity u * u_v_to_kmps u ^ 2 = c_gravity cc * (msun_to_kg cc * 10 ^ 10) / mpc_to_m cc / 10 ^ 6).
  { unfold u, create_for_cosmology, unit_system. cbv zeta. cbn [k_gravity u_v_to_kmps]. field. repeat split; lra. }
  split; [|split; [|split; [|split; [|split; [|split; [|split; [|split; [|split]]]]]]]].
  1-4, 7-8: unfold u, u1, create_for_cosmology, unit_system; cbv zeta; cbn [k_gravity k_light_speed u_v u_v_to_kmps u_m_to_sol k_m_sun]; field; repeat split; lra.
  - unfold u, create_for_cosmology, unit_system. cbv zeta. cbn [u_l_to_pc]. change (pc_to_m cc) with (mpc_to_m cc / 10 ^ 6). field. repeat split; lra.
  - unfold u, create_for_cosmology, unit_system. cbv zeta. cbn [u_t_to_yr]. change (yr_to_s cc) with (gyr_to_s cc / 10 ^ 9). field. repeat split; lra.
  - rewrite KG. cbn [cc c_gravity msun_to_kg mpc_to_m]. lra.
  - replace (k_light_speed u * u_v_to_kmps u) with (c_light cc / 10 ^ 3).
    + cbn [cc c_light]. rewrite <- Rabs_R0. f_equal. lra.
    + unfold u, create_for_cosmology, unit_system. cbv zeta. cbn [k_light_speed u_v_to_kmps]. field. repeat split; lra.
Qed.
Print Assumptions C75_cosmological_units.

(** ** Construction *)
Definition required : list string := ["hubble"; "omega_m0"; "t_cmb"; "omega_b0"].
(** Which dictionaries make a model, and the model they make. *)
Theorem C75_construction : forall params name, match from_parameters params name with
  | Ok m => exists h om t ob, od_get String.eqb params "hubble" = Some h /\ od_get String.eqb params "omega_m0" = Some om /\ od_get String.eqb params "t_cmb" = Some t /\ od_get String.eqb params "omega_b0" = Some ob /\
      0 <= ob <= om /\ live m = params /\ fixed m = {| a_h := h; a_om0 := om; a_tcmb := t; a_neff := 304 / 100; a_ob0 := ob |} /\ us_of m = create_for_cosmology h /\
      l_name m = match name with Some n => n | None => "" end /\ (forall k, get m k = match od_get String.eqb params k with Some v => Ok v | None => Err KeyError end)
  | Err KeyError => exists k, In k required /\ od_get String.eqb params k = None
  | Err ValueError => (forall k, In k required -> od_get String.eqb params k <> None) /\ forall om ob, od_get String.eqb params "omega_m0" = Some om -> od_get String.eqb params "omega_b0" = Some ob -> ~ (0 <= ob <= om)
  | Err _ => False end.
Proof.
  intros params name. unfold from_parameters, lambda_cdm, param_of.
  destruct (od_get String.eqb params "hubble") as [h|] eqn:E1; [|exists "hubble"; cbn; auto]. destruct (od_get String.eqb params "omega_m0") as [om|] eqn:E2; [|exists "omega_m0"; cbn; auto].
  destruct (od_get String.eqb params "t_cmb") as [t|] eqn:E3; [|exists "t_cmb"; cbn; auto]. destruct (od_get String.eqb params "omega_b0") as [ob|] eqn:E4; [|exists "omega_b0"; cbn; auto 6].
  cbn [bind]. unfold refused.
  assert (REQ : forall k, In k required -> od_get String.eqb params k <> None). { intros k [<-|[<-|[<-|[<-|[]]]]]; congruence. }
  destruct (Rlt_dec om 0); [split; [exact REQ|intros ? ? [= <-] [= <-]; lra]|]. destruct (Rlt_dec ob 0); [split; [exact REQ|intros ? ? [= <-] [= <-]; lra]|]. destruct (Rlt_dec om ob); [split; [exact REQ|intros ? ? [= <-] [= <-]; lra]|].
  exists h, om, t, ob. cbn [live fixed us_of l_name]. repeat split; auto; try lra.
Qed.
Print Assumptions C75_construction.
(** A configuration file's name must end in .json; everything but the three recognised entries becomes the meta data. *)
Theorem C75_conf_file : forall stem conf m meta, from_conf_file stem conf = Ok (m, meta) -> od_wf conf ->
  (exists s, stem = s ++ ".json")%string /\ od_get String.eqb conf "name" = Some (JStr (l_name m)) /\ od_get String.eqb conf "parameters" = Some (JMap (live m)) /\
  (forall k, od_get String.eqb meta k = if existsb (String.eqb k) ["parameters"; "name"; "data_dir"] then None else od_get String.eqb conf k).
Proof.
  intros stem conf m meta. unfold from_conf_file. destruct (ends_with_json stem) eqn:J; [|discriminate]. cbn [negb].
  destruct (od_get String.eqb conf "parameters") as [[|? |ps]|] eqn:P; try discriminate. destruct (od_get String.eqb conf "name") as [[|n |]|] eqn:N; try discriminate. destruct (od_get String.eqb conf "data_dir") as [[|d |]|] eqn:D; try discriminate.
  intros H W. destruct (lambda_cdm ps n) as [m'|] eqn:L; [|discriminate]. cbn [rmap] in H. injection H as <- <-. split; [|split; [|split]].
  - unfold ends_with_json in J. apply andb_prop in J. destruct J as [J1 J2]. apply Nat.leb_le in J1. apply String.eqb_eq in J2. exists (substring 0 (String.length stem - 5) stem).
    rewrite <- J2. clear -J1. remember (String.length stem - 5)%nat as a. assert (E : (a + 5 = String.length stem)%nat) by lia. clear Heqa J1.
    revert a E. induction stem as [|c s IH]; intros a E; [cbn in E; lia|]. destruct a as [|a]; cbn [substring append].
    + cbn in E. f_equal. clear IH. assert (L : String.length s = 4%nat) by lia. destruct s as [|c1 [|c2 [|c3 [|c4 [|? ?]]]]]; cbn in L; try lia. reflexivity.
    + f_equal. apply IH. cbn in E. lia.
  - unfold lambda_cdm in L. repeat (match type of L with bind ?x _ = _ => destruct x; [cbn [bind] in L|discriminate L] end). destruct (refused _ _); [discriminate|]. injection L as <-. reflexivity.
  - unfold lambda_cdm in L. repeat (match type of L with bind ?x _ = _ => destruct x; [cbn [bind] in L|discriminate L] end). destruct (refused _ _); [discriminate|]. injection L as <-. reflexivity.
  - intros k. pose proof String.eqb_spec as SE. assert (W1 : od_wf (od_del String.eqb conf "parameters")) by (apply (od_wf_del _ SE); exact W). assert (W2 : od_wf (od_del String.eqb (od_del String.eqb conf "parameters") "name")) by (apply (od_wf_del _ SE); exact W1).
    assert (GD : forall (d : list (string * jv)) a, od_wf d -> od_get String.eqb (od_del String.eqb d a) k = if String.eqb k a then None else od_get String.eqb d k) by (intros d' a Wd; destruct (String.eqb_spec k a) as [->|Na]; [apply (od_get_del_same _ SE), Wd|apply (od_get_del_other _ SE), Na]).
    rewrite !GD by assumption. cbn [existsb]. destruct (String.eqb k "data_dir"), (String.eqb k "name"), (String.eqb k "parameters"); reflexivity.
Qed.
Print Assumptions C75_conf_file.

Lemma ends_json_app (s : string) : ends_with_json (s ++ ".json") = true.
Proof.
  unfold ends_with_json. cbv zeta. assert (L : String.length (s ++ ".json") = (String.length s + 5)%nat) by (induction s as [|c s IH]; cbn; [reflexivity|rewrite IH; reflexivity]).
  rewrite L. replace (String.length s + 5 - 5)%nat with (String.length s) by lia. replace (Nat.leb 5 (String.length s + 5)) with true by (symmetry; apply Nat.leb_le; lia). cbn [andb]. apply String.eqb_eq. clear L.
  induction s as [|c s IH]; [reflexivity|]. cbn [String.length append substring]. exact IH.
Qed.
Lemma ends_json_inv (f : string) : ends_with_json f = true -> exists s, f = (s ++ ".json")%string.
Proof.
  intros J. unfold ends_with_json in J. apply andb_prop in J. destruct J as [J1 J2]. apply Nat.leb_le in J1. apply String.eqb_eq in J2. exists (substring 0 (String.length f - 5) f).
  rewrite <- J2. clear -J1. remember (String.length f - 5)%nat as a. assert (E : (a + 5 = String.length f)%nat) by lia. clear Heqa J1.
  revert a E. induction f as [|c s IH]; intros a E; [cbn in E; lia|]. destruct a as [|a]; cbn [substring append].
  + cbn in E. f_equal. clear IH. assert (L : String.length s = 4%nat) by lia. destruct s as [|c1 [|c2 [|c3 [|c4 [|? ?]]]]]; cbn in L; try lia. reflexivity.
  + f_equal. apply IH. cbn in E. lia.
Qed.
(** Which files are refused, and how: the name first, then the entries in the order parameters, name, data_dir. *)
Theorem C75_conf_file_errors : forall conf,
  (forall file, (forall s, file <> s ++ ".json")%string -> from_conf_file file conf = Err AssertionError) /\
  (forall s, let load := from_conf_file (s ++ ".json") conf in
    (od_get String.eqb conf "parameters" = None -> load = Err KeyError) /\
    (forall ps, od_get String.eqb conf "parameters" = Some (JMap ps) -> od_get String.eqb conf "name" = None -> load = Err KeyError) /\
    (forall ps n, od_get String.eqb conf "parameters" = Some (JMap ps) -> od_get String.eqb conf "name" = Some (JStr n) -> od_get String.eqb conf "data_dir" = None -> load = Err KeyError) /\
    (forall ps n x, od_get String.eqb conf "parameters" = Some (JMap ps) -> od_get String.eqb conf "name" = Some (JStr n) -> od_get String.eqb conf "data_dir" = Some (JNum x) -> load = Err TypeError) /\
    (forall ps n d, od_get String.eqb conf "parameters" = Some (JMap ps) -> od_get String.eqb conf "name" = Some (JStr n) -> od_get String.eqb conf "data_dir" = Some (JStr d) -> rmap fst load = lambda_cdm ps n)).
Proof.
  intros conf. split.
  - intros file H. unfold from_conf_file. destruct (ends_with_json file) eqn:E; [|reflexivity]. destruct (ends_json_inv _ E) as [s ->]. exfalso. exact (H s eq_refl).
  - intros s load. unfold load, from_conf_file. rewrite ends_json_app. cbn [negb]. split; [intros ->; reflexivity|]. split; [intros ps -> ->; reflexivity|]. split; [intros ps n -> -> ->; reflexivity|].
    split; [intros ps n x -> -> ->; reflexivity|]. intros ps n d -> -> ->. destruct (lambda_cdm ps n); reflexivity.
Qed.
Print Assumptions C75_conf_file_errors.

(** ** Background *)
Definition made (params : list (string * R)) (name : option string) (m : lcdm) : Prop := from_parameters params name = Ok m /\ sane (fixed m).
Lemma made_is params name m : made params name m -> exists h, get m "hubble" = Ok h /\ a_h (fixed m) = h /\ 0 < h /\ us_of m = create_for_cosmology h.
Proof.
  intros [F S]. pose proof (C75_construction params name) as C. rewrite F in C. destruct C as (h & om & t & ob & E1 & _ & _ & _ & _ & _ & E2 & E3 & _ & E4). exists h. rewrite E4, E1, E2. destruct S as (P & _). rewrite E2 in P. cbn in P |- *. auto.
Qed.
(** Matter, dark energy and baryons as fractions of the critical density; the Hubble rate and the densities obey Friedmann's equation
    in the model's own units; matter dilutes with (1+z)^3; today's rate is the constant [big_hubble0]. *)
Theorem C75_background : forall params name m, made params name m -> let om := a_om0 (fixed m) in let ob := a_ob0 (fixed m) in
  (forall z, -1 < z -> 0 < omega_m m z /\ 0 <= omega_l m z /\ omega_m m z + omega_l m z <= 1 /\ (a_tcmb (fixed m) = 0 -> omega_m m z + omega_l m z = 1) /\ omega_b m z = ob / om * omega_m m z /\ 0 <= omega_b m z <= omega_m m z /\
     0 < big_hubble m z /\ 0 < rho_crit m z /\ big_hubble m z ^ 2 = 8 * PI / 3 * k_gravity (us_of m) * rho_crit m z /\ rho_matter m z = rho_matter m 0 * (1 + z) ^ 3) /\
  omega_m m 0 = om /\ omega_b m 0 = ob /\ Rabs (big_hubble m 0 - big_hubble0_attr) < 1 / 10 ^ 16 /\ big_hubble0_attr = 0.1022712165045695 /\ (forall z z', -1 < z -> z < z' -> big_hubble m z < big_hubble m z').
Proof.
  intros params name m M om ob. destruct (made_is _ _ _ M) as (h & G1 & G2 & Hh & U). destruct M as [_ S]. pose proof S as S0. destruct S0 as (_ & Ho & Hb & Hr & Hs).
  pose proof G_pos as Gp. pose proof msun_pos as Ms. pose proof mpc_pos as Mp. pose proof gyr_pos as Gy. pose proof PI_RGT_0 as P.
  assert (UH : u_H (us_of m) = h / gyr_to_s cc) by (rewrite U; cbn [create_for_cosmology unit_system u_H]; unfold create_for_cosmology, unit_system; cbv zeta; cbn [u_H]; field; lra).
  assert (BH : forall z, big_hubble m z = 10 ^ 5 / mpc_to_m cc * gyr_to_s cc * a_E (fixed m) z). { intros z. unfold big_hubble, a_H, a_H0. rewrite UH, G2. field. lra. }
  assert (B1 : 0 < 10 ^ 5 / mpc_to_m cc * gyr_to_s cc) by (apply Rmult_lt_0_compat; [apply Rdiv_lt_0_compat; lra|lra]).
  assert (RHO : 0 < u_rho (us_of m)). { rewrite U. unfold create_for_cosmology, unit_system. cbv zeta. cbn [u_rho]. apply Rdiv_lt_0_compat; [apply Rdiv_lt_0_compat; lra|]. apply pow_lt, Rdiv_lt_0_compat; lra. }
  pose proof (crit0_pos (fixed m) (proj1 S)) as C0.
  split; [|split; [|split; [|split; [|split]]]].
  - intros z Hz. pose proof (E2_pos _ S z Hz) as E. assert (Z3 : 0 < (1 + z) ^ 3) by (apply pow_lt; lra). assert (Z4 : 0 < (1 + z) ^ 4) by (apply pow_lt; lra).
    assert (SUM : omega_m m z + omega_l m z = 1 - a_or0 (fixed m) * (1 + z) ^ 4 / a_E2 (fixed m) z). { unfold omega_m, omega_l, a_Om, a_Ode. apply (Rmult_eq_reg_r (a_E2 (fixed m) z)); [|lra]. unfold a_E2 at 2 4 5. replace (a_om0 (fixed m) * (1 + z) ^ 3 / a_E2 (fixed m) z + a_ode0 (fixed m) / a_E2 (fixed m) z) with ((a_om0 (fixed m) * (1 + z) ^ 3 + a_ode0 (fixed m)) / a_E2 (fixed m) z) by (field; lra).
      unfold a_E2 in *. field. lra. }
    assert (RT : 0 <= a_or0 (fixed m) * (1 + z) ^ 4 / a_E2 (fixed m) z) by (apply Rmult_le_pos; [apply Rmult_le_pos; lra|left; apply Rinv_0_lt_compat, E]).
    assert (OM : 0 < omega_m m z) by (apply Rdiv_lt_0_compat; [apply Rmult_lt_0_compat; assumption|exact E]).
    assert (OB : omega_b m z = ob / om * omega_m m z) by (unfold omega_b, omega_m, a_Ob, a_Om, ob, om; field; lra).
    assert (Q0 : 0 <= ob / om) by (apply Rmult_le_pos; [apply Hb|left; apply Rinv_0_lt_compat, Ho]).
    assert (Q1 : ob / om <= 1) by (apply (Rmult_le_reg_r om); [exact Ho|unfold Rdiv; rewrite Rmult_assoc, Rinv_l by (apply Rgt_not_eq; exact Ho); unfold ob, om; lra]).
    assert (RC : 0 < rho_crit m z) by (apply Rdiv_lt_0_compat; [apply Rmult_lt_0_compat; assumption|exact RHO]).
    split; [exact OM|]. split; [apply Rmult_le_pos; [unfold a_ode0; lra|left; apply Rinv_0_lt_compat, E]|]. split; [lra|]. split.
    { intros T. rewrite SUM. unfold a_or0. rewrite T. unfold Rdiv. ring. }
    split; [exact OB|]. split; [rewrite OB; split; [apply Rmult_le_pos; lra|rewrite <- (Rmult_1_l (omega_m m z)) at 2; apply Rmult_le_compat_r; lra]|].
    split; [rewrite BH; apply Rmult_lt_0_compat; [exact B1|apply E_pos; assumption]|]. split; [exact RC|]. split.
    + unfold big_hubble, rho_crit, a_H, a_crit, a_crit0. rewrite U. unfold create_for_cosmology, unit_system. cbv zeta. cbn [u_H u_rho k_gravity]. unfold a_E, Rdiv. rewrite !Rpow_mult_distr, pow2_sqrt by lra. field. repeat split; lra.
    + unfold rho_matter, rho_crit, omega_m, a_crit, a_Om. rewrite E2_0. field. repeat split; lra.
  - unfold omega_m, a_Om. rewrite E2_0. unfold om. field.
  - unfold omega_b, a_Ob. rewrite E2_0. unfold ob. field.
  - rewrite BH, E_0. cbn [cc mpc_to_m gyr_to_s]. rewrite Rmult_1_r. unfold big_hubble0_attr. apply Rabs_def1; lra.
  - unfold big_hubble0_attr. lra.
  - intros z z' A B. rewrite !BH. apply Rmult_lt_compat_l; [exact B1|]. apply E_incr; assumption.
Qed.
Print Assumptions C75_background.

(** ** Distances, in Mpc/h *)
Definition hubble_distance : R := 299792458 / 10 ^ 5.
Lemma comoving_is params name m z : made params name m -> comoving_at m z = Ok (hubble_distance * chi (fixed m) z).
Proof.
  intros M. destruct (made_is _ _ _ M) as (h & G1 & G2 & Hh & U). unfold comoving_at. rewrite G1. cbn [rmap]. f_equal. unfold a_comoving, a_H0, hubble_distance, chi. rewrite G2. pose proof mpc_pos.
  cbn [cc c_light]. generalize (RInt (fun t => / a_E (fixed m) t) 0 z). intros x. field. split; lra.
Qed.
(** The comoving distance vanishes at z = 0, grows with z (also for z < 0), and lies between Hubble's law and Hubble's law at the rate of
    z; the luminosity distance is (1+z) and the angular diameter distance 1/(1+z) times as large; the distance modulus is
    5 lg(d/10pc) of the luminosity distance in pc. *)
Theorem C75_distances : forall params name m, made params name m -> exists d : R -> R, (forall z, comoving_at m z = Ok (d z)) /\ d 0 = 0 /\ (forall z z', -1 < z -> z < z' -> d z < d z') /\
  (forall z, 0 < z -> hubble_distance * z / (big_hubble m z / big_hubble m 0) <= d z <= hubble_distance * z) /\
  (forall z, -1 < z -> angular_diameter_at m z = Ok (d z / (1 + z)) /\ luminosity_at m z = Ok (d z * (1 + z))) /\
  (forall z, 0 < z -> exists dl h, luminosity_at m z = Ok dl /\ get m "hubble" = Ok h /\ distance_modulus_at m z = 5 * (ln (dl / h * 10 ^ 6 / 10) / ln 10)).
Proof.
  intros params name m M. exists (fun z => hubble_distance * chi (fixed m) z). destruct (made_is _ _ _ M) as (h & G1 & G2 & Hh & U). pose proof (comoving_is params name m) as CI. pose proof M as M0. destruct M as [F S].
  assert (HD : 0 < hubble_distance) by (unfold hubble_distance; lra). pose proof mpc_pos as Mp. pose proof gyr_pos as Gy.
  assert (EQ : forall z, -1 < z -> angular_diameter_at m z = Ok (hubble_distance * chi (fixed m) z / (1 + z)) /\ luminosity_at m z = Ok (hubble_distance * chi (fixed m) z * (1 + z))).
  { intros z Hz. specialize (CI z M0). unfold comoving_at in CI. rewrite G1 in CI. cbn [rmap] in CI. apply Ok_inj in CI. unfold angular_diameter_at, luminosity_at, a_angular, a_luminosity. rewrite G1. cbn [rmap]. rewrite <- CI. split; f_equal; field; lra. }
  assert (POS : forall z, 0 < z -> 0 < chi (fixed m) z) by (intros z Hz; rewrite <- (chi_0 (fixed m)); apply chi_incr; [exact S|lra|exact Hz]).
  split; [intros z; apply CI, M0|]. split; [rewrite chi_0; ring|]. split; [intros z z' A B; apply Rmult_lt_compat_l; [exact HD|apply chi_incr; assumption]|]. split; [|split; [exact EQ|]].
  - intros z Hz. pose proof (chi_bounds (fixed m) S 0 z ltac:(lra) Hz) as [B1 B2]. rewrite E_0 in B2. fold (chi (fixed m) z) in B1, B2.
    assert (R : big_hubble m z / big_hubble m 0 = a_E (fixed m) z). { unfold big_hubble, a_H. rewrite E_0. pose proof (H0_pos (fixed m) (proj1 S)). assert (u_H (us_of m) <> 0). { rewrite U. unfold create_for_cosmology, unit_system. cbv zeta. cbn [u_H]. assert (0 < 1 / (gyr_to_s cc / h)) by (repeat apply Rdiv_lt_0_compat; lra). lra. } field. split; lra. }
    rewrite R. split.
    + unfold Rdiv in *. rewrite Rmult_assoc. apply Rmult_le_compat_l; [lra|]. rewrite Rminus_0_r in B1. exact B1.
    + apply Rmult_le_compat_l; [lra|]. unfold Rdiv in B2. rewrite Rinv_1, Rmult_1_r, Rminus_0_r in B2. exact B2.
  - intros z Hz. specialize (POS z Hz). destruct (EQ z ltac:(lra)) as [_ L]. eexists. exists h. split; [exact L|]. split; [exact G1|]. unfold distance_modulus_at, a_distmod, lg.
    assert (X : a_luminosity (fixed m) z / mpc_to_m cc = hubble_distance * chi (fixed m) z * (1 + z) / h). { unfold luminosity_at in L. rewrite G1 in L. cbn [rmap] in L. apply Ok_inj in L. rewrite <- L. field. lra. }
    rewrite X. set (y := hubble_distance * chi (fixed m) z * (1 + z) / h). assert (Y : 0 < y) by (apply Rdiv_lt_0_compat; [apply Rmult_lt_0_compat; [apply Rmult_lt_0_compat; assumption|lra]|exact Hh]).
    rewrite Rabs_right by lra. replace (y * 10 ^ 6 / 10) with (y * 10 ^ 5) by field. rewrite ln_mult by lra. rewrite ln_pow by lra. assert (0 < ln 10) by (rewrite <- ln_1; apply ln_increasing; lra). replace (INR 5) with 5 by (cbn; lra). field. lra.
Qed.
Print Assumptions C75_distances.
(** Redshift of a comoving distance: for every distance up to that of z = 1000 -- however small, thanks to the floor of 1e-4 Mpc/h -- there
    is exactly one answer, and it is the redshift at that distance; going from redshift to distance and back is the identity for
    distances of at least 1e-4.  (Finding: below, the answer is the redshift of 1e-4.) *)
Theorem C75_redshifts : forall params name m d1000, made params name m -> comoving_at m 1000 = Ok d1000 ->
  (forall d, d <= d1000 -> exists z, at_comoving m d z /\ forall z', at_comoving m d z' -> z' = z) /\
  (forall d z, at_comoving m d z -> comoving_at m z = Ok (Rmax d (1 / 10 ^ 4))) /\
  (forall d, d1000 < d -> ~ exists z, at_comoving m d z) /\
  (forall z d, -1 < z -> comoving_at m z = Ok d -> 1 / 10 ^ 4 <= d -> z <= 1000 -> forall z', at_comoving m d z' -> z' = z) /\
  (forall d d', d <= 1 / 10 ^ 4 -> d' <= 1 / 10 ^ 4 -> forall z z', at_comoving m d z -> at_comoving m d' z' -> z = z').
Proof.
  intros params name m d1000 M E1000. destruct (made_is _ _ _ M) as (h & G1 & G2 & Hh & U). pose proof (comoving_is params name m) as CI. pose proof M as M0. destruct M as [F S].
  assert (HD : 0 < hubble_distance) by (unfold hubble_distance; lra). pose proof mpc_pos as Mp.
  assert (AT : forall d z, at_comoving m d z <-> 1 / 10 ^ 8 <= z <= 1000 /\ hubble_distance * chi (fixed m) z = Rmax d (1 / 10 ^ 4)).
  { intros d z. specialize (CI z M0). unfold comoving_at in CI. rewrite G1 in CI. cbn [rmap] in CI. apply Ok_inj in CI. unfold at_comoving. rewrite <- CI. split.
    - intros (h' & E & R & Q). rewrite G1 in E. apply Ok_inj in E. subst h'. split; [exact R|]. rewrite Q. field. lra.
    - intros [R Q]. exists h. split; [exact G1|]. split; [exact R|]. rewrite <- Q. field. lra. }
  assert (INJ : forall z z', -1 < z -> -1 < z' -> hubble_distance * chi (fixed m) z = hubble_distance * chi (fixed m) z' -> z = z').
  { intros z z' A B Q. apply Rmult_eq_reg_l in Q; [|lra]. destruct (total_order_T z z') as [[L|L]|L]; [pose proof (chi_incr _ S z z' A L); lra|exact L|pose proof (chi_incr _ S z' z B L); lra]. }
  rewrite (CI _ M0) in E1000. apply Ok_inj in E1000. rewrite <- E1000 in *.
  assert (LOW : hubble_distance * chi (fixed m) (1 / 10 ^ 8) < 1 / 10 ^ 4).
  { pose proof (chi_bounds (fixed m) S 0 (1 / 10 ^ 8) ltac:(lra) ltac:(lra)) as [_ B]. rewrite E_0 in B. fold (chi (fixed m) (1 / 10 ^ 8)) in B. apply Rle_lt_trans with (hubble_distance * (1 / 10 ^ 8)); [apply Rmult_le_compat_l; lra|unfold hubble_distance; lra]. }
  assert (HIGH : 1 / 10 ^ 4 <= hubble_distance * chi (fixed m) 1000).
  { (* chi 1000 >= chi 1 >= 1 / E 1 ; E 1 <= 4 *)
    pose proof (chi_incr _ S 1 1000 ltac:(lra) ltac:(lra)). pose proof (chi_bounds (fixed m) S 0 1 ltac:(lra) ltac:(lra)) as [B _]. fold (chi (fixed m) 1) in B.
    assert (E4 : a_E (fixed m) 1 <= 4). { unfold a_E. rewrite <- (sqrt_pow2 4) by lra. apply sqrt_le_1_alt. destruct S as (_ & Ho & _ & Hr & Hs). unfold a_E2, a_ode0. nra. }
    assert (Q : / 4 <= / a_E (fixed m) 1) by (apply Rinv_le_contravar; [apply E_pos; [exact S|lra]|exact E4]). unfold Rdiv in B.
    apply Rle_trans with (hubble_distance * / 4); [unfold hubble_distance; lra|apply Rmult_le_compat_l; lra]. }
  split; [|split; [|split; [|split]]].
  - intros d Hd. set (t := Rmax d (1 / 10 ^ 4)). assert (T1 : 1 / 10 ^ 4 <= t) by apply Rmax_r. assert (T2 : t <= hubble_distance * chi (fixed m) 1000) by (apply Rmax_lub; assumption).
    assert (EX : exists z, 1 / 10 ^ 8 <= z <= 1000 /\ hubble_distance * chi (fixed m) z = t).
    { destruct T2 as [T2|T2]; [|exists 1000; split; [lra|symmetry; exact T2]].
      destruct (IVT_interv (fun z => hubble_distance * chi (fixed m) z - t) (1 / 10 ^ 8) 1000) as (z & Z1 & Z2); [|lra|lra|lra|].
      - intros a A. apply continuity_pt_minus; [|apply continuity_pt_const; intros ? ?; reflexivity]. apply continuity_pt_mult; [apply continuity_pt_const; intros ? ?; reflexivity|apply chi_cont; [exact S|lra]].
      - exists z. split; [exact Z1|lra]. }
    destruct EX as (z & Z1 & Z2). exists z. split; [apply AT; split; assumption|]. intros z' Q. apply AT in Q. destruct Q as [Q1 Q2]. apply INJ; [lra|lra|]. rewrite Z2. exact Q2.
  - intros d z Q. apply AT in Q. rewrite (CI _ M0). f_equal. apply Q.
  - intros d Hd (z & Q). apply AT in Q. destruct Q as [Z Q]. assert (d <= Rmax d (1 / 10 ^ 4)) by apply Rmax_l. assert (hubble_distance * chi (fixed m) z <= hubble_distance * chi (fixed m) 1000); [|lra].
    apply Rmult_le_compat_l; [lra|]. destruct (proj2 Z) as [L|L]; [left; apply chi_incr; [exact S|lra|exact L]|rewrite L; lra].
  - intros z d Hz Q Hd Hz' z' A. rewrite (CI _ M0) in Q. apply Ok_inj in Q. apply AT in A. destruct A as [A1 A2]. apply INJ; [lra|exact Hz|]. rewrite A2, Q. apply Rmax_left. exact Hd.
  - intros d d' D D' z z' A A'. apply AT in A, A'. destruct A as [A1 A2], A' as [A1' A2']. apply INJ; [lra|lra|]. rewrite A2, A2', !Rmax_right by assumption. reflexivity.
Qed.
Print Assumptions C75_redshifts.

(** ** Times, in Gyr/h *)
Theorem C75_times : forall params name m, made params name m -> exists t : R -> R, (forall z, lookback_at m z = Ok (t z)) /\ t 0 = 0 /\
  (forall z, -1 < z -> 0 < age m z /\ age m z + t z = age m 0) /\ (forall z z', -1 < z -> z < z' -> age m z' < age m z /\ t z < t z') /\
  (forall z, 0 < z -> z / ((1 + z) * big_hubble m z) <= t z <= z / big_hubble m 0).
Proof.
  intros params name m M. destruct (made_is _ _ _ M) as (h & G1 & G2 & Hh & U). destruct M as [F S]. pose proof (H0_pos (fixed m) (proj1 S)) as HP. pose proof gyr_pos as Gy.
  set (k := / a_H0 (fixed m) / (gyr_to_s cc / h)). assert (KP : 0 < k) by (apply Rdiv_lt_0_compat; [apply Rinv_0_lt_compat, HP|apply Rdiv_lt_0_compat; lra]).
  assert (A : forall z, age m z = k * RInt (age_integrand (fixed m)) 0 (1 / (1 + z))). { intros z. unfold age. rewrite U. unfold create_for_cosmology, unit_system. cbv zeta. cbn [u_t]. unfold a_age, k. generalize (RInt (age_integrand (fixed m)) 0 (1 / (1 + z))). intros x. field. repeat split; lra. }
  assert (T : forall z, lookback_at m z = Ok (k * RInt (dage (fixed m)) 0 z)). { intros z. unfold lookback_at. rewrite G1. cbn [rmap]. f_equal. unfold a_lookback, k, dage. generalize (RInt (fun t => / ((1 + t) * a_E (fixed m) t)) 0 z). intros x. field. repeat split; lra. }
  assert (BH : forall z, big_hubble m z = a_E (fixed m) z / k). { intros z. unfold big_hubble, a_H, k. rewrite U. unfold create_for_cosmology, unit_system. cbv zeta. cbn [u_H]. field. repeat split; lra. }
  exists (fun z => k * RInt (dage (fixed m)) 0 z). split; [exact T|]. split; [rewrite RInt_point; unfold zero; cbn; ring|].
  assert (SUM : forall z, -1 < z -> age m z + k * RInt (dage (fixed m)) 0 z = age m 0). { intros z Hz. rewrite !A, <- Rmult_plus_distr_l. f_equal. replace (1 / (1 + 0)) with 1 by field. apply age_split; assumption. }
  assert (DP : forall t, -1 < t -> 0 < dage (fixed m) t). { intros t Ht. apply Rinv_0_lt_compat, Rmult_lt_0_compat; [lra|apply E_pos; assumption]. }
  assert (INC : forall z z', -1 < z -> z < z' -> k * RInt (dage (fixed m)) 0 z < k * RInt (dage (fixed m)) 0 z').
  { intros z z' Hz L. apply Rmult_lt_compat_l; [exact KP|]. rewrite <- (RInt_Chasles (dage (fixed m)) 0 z z') by (apply ex_dage; [exact S|lra|lra]). change (plus (RInt (dage (fixed m)) 0 z) (RInt (dage (fixed m)) z z')) with (RInt (dage (fixed m)) 0 z + RInt (dage (fixed m)) z z').
    assert (0 < RInt (dage (fixed m)) z z'); [|lra]. apply RInt_gt_0; [exact L|intros x X; apply DP; lra|intros x X; apply dage_cont; [exact S|lra]]. }
  split; [|split].
  - intros z Hz. split; [|apply SUM, Hz]. rewrite A. apply Rmult_lt_0_compat; [exact KP|]. assert (Q : 0 < 1 / (1 + z)) by (apply Rdiv_lt_0_compat; lra).
    rewrite (RInt_ext (age_integrand (fixed m)) (age_ext (fixed m))).
    + apply RInt_gt_0; [exact Q|intros x X; rewrite age_ext_eq by lra; apply age_nonneg; [exact S|lra]|intros x X; apply age_ext_cont, S].
    + intros x X. symmetry. apply age_ext_eq. rewrite Rmin_left in X by lra. lra.
  - intros z z' Hz L. pose proof (INC z z' Hz L). pose proof (SUM z Hz). pose proof (SUM z' ltac:(lra)). split; [lra|assumption].
  - intros z Hz. rewrite !BH, E_0. pose proof (E_pos _ S z ltac:(lra)) as EP.
    assert (C : forall v, RInt (fun _ => v) 0 z = z * v) by (intros v; rewrite RInt_const; unfold scal; cbn; unfold mult; cbn; ring).
    split.
    + replace (z / ((1 + z) * (a_E (fixed m) z / k))) with (k * (z * / ((1 + z) * a_E (fixed m) z))) by (field; repeat split; lra). apply Rmult_le_compat_l; [lra|]. rewrite <- C.
      apply RInt_le; [lra|apply ex_RInt_const|apply ex_dage; [exact S|lra|lra]|]. intros x X. apply Rinv_le_contravar; [apply Rmult_lt_0_compat; [lra|apply E_pos; [exact S|lra]]|].
      apply Rmult_le_compat; [lra|left; apply E_pos; [exact S|lra]|lra|left; apply E_incr; [exact S|lra|lra]].
    + replace (z / (1 / k)) with (k * (z * 1)) by (field; lra). apply Rmult_le_compat_l; [lra|]. rewrite <- C. apply RInt_le; [lra|apply ex_dage; [exact S|lra|lra]|apply ex_RInt_const|].
      intros x X. unfold dage. rewrite <- Rinv_1 at 2. apply Rinv_le_contravar; [lra|]. pose proof (E_ge1 _ S x ltac:(lra)). nra.
Qed.
Print Assumptions C75_times.

(** Distances and times are the integrals they are named after: comoving distance of c/H, look-back time of 1/((1+z) H), both in the model's
    own Hubble rate; the age dies out towards the past, so (with C75_times) it is the look-back integrand's integral from z to infinity; the
    luminosity distance grows with redshift. *)
Theorem C75_integrals : forall params name m, made params name m ->
  (forall z, -1 < z -> exists d t, comoving_at m z = Ok d /\ is_RInt (fun s => hubble_distance * (big_hubble m 0 / big_hubble m s)) 0 z d /\
     lookback_at m z = Ok t /\ is_RInt (fun s => / ((1 + s) * big_hubble m s)) 0 z t) /\
  (forall eps, 0 < eps -> exists z0, -1 < z0 /\ forall z, z0 < z -> age m z < eps) /\
  (forall z z' d d', 0 <= z -> z < z' -> luminosity_at m z = Ok d -> luminosity_at m z' = Ok d' -> d < d').
Proof.
  intros params name m M. pose proof M as M0. destruct (made_is _ _ _ M) as (h & G1 & G2 & Hh & U). destruct (C75_distances _ _ _ M) as (d & D1 & D2 & D3 & D4 & D5 & D6).
  pose proof (fun z => comoving_is params name m z M0) as CI. destruct M as [F S]. pose proof (H0_pos (fixed m) (proj1 S)) as HP. pose proof gyr_pos as Gy.
  set (k := / a_H0 (fixed m) / (gyr_to_s cc / h)). assert (KP : 0 < k) by (apply Rdiv_lt_0_compat; [apply Rinv_0_lt_compat, HP|apply Rdiv_lt_0_compat; lra]).
  assert (A : forall z, age m z = k * RInt (age_integrand (fixed m)) 0 (1 / (1 + z))). { intros z. unfold age. rewrite U. unfold create_for_cosmology, unit_system. cbv zeta. cbn [u_t]. unfold a_age, k. generalize (RInt (age_integrand (fixed m)) 0 (1 / (1 + z))). intros x. field. repeat split; lra. }
  assert (T : forall z, lookback_at m z = Ok (k * RInt (dage (fixed m)) 0 z)). { intros z. unfold lookback_at. rewrite G1. cbn [rmap]. f_equal. unfold a_lookback, k, dage. generalize (RInt (fun t => / ((1 + t) * a_E (fixed m) t)) 0 z). intros x. field. repeat split; lra. }
  assert (BH : forall z, big_hubble m z = a_E (fixed m) z / k). { intros z. unfold big_hubble, a_H, k. rewrite U. unfold create_for_cosmology, unit_system. cbv zeta. cbn [u_H]. field. repeat split; lra. }
  split; [|split].
  - intros z Hz. exists (hubble_distance * chi (fixed m) z), (k * RInt (dage (fixed m)) 0 z). split; [apply CI|]. split; [|split; [apply T|]].
    + apply (is_RInt_ext (fun s => scal hubble_distance (/ a_E (fixed m) s))).
      * intros x X. assert (Hx : -1 < x) by (unfold Rmin in X; destruct (Rle_dec 0 z); lra). rewrite !BH, E_0. pose proof (E_pos _ S x Hx). unfold scal; cbn; unfold mult; cbn. field. split; lra.
      * apply (is_RInt_scal (fun s => / a_E (fixed m) s) 0 z hubble_distance). apply (RInt_correct (V := R_CompleteNormedModule)). apply ex_Einv; [exact S|lra|lra].
    + apply (is_RInt_ext (fun s => scal k (dage (fixed m) s))).
      * intros x X. assert (Hx : -1 < x) by (unfold Rmin in X; destruct (Rle_dec 0 z); lra). rewrite BH. pose proof (E_pos _ S x Hx). unfold dage, scal; cbn; unfold mult; cbn. field. repeat split; lra.
      * apply (is_RInt_scal (dage (fixed m)) 0 z k). apply (RInt_correct (V := R_CompleteNormedModule)). apply ex_dage; [exact S|lra|lra].
  - intros eps He. assert (Om : 0 < a_om0 (fixed m)) by (apply S). set (b := sqrt (1 / a_om0 (fixed m))).
    assert (Bp : 0 < b) by (apply sqrt_lt_R0, Rdiv_lt_0_compat; lra). exists (Rmax 0 (k * b / eps)). split; [pose proof (Rmax_l 0 (k * b / eps)); lra|].
    intros z Hz. pose proof (Rmax_l 0 (k * b / eps)) as Z0. pose proof (Rmax_r 0 (k * b / eps)) as Z1. rewrite A. set (q := 1 / (1 + z)).
    assert (Q : 0 < q) by (apply Rdiv_lt_0_compat; lra). assert (Q1 : q <= 1) by (unfold q; apply (Rmult_le_reg_r (1 + z)); [lra|]; unfold Rdiv; rewrite Rmult_1_l, Rinv_l by lra; lra).
    assert (L : RInt (age_integrand (fixed m)) 0 q <= q * b).
    { replace (q * b) with (RInt (fun _ : R => b) 0 q) by (rewrite RInt_const; unfold scal; cbn; unfold mult; cbn; ring). apply RInt_le; [lra|apply ex_age; [exact S|lra|lra]|apply ex_RInt_const|].
      intros x X. eapply Rle_trans; [apply age_small; [exact S|lra]|]. apply sqrt_le_1_alt. unfold Rdiv. apply Rmult_le_compat_r; [left; apply Rinv_0_lt_compat; exact Om|lra]. }
    apply Rle_lt_trans with (k * (q * b)); [apply Rmult_le_compat_l; [lra|exact L]|].
    assert (Z2 : k * b / eps < 1 + z) by lra. apply (Rmult_lt_compat_r eps) in Z2; [|exact He]. replace (k * b / eps * eps) with (k * b) in Z2 by (field; lra).
    apply (Rmult_lt_reg_r (1 + z)); [lra|]. unfold q. replace (k * (1 / (1 + z) * b) * (1 + z)) with (k * b) by (field; lra). lra.
  - intros z z' x x' Z0 Z1 L L'. destruct (D5 z ltac:(lra)) as [_ E]. destruct (D5 z' ltac:(lra)) as [_ E']. rewrite E in L. rewrite E' in L'. injection L as <-. injection L' as <-.
    assert (0 <= d z) by (destruct (Rle_lt_or_eq_dec 0 z Z0) as [Lt|Eq]; [pose proof (D3 0 z ltac:(lra) Lt); lra|rewrite <- Eq, D2; lra]). pose proof (D3 z z' ltac:(lra) Z1). nra.
Qed.
Print Assumptions C75_integrals.

(** ** The same numbers for every h *)
(** Without radiation, all results are in units of h: two models that differ in h only give the same numbers. *)
Theorem C75_h_free : forall params params' name name' m m', made params name m -> made params' name' m' ->
  a_om0 (fixed m) = a_om0 (fixed m') -> a_tcmb (fixed m) = 0 -> a_tcmb (fixed m') = 0 -> forall z,
  big_hubble m z = big_hubble m' z /\ omega_m m z = omega_m m' z /\ rho_crit m z = rho_crit m' z /\ comoving_at m z = comoving_at m' z /\ lookback_at m z = lookback_at m' z /\ age m z = age m' z.
Proof.
  intros params params' name name' m m' M M' EO T T' z. rewrite (comoving_is _ _ _ z M), (comoving_is _ _ _ z M').
  destruct (made_is _ _ _ M) as (h & G1 & G2 & Hh & U). destruct (made_is _ _ _ M') as (h' & G1' & G2' & Hh' & U'). pose proof mpc_pos as Mp. pose proof gyr_pos as Gy. pose proof msun_pos as Ms. pose proof G_pos as Gp. pose proof PI_RGT_0 as P.
  assert (R : a_or0 (fixed m) = a_or0 (fixed m')). { unfold a_or0. rewrite T, T'. unfold Rdiv. ring. }
  assert (E2 : forall z, a_E2 (fixed m) z = a_E2 (fixed m') z) by (intros w; unfold a_E2, a_ode0; rewrite R, EO; reflexivity). assert (E : forall z, a_E (fixed m) z = a_E (fixed m') z) by (intros w; unfold a_E; rewrite E2; reflexivity).
  split; [|split; [|split; [|split; [|split]]]].
  - unfold big_hubble, a_H, a_H0. rewrite E, U, U', G2, G2'. unfold create_for_cosmology, unit_system. cbv zeta. cbn [u_H]. field. repeat split; lra.
  - unfold omega_m, a_Om. rewrite E2, EO. reflexivity.
  - unfold rho_crit, a_crit, a_crit0, a_H0. rewrite E2, U, U', G2, G2'. unfold create_for_cosmology, unit_system. cbv zeta. cbn [u_rho]. field. repeat split; lra.
  - f_equal. f_equal. unfold chi. apply RInt_ext. intros x _. rewrite E. reflexivity.
  - unfold lookback_at. rewrite G1, G1'. cbn [rmap]. f_equal. unfold a_lookback, a_H0. rewrite (RInt_ext (fun t => / ((1 + t) * a_E (fixed m) t)) (fun t => / ((1 + t) * a_E (fixed m') t))) by (intros x _; rewrite E; reflexivity).
    rewrite G2, G2'. generalize (RInt (fun t => / ((1 + t) * a_E (fixed m') t)) 0 z). intros x. field. repeat split; lra.
  - unfold age, a_age, a_H0. rewrite (RInt_ext (age_integrand (fixed m)) (age_integrand (fixed m'))) by (intros x _; unfold age_integrand, a_ode0; rewrite R, EO; reflexivity).
    rewrite U, U', G2, G2'. unfold create_for_cosmology, unit_system. cbv zeta. cbn [u_t]. generalize (RInt (age_integrand (fixed m')) 0 (1 / (1 + z))). intros x. field. repeat split; lra.
Qed.
Print Assumptions C75_h_free.
(** The halo theory's requirements (C74) are met: the background is physical at every redshift and the comoving mean virial density is
    constant. *)
Theorem C75_halo : forall params name m, made params name m -> (forall z, -1 < z -> physical (halo_model m) z) /\
  (forall f mv z z', -1 < z -> -1 < z' -> vp_r (vir_props_mean (halo_model m) mv f z) = vp_r (vir_props_mean (halo_model m) mv f z')).
Proof.
  intros params name m M. destruct (C75_background _ _ _ M) as (B & _). destruct (made_is _ _ _ M) as (h & _ & _ & Hh & U). split.
  - intros z Hz. destruct (B z Hz) as (B1 & _ & _ & _ & _ & _ & _ & B2 & _). repeat split; cbn; try assumption. rewrite U. unfold create_for_cosmology, unit_system. cbv zeta. cbn [k_gravity].
    pose proof mpc_pos. pose proof gyr_pos. pose proof msun_pos. pose proof G_pos. apply Rdiv_lt_0_compat; [assumption|]. apply Rdiv_lt_0_compat; [|apply Rdiv_lt_0_compat; lra]. apply Rdiv_lt_0_compat; apply pow_lt, Rdiv_lt_0_compat; lra.
  - intros f mv z z' Hz Hz'. apply (C74_mean_comoving (halo_model m) f z z' mv Hz Hz'). intros w Hw. cbn [HaloModel.rho_crit om halo_model]. destruct (B w Hw) as (_ & _ & _ & _ & _ & _ & _ & _ & _ & B2). exact B2.
Qed.
Print Assumptions C75_halo.

(** ** Findings *)
(** from_astropy_model keeps h, Omega_m, Omega_b and T_cmb, but not the number of neutrino species: the radiation of the result is that of the
    default 3.04 species. *)
Theorem C75_from_astropy : forall p name m, from_astropy_model p name = Ok m -> a_h (fixed m) = a_h p /\ a_om0 (fixed m) = a_om0 p /\ a_ob0 (fixed m) = a_ob0 p /\ a_tcmb (fixed m) = a_tcmb p /\ get m "omega_l0" = Ok (a_ode0 p) /\
  (a_neff p = 304 / 100 -> fixed m = p) /\ (0 < a_h p -> 0 < a_tcmb p -> a_neff p <> 304 / 100 -> omega_l m 0 <> a_Ode p 0).
Proof.
  intros p name m H. unfold from_astropy_model in H. pose proof (C75_construction [("hubble", a_h p); ("omega_m0", a_om0 p); ("omega_l0", a_ode0 p); ("omega_b0", a_ob0 p); ("t_cmb", a_tcmb p)] name) as C.
  rewrite H in C. destruct C as (h & om & t & ob & E1 & E2 & E3 & E4 & _ & L & F & _ & _ & G). cbn in E1, E2, E3, E4. injection E1 as <-. injection E2 as <-. injection E3 as <-. injection E4 as <-. rewrite F. cbn [a_h a_om0 a_ob0 a_tcmb].
  repeat split; try reflexivity.
  - rewrite G. reflexivity.
  - intros N. destruct p as [ph po pt pn pb]. cbn in *. rewrite N. reflexivity.
  - intros Hh Ht N. unfold omega_l, a_Ode. rewrite !E2_0, F. unfold a_ode0, a_or0, a_crit0, a_H0. cbn [a_h a_om0 a_ob0 a_tcmb a_neff]. fold (a_H0 p). fold (a_crit0 p). pose proof (crit0_pos p Hh) as CP. intros Q. apply N.
    assert (KP : 0 < 4 * stefan / c_light cc ^ 3 * a_tcmb p ^ 4 / a_crit0 p). { apply Rdiv_lt_0_compat; [|exact CP]. apply Rmult_lt_0_compat; [|apply pow_lt, Ht]. unfold stefan. cbn [cc c_light]. lra. }
    apply (Rmult_eq_reg_l (22710731766 / 10 ^ 11)); [|lra]. apply (Rmult_eq_reg_l (4 * stefan / c_light cc ^ 3 * a_tcmb p ^ 4 / a_crit0 p)); [|lra]. lra.
Qed.
Print Assumptions C75_from_astropy.
(** With a CMB temperature, the parameter omega_l0 of a "flat" parameter set is not the dark energy fraction in use: radiation is taken from
    it. *)
Theorem C75_omega_l0_refuted : forall params name m ol, made params name m -> get m "omega_l0" = Ok ol -> ol = 1 - a_om0 (fixed m) -> 0 < a_tcmb (fixed m) -> omega_l m 0 < ol.
Proof.
  intros params name m ol M _ -> T. destruct M as [F S]. unfold omega_l, a_Ode. rewrite E2_0. unfold a_ode0, Rdiv. rewrite Rinv_1, Rmult_1_r. pose proof (crit0_pos (fixed m) (proj1 S)) as CP.
  assert (N : a_neff (fixed m) = 304 / 100). { pose proof (C75_construction params name) as C. rewrite F in C. destruct C as (h & om & t & ob & _ & _ & _ & _ & _ & _ & E & _). rewrite E. reflexivity. }
  assert (0 < a_or0 (fixed m)); [|lra]. unfold a_or0. rewrite N. apply Rmult_lt_0_compat; [|lra]. apply Rdiv_lt_0_compat; [|exact CP]. apply Rmult_lt_0_compat; [|apply pow_lt, T]. unfold stefan. cbn [cc c_light]. lra.
Qed.
Print Assumptions C75_omega_l0_refuted.
(** Writing to a parameter afterwards: the Hubble rate, densities and ages stay those of construction, but distances and look-back times are scaled
    with the new value, so that age + look-back is no longer the present age. *)
Theorem C75_written_parameter : forall params name m v z, made params name m -> 0 < z -> let m' := set_param m "hubble" v in exists h d t,
  get m "hubble" = Ok h /\ comoving_at m z = Ok d /\ lookback_at m z = Ok t /\ get m' "hubble" = Ok v /\ (forall k, k <> "hubble" -> get m' k = get m k) /\
  big_hubble m' z = big_hubble m z /\ rho_crit m' z = rho_crit m z /\ age m' z = age m z /\ comoving_at m' z = Ok (d * (v / h)) /\ lookback_at m' z = Ok (t * (v / h)) /\
  (v <> h -> age m' z + t * (v / h) <> age m' 0).
Proof.
  intros params name m v z M Hz m'. destruct (made_is _ _ _ M) as (h & G1 & G2 & Hh & U). destruct (C75_times _ _ _ M) as (t & T1 & T0 & T2 & T3 & _).
  assert (GV : get m' "hubble" = Ok v) by (unfold get, m', set_param, param_of; cbn [live]; rewrite (od_get_set_same _ String.eqb_spec); reflexivity).
  exists h, (a_comoving (fixed m) z / mpc_to_m cc * h), (t z). split; [exact G1|]. split; [unfold comoving_at; rewrite G1; reflexivity|]. split; [apply T1|]. split; [exact GV|].
  split; [intros k Nk; unfold get, m', set_param, param_of; cbn [live]; rewrite (od_get_set_other _ String.eqb_spec) by exact Nk; reflexivity|].
  split; [reflexivity|]. split; [reflexivity|]. split; [reflexivity|]. split; [|split].
  - unfold comoving_at. rewrite GV. cbn [rmap fixed m' set_param]. f_equal. field. split; [lra|]. pose proof mpc_pos. lra.
  - specialize (T1 z). unfold lookback_at in T1 |- *. rewrite G1 in T1. rewrite GV. cbn [rmap fixed m' set_param] in *. apply Ok_inj in T1. rewrite <- T1. f_equal. field. split; [lra|]. pose proof gyr_pos. lra.
  - intros N Q. change (age m' z) with (age m z) in Q. change (age m' 0) with (age m 0) in Q. destruct (T2 z ltac:(lra)) as [_ A]. destruct (T3 0 z ltac:(lra) Hz) as [_ B]. rewrite T0 in B.
    assert (X : t z * (v / h - 1) = 0) by lra. apply Rmult_integral in X. destruct X as [X|X]; [lra|]. apply N. apply (Rmult_eq_reg_r (/ h)); [|apply Rinv_neq_0_compat; lra]. rewrite Rinv_r by lra. unfold Rdiv in X. lra.
Qed.
Print Assumptions C75_written_parameter.

(** A model of the kind the theorems talk about: the "737" parameters of the documentation, here without radiation. *)
Example C75_case : exists m, made [("hubble", 7 / 10); ("omega_m0", 3 / 10); ("omega_l0", 7 / 10); ("omega_b0", 45 / 1000); ("t_cmb", 0)] None m.
Proof.
  unfold made. pose proof (C75_construction [("hubble", 7 / 10); ("omega_m0", 3 / 10); ("omega_l0", 7 / 10); ("omega_b0", 45 / 1000); ("t_cmb", 0)] None) as C.
  destruct (from_parameters _ None) as [m|e].
  - exists m. split; [reflexivity|]. destruct C as (h & om & t & ob & E1 & E2 & E3 & E4 & _ & _ & F & _). cbn in E1, E2, E3, E4. injection E1 as <-. injection E2 as <-. injection E3 as <-. injection E4 as <-. rewrite F. unfold sane.
    assert (Z : a_or0 {| a_h := 7 / 10; a_om0 := 3 / 10; a_tcmb := 0; a_neff := 304 / 100; a_ob0 := 45 / 1000 |} = 0) by (unfold a_or0; cbn [a_tcmb]; unfold Rdiv; ring). rewrite Z. cbn [a_h a_om0 a_ob0]. lra.
  - exfalso. destruct e; try exact C.
    + destruct C as (k & [<-|[<-|[<-|[<-|[]]]]] & K); cbn in K; discriminate.
    + destruct C as [_ C]. apply (C (3 / 10) (45 / 1000)); [reflexivity|reflexivity|lra].
Qed.
