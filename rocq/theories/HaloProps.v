(** C74: virial relations, NFW concentrations, keywords of the halo mass function. *)
From Coq Require Import Reals Lra Lia.
From Verif Require Import Base CosmModel CosmProps LinModel LinProofs HaloModel HaloProofs.
Local Open Scope string_scope. Local Open Scope list_scope. Local Open Scope R_scope.

Definition physical (m : model) (z : R) : Prop := -1 < z /\ 0 < rho_crit m z /\ 0 < om m z /\ 0 < G m.
Lemma a_pos z : -1 < z -> 0 < 1 / (1 + z).
Proof. intros H. apply Rdiv_lt_0_compat; lra. Qed.
Lemma r_cube m rho : 0 < m -> 0 < rho -> 4 / 3 * PI * r_vir m rho ^ 3 * rho = m /\ 0 < r_vir m rho.
Proof.
  intros Hm Hr. pose proof PI_RGT_0 as P. assert (X : 0 < m / rho / (4 / 3 * PI)) by (apply Rdiv_lt_0_compat; [apply Rdiv_lt_0_compat; assumption|lra]).
  split; [unfold r_vir; rewrite cube_of_root by lra; field; lra|]. unfold r_vir. rewrite npow_pos by exact X. apply exp_pos.
Qed.
Lemma rho_pos m f z : physical m z -> 0 < f -> 0 < rho_vir_mean m f z /\ 0 < rho_vir_crit m f z.
Proof.
  intros (Hz & Hr & Ho & Hg) Hf. pose proof (pow_lt _ 3 (a_pos z Hz)). unfold rho_vir_mean, rho_vir_crit, rho_matter. cbv zeta.
  split; (apply Rmult_lt_0_compat; [assumption|]); (apply Rmult_lt_0_compat; [|assumption]); try assumption. apply Rmult_lt_0_compat; assumption.
Qed.
(** The virial radius encloses the mass at the virial density and grows with the mass; the virial velocity is the circular one,
    in km/s times the conversion factor. *)
Theorem C74_radius_velocity : forall m mv rho r, 0 < mv -> 0 < rho -> 0 < r -> 0 < G m ->
  4 / 3 * PI * r_vir mv rho ^ 3 * rho = mv /\ 0 < r_vir mv rho /\ (forall mv', mv < mv' -> r_vir mv rho < r_vir mv' rho) /\ r_vir (8 * mv) rho = 2 * r_vir mv rho /\
  v_vir m mv r false ^ 2 * r = G m * mv /\ 0 < v_vir m mv r false /\ v_vir m mv r true = v_vir m mv r false * v_to_kmps m.
Proof.
  intros m mv rho r Hm Hr Hrr Hg. destruct (r_cube mv rho Hm Hr) as [C P]. pose proof PI_RGT_0 as Pi. split; [exact C|]. split; [exact P|]. split; [|split; [|split; [|split]]].
  - intros mv' L. unfold r_vir. apply npow_incr; [lra|]. split; [left; apply Rdiv_lt_0_compat; [apply Rdiv_lt_0_compat; assumption|lra]|].
    unfold Rdiv. apply Rmult_lt_compat_r; [apply Rinv_0_lt_compat; lra|]. apply Rmult_lt_compat_r; [apply Rinv_0_lt_compat; lra|exact L].
  - replace (r_vir (8 * mv) rho) with (npow ((2 * r_vir mv rho) ^ 3) (1 / 3)); [apply root_of_cube; lra|]. unfold r_vir at 2. f_equal. replace (8 * mv) with (8 * (4 / 3 * PI * r_vir mv rho ^ 3 * rho)) by (rewrite C; ring). field. lra.
  - unfold v_vir. cbv zeta. rewrite pow2_sqrt; [field; lra|]. left. apply Rdiv_lt_0_compat; [apply Rmult_lt_0_compat; assumption|exact Hrr].
  - unfold v_vir. cbv zeta. apply sqrt_lt_R0. apply Rdiv_lt_0_compat; [apply Rmult_lt_0_compat; assumption|exact Hrr].
  - reflexivity.
Qed.
Print Assumptions C74_radius_velocity.
(** At every redshift a halo's mean density inside its physical virial radius is f times the physical background (mean or
    critical) density, the comoving radius is (1+z) times the physical one, the velocity is circular at the physical radius, and
    the dynamical time depends on the density only, not on the mass. *)
Theorem C74_virial : forall m mv f z, physical m z -> 0 < mv -> 0 < f -> forall p bg, (p = vir_props_mean m mv f z /\ bg = rho_crit m z * om m z \/ p = vir_props_crit m mv f z /\ bg = rho_crit m z) ->
  vp_m p = mv /\ 0 < vp_r_phy p /\ mv / (4 / 3 * PI * vp_r_phy p ^ 3) = f * bg /\ vp_r p = (1 + z) * vp_r_phy p /\ vp_rho p * (1 + z) ^ 3 = f * bg /\
  vp_v p ^ 2 * vp_r_phy p = G m * mv /\ 0 < t_dyn p /\ t_dyn p ^ 2 = 3 / (4 * PI * G m * (f * bg)).
Proof.
  intros m mv f z Ph Hm Hf p bg H. destruct (rho_pos m f z Ph Hf) as [P1 P2]. destruct Ph as (Hz & Hr & Ho & Hg). pose proof (a_pos z Hz) as A. pose proof PI_RGT_0 as Pi.
  assert (BG : 0 < bg) by (destruct H as [[_ ->]|[_ ->]]; [apply Rmult_lt_0_compat; assumption|assumption]).
  assert (Q : exists rho, p = vir_props m mv rho z /\ rho = f * bg * (1 / (1 + z)) ^ 3).
  { destruct H as [[-> ->]|[-> ->]]; eexists; (split; [reflexivity|]); unfold rho_vir_mean, rho_vir_crit, rho_matter; cbv zeta; ring. }
  destruct Q as (rho & -> & E). assert (RP : 0 < rho) by (rewrite E; apply Rmult_lt_0_compat; [apply Rmult_lt_0_compat; assumption|apply pow_lt, A]).
  destruct (r_cube mv rho Hm RP) as [C P]. unfold vir_props, t_dyn. cbv zeta. cbn [vp_m vp_rho vp_r vp_r_phy vp_v]. set (r := r_vir mv rho) in *. clearbody r.
  assert (PP : 0 < 1 / (1 + z) * r) by (apply Rmult_lt_0_compat; assumption).
  assert (V : v_vir m mv (1 / (1 + z) * r) false ^ 2 * (1 / (1 + z) * r) = G m * mv /\ 0 < v_vir m mv (1 / (1 + z) * r) false).
  { destruct (C74_radius_velocity m mv rho _ Hm RP PP Hg) as (_ & _ & _ & _ & V1 & V2 & _). auto. }
  set (v := v_vir m mv (1 / (1 + z) * r) false) in *. clearbody v. destruct V as [V1 V2].
  assert (CC : mv = 4 / 3 * PI * (1 / (1 + z) * r) ^ 3 * (f * bg)) by (rewrite <- C, E; ring).
  split; [reflexivity|]. split; [exact PP|]. split; [rewrite CC; field; repeat split; lra|]. split; [field; lra|]. split; [rewrite E; field; lra|]. split; [exact V1|]. split; [apply Rdiv_lt_0_compat; assumption|].
  set (rp := 1 / (1 + z) * r) in *. clearbody rp. unfold Rdiv at 1. rewrite Rpow_mult_distr, pow_inv.
  assert (VV : v ^ 2 = G m * (4 / 3 * PI * rp ^ 2 * (f * bg))). { apply (Rmult_eq_reg_r rp); [|lra]. rewrite V1, CC. ring. }
  rewrite VV. field. repeat split; lra.
Qed.
Print Assumptions C74_virial.
(** If matter only dilutes (as in astropy's model), the comoving mean virial density, and with it the comoving radius of a given
    mass, does not change with redshift. *)
Theorem C74_mean_comoving : forall m f z z' mv, -1 < z -> -1 < z' -> (forall w, -1 < w -> rho_crit m w * om m w = rho_crit m 0 * om m 0 * (1 + w) ^ 3) ->
  rho_vir_mean m f z = rho_vir_mean m f z' /\ vp_r (vir_props_mean m mv f z) = vp_r (vir_props_mean m mv f z').
Proof.
  intros m f z z' mv Hz Hz' D. assert (E : forall w, -1 < w -> rho_vir_mean m f w = f * (rho_crit m 0 * om m 0)).
  { intros w Hw. unfold rho_vir_mean, rho_matter. cbv zeta. rewrite D by exact Hw. field. lra. }
  split; [rewrite !E by assumption; reflexivity|]. unfold vir_props_mean, vir_props. cbv zeta. cbn [vp_r]. rewrite !E by assumption. reflexivity.
Qed.
Print Assumptions C74_mean_comoving.

(** ** Concentrations *)
Theorem C74_nfw : mu 0 = 0 /\ (forall a b, 0 <= a < b -> mu a < mu b) /\ (forall a b, 21626 / 10000 <= a < b -> c_to_v a < c_to_v b) /\ (forall c, 0 < c -> c_to_v c ^ 2 * (ln (1 + c) - c / (1 + c)) = 216217 / 1000000 * c).
Proof.
  split; [apply mu_0|]. split; [intros a b [A B]; apply mu_incr; assumption|]. split; [intros a b [A B]; apply c_to_v_incr; assumption|].
  intros c Hc. pose proof (mu_pos c Hc) as M. unfold c_to_v. rewrite pow2_sqrt; [fold (mu c); field; lra|]. left. apply Rdiv_lt_0_compat; lra.
Qed.
Print Assumptions C74_nfw.
Lemma v_to_c_is n v : (1 <= n)%nat -> v_to_c n v = (let pts := combine (map c_to_v (c_nodes n)) (c_nodes n) in if Rlt_dec v (fst (hd (0, 0) pts)) then Err ValueError else if Rlt_dec (fst (last pts (0, 0))) v then Err ValueError else Ok (pwl pts v)).
Proof. intros H. unfold v_to_c. rewrite interp1d_sorted; [reflexivity|apply map_length|rewrite map_length, nodes_length; lia|apply v_nodes_climb]. Qed.
Lemma hd_nth {A} (l : list A) d x : nth_error l 0 = Some x -> hd d l = x.
Proof. destruct l; cbn; congruence. Qed.
Lemma last_nth {A} : forall (l : list A) d x, nth_error l (length l - 1) = Some x -> last l d = x.
Proof. induction l as [|a l IH]; intros d x H; [discriminate|]. destruct l as [|b l]; [cbn in H |- *; congruence|]. cbn [last]. apply IH. cbn [length] in *. replace (S (S (length l)) - 1)%nat with (S (length l)) in H by lia. cbn in H. replace (S (length l) - 1)%nat with (length l) by lia. exact H. Qed.
Lemma pts_nth n i c : nth_error (c_nodes n) i = Some c -> nth_error (combine (map c_to_v (c_nodes n)) (c_nodes n)) i = Some (c_to_v c, c).
Proof.
  generalize (c_nodes n). intros l. revert i. induction l as [|a l IH]; intros [|i] H; try discriminate; cbn in *; [congruence|]. apply IH, H.
Qed.
(** The inverse relation read from the table (of any size): exact at the nodes, and for every concentration covered by the table
    the answer lies in the same interval between nodes as the true value; outside the table ValueError. *)
Theorem C74_inverse : forall n, (2 <= n)%nat ->
  (forall c, 21626 / 10000 <= c <= 1000 -> exists c', v_to_c n (c_to_v c) = Ok c' /\ forall a, In a (c_nodes n) -> (c < a -> c' < a) /\ (a < c -> a < c') /\ (c = a -> c' = a)) /\
  (forall v, v < c_to_v (21626 / 10000) \/ c_to_v 1000 < v -> v_to_c n v = Err ValueError).
Proof.
  intros n Hn. set (pts := combine (map c_to_v (c_nodes n)) (c_nodes n)).
  assert (S : sorted pts) by (unfold sorted, pts; rewrite combine_fst by apply map_length; apply v_nodes_climb). assert (M : map snd pts = c_nodes n) by (unfold pts; apply combine_snd, map_length).
  assert (LP : length pts = (3 * n)%nat) by (unfold pts; rewrite combine_length, map_length, nodes_length; lia).
  assert (H0 : hd (0, 0) pts = (c_to_v (21626 / 10000), 21626 / 10000)) by (apply hd_nth, pts_nth, nodes_first; lia).
  assert (H1 : last pts (0, 0) = (c_to_v 1000, 1000)) by (apply last_nth; rewrite LP; apply pts_nth, nodes_last; lia).
  assert (W : forall a b, 21626 / 10000 <= a -> a <= b -> c_to_v a <= c_to_v b) by (intros a b A [B| ->]; [left; apply c_to_v_incr; assumption|lra]).
  split.
  - intros c [C1 C2]. exists (pwl pts (c_to_v c)). split.
    + rewrite v_to_c_is by lia. cbv zeta. fold pts. rewrite H0, H1. cbn [fst]. pose proof (W (21626 / 10000) c ltac:(lra) C1). pose proof (W c 1000 C1 C2).
      destruct (Rlt_dec _ _); [lra|]. destruct (Rlt_dec _ _); [lra|]. reflexivity.
    + intros a Ha. pose proof (nodes_range n a Ha) as AR. apply In_nth_error in Ha. destruct Ha as [i Hi]. pose proof (pts_nth n i a Hi) as Pi. fold pts in Pi.
      assert (K : climbing (map snd pts)) by (rewrite M; apply nodes_climb).
      destruct (pwl_lt_right pts i (c_to_v a, a) (c_to_v c) ltac:(lia) S K Pi) as [Q1 Q2]. cbn [fst snd] in Q1, Q2.
      split; [intros L; apply Q1, c_to_v_incr; assumption|]. split; [intros L; apply Q2, c_to_v_incr; lra|].
      intros ->. apply (pwl_node pts i (c_to_v a, a) S ltac:(lia) Pi).
  - intros v H. rewrite v_to_c_is by lia. cbv zeta. fold pts. rewrite H0, H1. cbn [fst]. pose proof (W (21626 / 10000) 1000 ltac:(lra) ltac:(lra)).
    destruct (Rlt_dec _ _); [reflexivity|]. destruct (Rlt_dec _ _); [reflexivity|]. lra.
Qed.
Print Assumptions C74_inverse.
Theorem C74_empty_table : forall v, v_to_c 0 v = Err ValueError.
Proof. intros v. reflexivity. Qed.
Print Assumptions C74_empty_table.

(** ** The mass function *)
Definition own_keys : list string := ["Mmin"; "Mmax"; "dlog10m"; "z"]%string.
Definition mdef (mass_def : string) : option nat := if String.eqb mass_def "200crit" then Some so_crit else if String.eqb mass_def "200mean" then Some so_mean else None.
(** What reaches hmf: the four range keywords from the arguments, then what the caller gave, then the overdensity definition of
    mass_def.  No dictionary is changed -- except, for 'custom', the caller's own (finding). *)
Theorem C74_keywords : forall h a mass_def lo hi d z, od_wf (h a) -> let (r, h') := mass_function_kw h a mass_def lo hi d z in
  NoDup [so_crit; so_mean; od200] /\ (r = Err ValueError <-> mdef mass_def = None /\ mass_def <> "custom"%string) /\
  (forall kw, r = Ok kw -> od_get String.eqb kw "Mmin" = Some lo /\ od_get String.eqb kw "Mmax" = Some hi /\ od_get String.eqb kw "dlog10m" = Some d /\ od_get String.eqb kw "z" = Some z /\
     forall k, ~ In k own_keys -> od_get String.eqb kw k = match od_get String.eqb (h a) k with Some v => Some v | None =>
        match mdef mass_def with Some sel => if String.eqb k "mdef_model" then Some sel else if String.eqb k "mdef_params" then Some od200 else None | None => None end end) /\
  (mass_def <> "custom"%string -> forall b, h' b = h b) /\ (mass_def = "custom"%string -> r = Ok (h' a) /\ forall b, b <> a -> h' b = h b).
Proof.
  intros h a md lo hi d z W. pose proof String.eqb_spec as SE.
  assert (OWN : forall b, od_get String.eqb (od_update String.eqb b (kw_own lo hi d z)) "Mmin" = Some lo /\ od_get String.eqb (od_update String.eqb b (kw_own lo hi d z)) "Mmax" = Some hi /\ od_get String.eqb (od_update String.eqb b (kw_own lo hi d z)) "dlog10m" = Some d /\ od_get String.eqb (od_update String.eqb b (kw_own lo hi d z)) "z" = Some z /\
     forall k, ~ In k own_keys -> od_get String.eqb (od_update String.eqb b (kw_own lo hi d z)) k = od_get String.eqb b k).
  { intros b. repeat split; try (rewrite (od_get_update _ SE); reflexivity). intros k N. rewrite (od_get_update _ SE). unfold own_keys in N. cbn in N. cbn.
    destruct (String.eqb_spec k "z"); [subst; tauto|]. destruct (String.eqb_spec k "dlog10m"); [subst; tauto|]. destruct (String.eqb_spec k "Mmax"); [subst; tauto|]. destruct (String.eqb_spec k "Mmin"); [subst; tauto|]. reflexivity. }
  assert (BASE : forall sel k, od_get String.eqb (od_update String.eqb [("mdef_model"%string, sel); ("mdef_params"%string, od200)] (h a)) k = match od_get String.eqb (h a) k with Some v => Some v | None => if String.eqb k "mdef_model" then Some sel else if String.eqb k "mdef_params" then Some od200 else None end).
  { intros sel k. rewrite (od_get_update _ SE), (last_get_wf _ SE) by exact W. reflexivity. }
  assert (ND : NoDup [so_crit; so_mean; od200]) by (repeat constructor; cbn; unfold so_crit, so_mean, od200; intuition discriminate).
  unfold mass_function_kw, mdef. cbv zeta.
  destruct (String.eqb_spec md "200crit") as [->|N1]; [|destruct (String.eqb_spec md "200mean") as [->|N2]; [|destruct (String.eqb_spec md "custom") as [->|N3]]].
  - split; [exact ND|]. split; [split; [discriminate|intros [? _]; discriminate]|]. split; [|split; [reflexivity|discriminate]]. intros kw E. apply (f_equal (fun r => match r with Ok x => x | Err _ => [] end)) in E. cbv beta iota in E. subst kw. match goal with |- context [od_update String.eqb ?b (kw_own lo hi d z)] => destruct (OWN b) as (A1 & A2 & A3 & A4 & A5) end.
    split; [exact A1|]. split; [exact A2|]. split; [exact A3|]. split; [exact A4|]. intros k N. rewrite A5 by exact N. rewrite BASE. reflexivity.
  - split; [exact ND|]. split; [split; [discriminate|intros [? _]; discriminate]|]. split; [|split; [reflexivity|discriminate]]. intros kw E. apply (f_equal (fun r => match r with Ok x => x | Err _ => [] end)) in E. cbv beta iota in E. subst kw. match goal with |- context [od_update String.eqb ?b (kw_own lo hi d z)] => destruct (OWN b) as (A1 & A2 & A3 & A4 & A5) end.
    split; [exact A1|]. split; [exact A2|]. split; [exact A3|]. split; [exact A4|]. intros k N. rewrite A5 by exact N. rewrite BASE. reflexivity.
  - split; [exact ND|]. split; [split; [discriminate|intros [_ ?]; congruence]|]. split; [|split; [congruence|]].
    + intros kw E. apply (f_equal (fun r => match r with Ok x => x | Err _ => [] end)) in E. cbv beta iota in E. subst kw. destruct (OWN (h a)) as (A1 & A2 & A3 & A4 & A5). split; [exact A1|]. split; [exact A2|]. split; [exact A3|]. split; [exact A4|]. intros k N. rewrite A5 by exact N. destruct (od_get String.eqb (h a) k); reflexivity.
    + intros _. split; [unfold set_heap; rewrite Nat.eqb_refl; reflexivity|]. intros b Nb. unfold set_heap. destruct (Nat.eqb_spec b a); [contradiction|reflexivity].
  - split; [exact ND|]. split; [split; [intros _; split; [reflexivity|exact N3]|reflexivity]|]. split; [discriminate|]. split; [reflexivity|congruence].
Qed.
Print Assumptions C74_keywords.
(** The default dictionary is shared by all calls and 'custom' calls write to it, but only keywords every call overwrites: what a
    call with the default hands over never depends on the calls before. *)
Fixpoint run_default (h : nat -> dict) (calls : list (string * (nat * nat * nat * nat))) : nat -> dict :=
  match calls with [] => h | (md, (lo, hi, d, z)) :: cs => run_default (snd (mass_function_kw h 0%nat md lo hi d z)) cs end.
Lemma own_wf lo hi d z : od_wf (kw_own lo hi d z).
Proof. unfold od_wf, kw_own, od_keys. cbn. repeat constructor; cbn; intuition discriminate. Qed.
Theorem C74_history_free : forall calls md lo hi d z, let h0 := fun _ => [] : dict in
  match fst (mass_function_kw (run_default h0 calls) 0%nat md lo hi d z), fst (mass_function_kw h0 0%nat md lo hi d z) with
  | Ok kw, Ok kw0 => forall k, od_get String.eqb kw k = od_get String.eqb kw0 k
  | Err e, Err e0 => e = e0 | _, _ => False end.
Proof.
  intros calls md lo hi d z h0. pose proof String.eqb_spec as SE.
  assert (INV : forall calls h, od_wf (h 0%nat) -> (forall k, ~ In k own_keys -> od_get String.eqb (h 0%nat) k = None) -> od_wf (run_default h calls 0%nat) /\ (forall k, ~ In k own_keys -> od_get String.eqb (run_default h calls 0%nat) k = None)).
  { clear. induction calls as [|[md [[[lo hi] d] z]] calls IH]; intros h W N; [auto|]. cbn [run_default]. pose proof (C74_keywords h 0%nat md lo hi d z W) as K.
    destruct (string_dec md "custom") as [E|E].
    - subst md. cbn [mass_function_kw] in *. change (mass_function_kw h 0 "custom" lo hi d z) with (Ok (od_update String.eqb (h 0%nat) (kw_own lo hi d z)), set_heap h 0 (od_update String.eqb (h 0%nat) (kw_own lo hi d z))) in *. cbn [snd].
      destruct K as (_ & _ & K & _). apply IH; unfold set_heap at 1; cbn [Nat.eqb].
      + apply od_wf_update; [exact String.eqb_spec|exact W].
      + intros k Nk. destruct (K _ eq_refl) as (_ & _ & _ & _ & K5). unfold set_heap. cbn [Nat.eqb]. rewrite K5 by exact Nk. rewrite N by exact Nk. reflexivity.
    - destruct (mass_function_kw h 0 md lo hi d z) as [r h'] eqn:ME. cbn [snd]. destruct K as (_ & _ & _ & K & _). apply IH; rewrite (K E); assumption. }
  destruct (INV calls h0) as [W N]; [constructor|reflexivity|]. set (h := run_default h0 calls) in *. clearbody h.
  pose proof (C74_keywords h 0%nat md lo hi d z W) as K. pose proof (C74_keywords h0 0%nat md lo hi d z ltac:(constructor)) as K0.
  destruct (mass_function_kw h 0 md lo hi d z) as [r h'] eqn:E1. destruct (mass_function_kw h0 0 md lo hi d z) as [r0 h0'] eqn:E2. cbn [fst]. destruct K as (_ & KE & KO & _). destruct K0 as (_ & KE0 & KO0 & _).
  destruct r as [kw|e]; destruct r0 as [kw0|e0].
  - destruct (KO _ eq_refl) as (A1 & A2 & A3 & A4 & A5). destruct (KO0 _ eq_refl) as (B1 & B2 & B3 & B4 & B5). intros k. destruct (in_dec string_dec k own_keys) as [I|I].
    + cbn in I. destruct I as [<-|[<-|[<-|[<-|[]]]]]; congruence.
    + rewrite A5, B5 by exact I. rewrite N by exact I. reflexivity.
  - unfold mass_function_kw in E1, E2. cbv zeta in E1, E2. destruct (String.eqb md "200crit"); [discriminate E2|]. destruct (String.eqb md "200mean"); [discriminate E2|]. destruct (String.eqb md "custom"); [discriminate E2|discriminate E1].
  - unfold mass_function_kw in E1, E2. cbv zeta in E1, E2. destruct (String.eqb md "200crit"); [discriminate E1|]. destruct (String.eqb md "200mean"); [discriminate E1|]. destruct (String.eqb md "custom"); [discriminate E1|discriminate E2].
  - unfold mass_function_kw in E1, E2. cbv zeta in E1, E2. destruct (String.eqb md "200crit"); [discriminate E1|]. destruct (String.eqb md "200mean"); [discriminate E1|]. destruct (String.eqb md "custom"); [discriminate E1|congruence].
Qed.
Print Assumptions C74_history_free.
(** Finding, concretely: after a 'custom' call the caller's dictionary has grown. *)
Theorem C74_custom_mutates_refuted : exists h a, od_keys (h a) = ["mdef_model"%string] /\ od_keys (snd (mass_function_kw h a "custom" 1 2 3 4) a) = ["mdef_model"; "Mmin"; "Mmax"; "dlog10m"; "z"]%string.
Proof. exists (fun _ => [("mdef_model"%string, 7%nat)]), 0%nat. split; reflexivity. Qed.
Print Assumptions C74_custom_mutates_refuted.

Example C74_case : physical {| rho_crit := fun z => 3 * (1 + z) ^ 3; om := fun _ => 1; G := 43; v_to_kmps := 978 |} 1 /\ (forall w, -1 < w -> 3 * (1 + w) ^ 3 * 1 = 3 * (1 + 0) ^ 3 * 1 * (1 + w) ^ 3).
Proof. unfold physical. cbn. split; [lra|]. intros. ring. Qed.

(** ** How far off the table can be *)
Lemma linspace_bracket a b n c : (2 <= n)%nat -> a < b -> a <= c <= b -> exists p q, In p (linspace a b n) /\ In q (linspace a b n) /\ p <= c <= q /\ q - p <= (b - a) / (INR n - 1).
Proof.
  intros Hn Hab Hc. destruct n as [|[|n]]; try lia. set (N := INR (S (S n) - 1)). assert (EN : N = INR (S (S n)) - 1). { unfold N. replace (S (S n) - 1)%nat with (S n) by lia. rewrite (S_INR (S n)). ring. }
  assert (PN : 0 < N) by (unfold N; replace (S (S n) - 1)%nat with (S n) by lia; apply lt_0_INR; lia). set (st := (b - a) / N). assert (Pst : 0 < st) by (apply Rdiv_lt_0_compat; lra).
  rewrite <- EN. fold st. assert (IN : forall i, (i < S (S n))%nat -> In (a + INR i * st) (linspace a b (S (S n)))).
  { intros i Hi. unfold linspace. apply in_map_iff. exists i. split; [reflexivity|]. apply in_seq. lia. }
  assert (NB : N * st = b - a) by (unfold st; field; lra).
  assert (K : forall k, (k <= S n)%nat -> c <= a + INR k * st -> exists p q, In p (linspace a b (S (S n))) /\ In q (linspace a b (S (S n))) /\ p <= c <= q /\ q - p <= st).
  { induction k as [|k IH]; intros Hk L.
    - exists (a + INR 0 * st), (a + INR 0 * st). cbn [INR] in *. split; [apply (IN 0%nat); lia|]. split; [apply (IN 0%nat); lia|]. lra.
    - destruct (Rle_lt_dec c (a + INR k * st)) as [C|C]; [apply IH; [lia|exact C]|]. exists (a + INR k * st), (a + INR (S k) * st). split; [apply IN; lia|]. split; [apply IN; lia|]. split; [lra|]. rewrite S_INR. lra. }
  apply (K (S n)); [lia|]. replace (INR (S n)) with N by (unfold N; f_equal; lia). lra.
Qed.
Lemma linspace_ends a b n : (2 <= n)%nat -> In a (linspace a b n) /\ In b (linspace a b n).
Proof.
  intros Hn. destruct n as [|[|n]]; try lia. unfold linspace. split; apply in_map_iff.
  - exists 0%nat. split; [cbn [INR]; ring|apply in_seq; lia].
  - exists (S n). split; [|apply in_seq; lia]. replace (S (S n) - 1)%nat with (S n) by lia. assert (0 < INR (S n)) by (apply lt_0_INR; lia). field. lra.
Qed.
Lemma nodes_bracket n c : (2 <= n)%nat -> 21626 / 10000 <= c <= 1000 -> exists p q, In p (c_nodes n) /\ In q (c_nodes n) /\ p <= c <= q /\ q - p <= Rmax 1 (899 / (INR n - 1)).
Proof.
  intros Hn Hc. assert (PN : 0 < INR n - 1). { assert (2 <= INR n) by (apply (le_INR 2); exact Hn). lra. } assert (PI : 0 < / (INR n - 1)) by (apply Rinv_0_lt_compat, PN).
  assert (M1 : 1 <= Rmax 1 (899 / (INR n - 1))) by apply Rmax_l. assert (M2 : 899 / (INR n - 1) <= Rmax 1 (899 / (INR n - 1))) by apply Rmax_r.
  assert (IN : forall x, (In x (linspace (21626 / 10000) 50 n) \/ In x (linspace 51 100 n) \/ In x (linspace 101 1000 n)) -> In x (c_nodes n)) by (intros x Hx; unfold c_nodes; rewrite !in_app_iff; tauto).
  destruct (linspace_ends (21626 / 10000) 50 n Hn) as [_ E1]. destruct (linspace_ends 51 100 n Hn) as [E2 E3]. destruct (linspace_ends 101 1000 n Hn) as [E4 _].
  assert (B : forall x, x <= 899 -> x / (INR n - 1) <= Rmax 1 (899 / (INR n - 1))). { intros x Hx. apply Rle_trans with (2 := M2). unfold Rdiv. apply Rmult_le_compat_r; lra. }
  destruct (Rle_lt_dec c 50) as [C1|C1]; [|destruct (Rle_lt_dec c 51) as [C2|C2]; [|destruct (Rle_lt_dec c 100) as [C3|C3]; [|destruct (Rle_lt_dec c 101) as [C4|C4]]]].
  - destruct (linspace_bracket (21626 / 10000) 50 n c Hn ltac:(lra) ltac:(lra)) as (p & q & Hp & Hq & H & G). exists p, q. split; [auto|]. split; [auto|]. split; [exact H|]. eapply Rle_trans; [exact G|]. apply B. lra.
  - exists 50, 51. split; [auto|]. split; [auto|]. lra.
  - destruct (linspace_bracket 51 100 n c Hn ltac:(lra) ltac:(lra)) as (p & q & Hp & Hq & H & G). exists p, q. split; [auto|]. split; [auto|]. split; [exact H|]. eapply Rle_trans; [exact G|]. apply B. lra.
  - exists 100, 101. split; [auto|]. split; [auto 6|]. lra.
  - destruct (linspace_bracket 101 1000 n c Hn ltac:(lra) ltac:(lra)) as (p & q & Hp & Hq & H & G). exists p, q. split; [auto 6|]. split; [auto 6|]. split; [exact H|]. eapply Rle_trans; [exact G|]. apply B. lra.
Qed.
(** The concentration read back from the table is off by at most the table's spacing. *)
Theorem C74_inverse_error : forall n c, (2 <= n)%nat -> 21626 / 10000 <= c <= 1000 -> exists c', v_to_c n (c_to_v c) = Ok c' /\ Rabs (c' - c) <= Rmax 1 (899 / (INR n - 1)).
Proof.
  intros n c Hn Hc. destruct (C74_inverse n Hn) as [H _]. destruct (H c Hc) as (c' & E & Hb). exists c'. split; [exact E|].
  destruct (nodes_bracket n c Hn Hc) as (p & q & Hp & Hq & Hpq & G). destruct (Hb p Hp) as (P1 & P2 & P3). destruct (Hb q Hq) as (Q1 & Q2 & Q3).
  assert (p <= c'). { destruct (Rle_lt_or_eq_dec p c (proj1 Hpq)) as [L|L]; [left; apply P2, L|right; symmetry; apply P3; lra]. }
  assert (c' <= q). { destruct (Rle_lt_or_eq_dec c q (proj2 Hpq)) as [L|L]; [left; apply Q1, L|right; apply Q3, L]. }
  apply Rabs_le. lra.
Qed.
Print Assumptions C74_inverse_error.
