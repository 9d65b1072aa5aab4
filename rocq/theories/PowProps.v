(** C56: growth factor, transfer functions, power spectrum and the variance of the smoothed density field. *)
From Coq Require Import Reals Lra Lia.
From Coquelicot Require Import Coquelicot.
From Verif Require Import Base CosmModel CosmProps PowModel PowProofs PowProofs2 PowProofs3 PowProofs4 PowProofs5 PowSpec.
Local Open Scope R_scope.

(** The growth factor is one today and positive; without dark energy it is the scale factor; delta_crit grows as it falls. *)
Theorem C56_growth : forall c z, usual c -> -1 < z ->
  growth c 0 = 1 /\ 0 < growth c z /\ delta_crit c z * growth c z = 1686 / 1000 /\ delta_crit c 0 = 1686 / 1000 /\ (omega_m0 c = 1 -> growth c z = 1 / (1 + z)).
Proof.
  intros c z U Hz. pose proof (growth_pos c z U Hz) as P. split; [apply growth_0, U|]. split; [exact P|]. split; [unfold delta_crit; field; lra|]. split; [unfold delta_crit; rewrite growth_0 by exact U; field|].
  intros E. rewrite growth_is. unfold growth_raw. cbv zeta.
  assert (OM : forall z, -1 < z -> omega_m c z = 1). { intros w Hw. unfold omega_m, efunc_sqr, omega_l0. rewrite E. assert (0 < (w + 1) ^ 3) by (apply pow_lt; lra). field. lra. }
  assert (OL : forall z, -1 < z -> omega_l c z = 0). { intros w Hw. destruct (C55_budget c w U Hw) as (S & _). rewrite OM in S by exact Hw. lra. }
  rewrite !OM, !OL by lra. rewrite npow_1. field. lra.
Qed.
Print Assumptions C56_growth.

(** The window function lies within [-1, 1], is 1 - O(x^2) towards large scales (and the cut at 1e-5 is within that error). *)
Theorem C56_window : forall k r, 0 <= k * r -> -1 <= window k r <= 1 /\ 1 - (k * r) ^ 2 / 10 <= window k r /\ (0 < k * r -> 1 / 100000 <= k * r -> window k r * (k * r) ^ 3 = 3 * (sin (k * r) - k * r * cos (k * r))) /\ window 0 r = 1.
Proof.
  intros k r H. pose proof (window_bound k r H) as B. apply Rabs_def2b in B || apply Rabs_le_between in B.
  split; [lra|]. split; [|split].
  - destruct (Rlt_dec (k * r) (1 / 100000)) as [L|L]; [rewrite window_small by exact L; pose proof (sq_nonneg (k * r)); lra|]. rewrite window_large by lra. set (x := k * r) in *. clearbody x.
    assert (P : 0 < x ^ 3) by (apply pow_lt; lra). pose proof (hat_close x H). apply (Rmult_le_reg_r (x ^ 3)); [exact P|].
    replace (3 * (sin x - x * cos x) / x ^ 3 * x ^ 3) with (3 * (sin x - x * cos x)) by (field; lra). replace ((1 - x ^ 2 / 10) * x ^ 3) with (3 * (x ^ 3 / 3 - x ^ 5 / 30)) by field. lra.
  - intros P Q. rewrite window_large by exact Q. set (x := k * r) in *. clearbody x. field. lra.
  - apply window_small. lra.
Qed.
Print Assumptions C56_window.

(** Which transfer functions can be set up: with baryon effect one needs baryons, without it h in (0,2] and no negative baryons. *)
Theorem C56_setup : forall c b, 0 < omega_m0 c ->
  (variant_check c b = None <-> (if b then 0 < omega_b0 c /\ 0 < hubble c else 0 <= omega_b0 c /\ 0 < hubble c <= 2)) /\
  (variant_check c b <> None -> variant_check c b = Some ValueError).
Proof.
  intros c b Hm. assert (BF : baryon_fraction c <= 0 <-> omega_b0 c <= 0).
  { unfold baryon_fraction. split; intros H.
    - apply (Rmult_le_compat_r (omega_m0 c)) in H; [|lra]. unfold Rdiv in H. rewrite Rmult_assoc, Rinv_l in H by lra. lra.
    - apply (Rmult_le_reg_r (omega_m0 c)); [exact Hm|]. unfold Rdiv. rewrite Rmult_assoc, Rinv_l by lra. lra. }
  unfold variant_check, eh99_check. destruct b.
  - destruct (Rle_dec (omega_m0 c) 0); [lra|]. destruct (Rle_dec (baryon_fraction c) 0) as [A|A].
    { apply BF in A. split; [split; [discriminate|intros; lra]|reflexivity]. }
    assert (0 < omega_b0 c) by (apply Rnot_le_lt; tauto). destruct (Rle_dec (hubble c) 0) as [B|B].
    + split; [split; [discriminate|intros; lra]|reflexivity].
    + split; [split; [intros _; lra|reflexivity]|congruence].
  - destruct (Rlt_dec (omega_b0 c) 0); [|destruct (Rlt_dec 0 0); [lra|]; destruct (Rle_dec (hubble c) 0); [|destruct (Rlt_dec 2 (hubble c)); [|destruct (Rle_dec 0 (-1)); [lra|]; destruct (Rlt_dec 99 0); [lra|]]]];
    (split; [split; [try discriminate; intros _; lra|intros; try reflexivity; exfalso; lra]|try reflexivity; congruence]).
Qed.
Print Assumptions C56_setup.
(** Both transfer functions are continuous where used and positive on large scales; the one without baryon wiggles is positive
    everywhere; no square root of a negative number is taken in setting it up. *)
Theorem C56_transfer : forall c b, sane c -> (b = true -> 0 < omega_b0 c) ->
  (forall k, 0 < k -> continuous (nr_tf c b) k) /\ (forall k, 0 < k < exp (-16) -> 0 < nr_tf c b k) /\ (b = false -> forall k, 0 < k -> 0 < nr_tf c b k) /\ 0 < g_alpha_gamma (nr_eh99 c).
Proof.
  intros c b S Hb. split; [|split; [|split; [|apply nr_alpha, S]]].
  - intros k Hk. unfold nr_tf. destruct b; [apply (C_tf98 _ (proj1 (nr98_good c S (Hb eq_refl)))), Hk|apply (eh99_cont _ (nr_good c S)), Hk].
  - intros k Hk. unfold nr_tf. destruct b; [|apply (eh99_pos _ (nr_good c S)); lra]. destruct (nr98_good c S (Hb eq_refl)) as [G B]. apply tf98_pos; [exact G|lra|apply B, Hk].
  - intros -> k Hk. unfold nr_tf. apply (eh99_pos _ (nr_good c S)), Hk.
Qed.
Print Assumptions C56_transfer.
(** The 1998 function: unit at k = 0, even in k, its cold part strictly between 0 and 1; refused arguments leave it unchanged. *)
Theorem C56_eh98 : (forall s, eh98_tf3 s 0 = (1, 1, 1)) /\ (forall s k, eh98_tf3 s (- k) = eh98_tf3 s k) /\
  (forall s om f h t k, 0 < om -> 0 < f < 1 -> 0 < h -> 0 < t -> k <> 0 -> 0 < snd (eh98_tf3 (fst (eh98_set s om f h t)) k) < 1) /\
  (forall s om f h t, (om <= 0 \/ f <= 0 \/ h <= 0 \/ t <= 0) -> eh98_set s om f h t = (s, Some ValueError)) /\
  (forall s om f h t, 0 < om -> 0 < f -> 0 < h -> 0 < t -> snd (eh98_set s om f h t) = None).
Proof.
  split; [|split; [|split; [|split]]].
  - intros s. unfold eh98_tf3. cbv zeta. rewrite Rmult_0_l, Rabs_R0. destruct (Req_EM_T 0 0); [reflexivity|lra].
  - intros s k. unfold eh98_tf3. cbv zeta. replace (- k * e_hubble s) with (- (k * e_hubble s)) by ring. rewrite Rabs_Ropp. reflexivity.
  - intros s om f h t k Ho Hf Hh Ht Hk. destruct (set_good s om f h t Ho Hf Hh Ht) as (_ & G & HH & _ & _). unfold eh98_tf3. cbv zeta.
    assert (P : 0 < Rabs (k * e_hubble (fst (eh98_set s om f h t)))). { apply Rabs_pos_lt. rewrite HH. apply Rmult_integral_contrapositive_currified; lra. }
    destruct (Req_EM_T _ 0); [lra|]. cbn [snd]. apply (cdm_range _ G), P.
  - intros s om f h t H. unfold eh98_set. cbv zeta. destruct (Rle_dec om 0); [reflexivity|]. destruct (Rle_dec f 0); [reflexivity|]. destruct (Rle_dec h 0); [reflexivity|]. destruct (Rle_dec t 0); [reflexivity|]. exfalso. tauto.
  - intros s om f h t H1 H2 H3 H4. unfold eh98_set. cbv zeta. destruct (Rle_dec om 0); [lra|]. destruct (Rle_dec f 0); [lra|]. destruct (Rle_dec h 0); [lra|]. destruct (Rle_dec t 0); [lra|]. reflexivity.
Qed.
Print Assumptions C56_eh98.

(** ** Normalisation *)
Lemma raw_nr c b r z : sane c -> (b = true -> 0 < omega_b0 c) -> 0 < r <= 10000 -> -1 < z -> 0 < RInt (integrand (nr_tf c b) c r z) (-23) 23.
Proof. intros S Hb Hr Hz. destruct (C56_transfer c b S Hb) as (C & P & _). apply raw_pos; [exact C|apply sane_usual, S|exact Hr|exact Hz|]. intros k [K1 K2]. pose proof (exp_pos (-23)). pose proof (P k ltac:(lra)). lra. Qed.
(** sigma(8 Mpc/h) today is sigma_8, with and without baryon effect; the variance is positive on all scales up to 10 Gpc/h. *)
Theorem C56_sigma_8 : forall c b, sane c -> (b = true -> 0 < omega_b0 c) ->
  sigma_sqr (nr_tf c b) c 8 0 = sigma_8 c ^ 2 /\ (sigma_8 c <> 0 -> forall r z, 0 < r <= 10000 -> -1 < z -> 0 < sigma_sqr (nr_tf c b) c r z).
Proof.
  intros c b S Hb. pose proof (raw_nr c b 8 0 S Hb ltac:(lra) ltac:(lra)) as P. split.
  - unfold sigma_sqr, norm_of, sigma_sqr_with. rewrite Rmult_1_r. field. lra.
  - intros N r z Hr Hz. unfold sigma_sqr, norm_of, sigma_sqr_with. rewrite Rmult_1_r. apply Rmult_lt_0_compat; [apply raw_nr; assumption|]. apply Rdiv_lt_0_compat; [|exact P]. pose proof (Rlt_0_sqr _ N) as Q. unfold Rsqr in Q. replace (sigma_8 c ^ 2) with (sigma_8 c * sigma_8 c) by ring. exact Q.
Qed.
Print Assumptions C56_sigma_8.
(** Dimensionless and dimensional spectra agree, Delta^2 = k^3 P / (2 pi^2), and sigma^2 is the integral of Delta^2 W^2 over ln k. *)
Theorem C56_spectra : forall T c, (forall k z, 0 < k -> big_delta_sqr T c k z = k ^ 3 * power T c k z / (2 * PI ^ 2)) /\
  ((forall k, 0 < k -> continuous T k) -> forall r z, 0 < r -> sigma_sqr T c r z = RInt (fun u => big_delta_sqr T c (exp u) z * window (exp u) r ^ 2) (-23) 23 /\
     ex_RInt (fun u => big_delta_sqr T c (exp u) z * window (exp u) r ^ 2) (-23) 23).
Proof.
  intros T c. split.
  - intros k z Hk. unfold big_delta_sqr, power. rewrite !npow_pos by exact Hk. rewrite Rpower_plus. rewrite <- (Rpower_pow 3 k Hk). replace (INR 3) with 3 by (simpl; ring). pose proof PI_RGT_0. field. lra.
  - intros HT r z Hr. assert (E : ex_RInt (integrand T c r z) (-23) 23) by (apply ex_integrand; [exact HT|exact Hr|lra]).
    assert (X : forall u, scal (norm_of T c) (integrand T c r z u) = big_delta_sqr T c (exp u) z * window (exp u) r ^ 2).
    { intros u. unfold big_delta_sqr, integrand. cbv zeta. change scal with Rmult. cbn. ring. }
    split.
    + unfold sigma_sqr, sigma_sqr_with. rewrite Rmult_comm. rewrite <- (RInt_ext (fun u => scal (norm_of T c) (integrand T c r z u)) (fun u => big_delta_sqr T c (exp u) z * window (exp u) r ^ 2)) by (intros; apply X). symmetry. exact (RInt_scal (V := R_CompleteNormedModule) (integrand T c r z) (-23) 23 (norm_of T c) E).
    + apply (ex_RInt_ext (fun u => scal (norm_of T c) (integrand T c r z u))); [intros; apply X|]. apply (ex_RInt_scal (V := R_NormedModule)). exact E.
Qed.
Print Assumptions C56_spectra.
Lemma raw_scale T T' c a r z : (forall k, 0 < k -> continuous T k) -> 0 < r -> (forall u, integrand T' c r z u = a * integrand T c r 0 u) -> RInt (integrand T' c r z) (-23) 23 = a * RInt (integrand T c r 0) (-23) 23.
Proof.
  intros HT Hr X. rewrite (RInt_ext _ (fun u => scal a (integrand T c r 0 u))) by (intros; rewrite X; reflexivity). apply (RInt_scal (V := R_CompleteNormedModule)). apply ex_integrand; [exact HT|exact Hr|lra].
Qed.
(** Everything scales with the growth factor squared, and not with the arbitrary amplitude of the transfer function. *)
Theorem C56_growth_scaling : forall T c, usual c -> (forall k, 0 < k -> continuous T k) -> (forall r z, 0 < r -> sigma_sqr T c r z = growth c z ^ 2 * sigma_sqr T c r 0) /\
  (forall k z, big_delta_sqr T c k z = growth c z ^ 2 * big_delta_sqr T c k 0) /\ (forall k z, power T c k z = growth c z ^ 2 * power T c k 0).
Proof.
  intros T c U HT. pose proof (growth_0 c U) as G0. split; [|split].
  - intros r z Hr. unfold sigma_sqr, sigma_sqr_with. rewrite (raw_scale T T c (growth c z ^ 2) r z HT Hr); [ring|]. intros u. unfold integrand. cbv zeta. rewrite G0. ring.
  - intros k z. unfold big_delta_sqr. rewrite G0. ring.
  - intros k z. unfold power. rewrite G0. ring.
Qed.
Print Assumptions C56_growth_scaling.
Theorem C56_amplitude_free : forall T c a, a <> 0 -> usual c -> (forall k, 0 < k -> continuous T k) -> RInt (integrand T c 8 0) (-23) 23 <> 0 -> let T' := fun k => a * T k in
  (forall r z, 0 < r -> sigma_sqr T' c r z = sigma_sqr T c r z) /\ (forall k z, big_delta_sqr T' c k z = big_delta_sqr T c k z) /\ (forall k z, power T' c k z = power T c k z).
Proof.
  intros T c a Ha U HT N T'. assert (X : forall r, 0 < r -> RInt (integrand T' c r 0) (-23) 23 = a ^ 2 * RInt (integrand T c r 0) (-23) 23).
  { intros r Hr. apply raw_scale; [exact HT|exact Hr|]. intros u. unfold integrand, T'. cbv zeta. ring. }
  assert (A2 : a ^ 2 <> 0) by (apply pow_nonzero, Ha).
  assert (NN : norm_of T' c * a ^ 2 = norm_of T c). { unfold norm_of, sigma_sqr_with. rewrite X by lra. rewrite !Rmult_1_r. field. split; [exact N|exact Ha]. }
  assert (HT' : forall k, 0 < k -> continuous T' k). { intros k Hk. unfold T'. apply C_mult; [apply C_const|apply HT, Hk]. }
  destruct (C56_growth_scaling T c U HT) as (S & _). destruct (C56_growth_scaling T' c U HT') as (S' & _).
  split; [|split].
  - intros r z Hr. rewrite S, S' by exact Hr. f_equal. unfold sigma_sqr, sigma_sqr_with. rewrite X by exact Hr. rewrite <- NN. ring.
  - intros k z. unfold big_delta_sqr. change (T' k) with (a * T k). rewrite <- NN. ring.
  - intros k z. unfold power. change (T' k) with (a * T k). rewrite <- NN. ring.
Qed.
Print Assumptions C56_amplitude_free.
(** Doubling sigma_8 doubles sigma: all spectra are proportional to sigma_8^2. *)
Theorem C56_sigma_8_scaling : forall T c s, sigma_8 c <> 0 -> let q := (s / sigma_8 c) ^ 2 in
  (forall r z, sigma_sqr T (with_sigma_8 c s) r z = q * sigma_sqr T c r z) /\ (forall k z, power T (with_sigma_8 c s) k z = q * power T c k z) /\ (forall b k, nr_tf (with_sigma_8 c s) b k = nr_tf c b k).
Proof.
  intros T c s N q. assert (NN : norm_of T (with_sigma_8 c s) = q * norm_of T c).
  { unfold norm_of, q. change (sigma_8 (with_sigma_8 c s)) with s. change (sigma_sqr_with 1 T (with_sigma_8 c s) 8 0) with (sigma_sqr_with 1 T c 8 0). unfold Rdiv. set (i := / sigma_sqr_with 1 T c 8 0). transitivity (s ^ 2 * i * (/ sigma_8 c * sigma_8 c) ^ 2); [rewrite Rinv_l by exact N; ring|ring]. }
  split; [|split; [|reflexivity]].
  - intros r z. unfold sigma_sqr. rewrite NN. unfold sigma_sqr_with. change (integrand T (with_sigma_8 c s) r z) with (integrand T c r z). ring.
  - intros k z. unfold power. rewrite NN. change (growth (with_sigma_8 c s) z) with (growth c z). change (n_spec (with_sigma_8 c s)) with (n_spec c). ring.
Qed.
Print Assumptions C56_sigma_8_scaling.
(** The variance at a mass is the variance at the radius of the sphere holding it at mean density. *)
Theorem C56_at_mass : forall T c, usual c -> (forall r z, 0 <= r -> sigma_sqr_at_mass T c (r_to_m c r) z = sigma_sqr T c r z) /\ (forall m z, 0 <= m -> exists r, 0 <= r /\ r_to_m c r = m /\ sigma_sqr_at_mass T c m z = sigma_sqr T c r z).
Proof.
  intros T c U. destruct (C55_mass_radius c U) as (A & B & _). split.
  - intros r z Hr. unfold sigma_sqr_at_mass. rewrite A by exact Hr. reflexivity.
  - intros m z Hm. destruct (B m Hm) as [B1 B2]. exists (m_to_r c m). auto.
Qed.
Print Assumptions C56_at_mass.
(** Finding: without baryon effect, a cosmology without baryons silently gets the transfer function of Omega_b = 1e-5, and every
    cosmology a trace of hot dark matter (Omega_hdm = 1e-5) although none was asked for. *)
Theorem C56_traces_refuted : forall om h ol, eh99_params om 0 0 1 ol h 0 = eh99_params om (1 / 100000) (1 / 100000) 1 ol h 0 /\ g_f_hdm (eh99_params om 0 0 1 ol h 0) = 1 / 100000 / om.
Proof.
  intros. unfold eh99_params. destruct (Rle_dec 0 0); [|lra]. destruct (Rle_dec (1 / 100000) 0); [lra|]. split; reflexivity.
Qed.
Print Assumptions C56_traces_refuted.

(** The arguments _TransferFunctionEH99.set_cosmology refuses, each with ValueError: negative densities, a Hubble parameter
    outside (0, 2], a redshift outside (-1, 99]. *)
Theorem C56_eh99_refused : forall ob oh h z, (eh99_check ob oh h z = None <-> 0 <= ob /\ 0 <= oh /\ 0 < h <= 2 /\ -1 < z <= 99) /\
  forall e, eh99_check ob oh h z = Some e -> e = ValueError.
Proof.
  intros ob oh h z. unfold eh99_check. destruct (Rlt_dec ob 0); [split; [split; [discriminate|lra]|congruence]|]. destruct (Rlt_dec oh 0); [split; [split; [discriminate|lra]|congruence]|].
  destruct (Rle_dec h 0); [split; [split; [discriminate|lra]|congruence]|]. destruct (Rlt_dec 2 h); [split; [split; [discriminate|lra]|congruence]|].
  destruct (Rle_dec z (-1)); [split; [split; [discriminate|lra]|congruence]|]. destruct (Rlt_dec 99 z); [split; [split; [discriminate|lra]|congruence]|]. split; [split; [lra|reflexivity]|discriminate].
Qed.
Print Assumptions C56_eh99_refused.
(** The growth factor is that of Carroll, Press & Turner (1992), normalised to today. *)
Theorem C56_growth_published : forall c z, usual c -> -1 < z ->
  growth c z = cpt92_g (omega_m c z) (omega_l c z) / (1 + z) / cpt92_g (omega_m0 c) (1 - omega_m0 c).
Proof. exact growth_cpt. Qed.
Print Assumptions C56_growth_published.
(** With baryon effect the transfer function is that of Eisenstein & Hu (1998), at T = 2.728 K. *)
Theorem C56_eh98_published :
  (forall s om f h T k, 0 < om -> 0 < f < 1 -> 0 < h -> 0 < T -> 0 < k -> eh98_tf (fst (eh98_set s om f h T)) k = EH98 om f h T k) /\
  (forall c k, 0 < omega_b0 c < omega_m0 c -> 0 < hubble c -> 0 < k -> nr_tf c true k = EH98 (omega_m0 c) (omega_b0 c / omega_m0 c) (hubble c) (2728 / 1000) k).
Proof.
  split; [intros; apply tf98_is; assumption|]. intros c k Hb Hh Hk. unfold nr_tf, nr_eh98. apply tf98_is; try assumption; try lra. unfold baryon_fraction. split; [apply Rdiv_lt_0_compat; lra|].
  apply (Rmult_lt_reg_r (omega_m0 c)); [lra|]. unfold Rdiv. rewrite Rmult_assoc, Rinv_l by lra. lra.
Qed.
Print Assumptions C56_eh98_published.
(** Without it, that of Eisenstein & Hu (1999), for any redshift, massive neutrinos and an open or flat universe; and for the
    cosmologies of the library at redshift 0 with one species of 1e-5 of hot dark matter. *)
Theorem C56_eh99_published :
  (forall om ob onu n ol h z nu k, 0 < om -> 0 < ob -> 0 < onu -> ob + onu < om -> 1 <= n -> 0 <= ol -> om + ol <= 1 -> 0 < h -> -1 < z -> 0 < k ->
     0 <= EH99_alpha om ob onu n h -> eh99_tf (eh99_params om ob onu n ol h z) nu k = EH99 nu om ob onu n ol h z k) /\
  (forall c k, sane c -> 0 < k -> let ob := if Rlt_dec 0 (omega_b0 c) then omega_b0 c else 1 / 100000 in
     nr_tf c false k = EH99 false (omega_m0 c) ob (1 / 100000) 1 (1 - omega_m0 c) (hubble c) 0 k /\ 0 < EH99_alpha (omega_m0 c) ob (1 / 100000) 1 (hubble c)).
Proof.
  split; [intros; apply tf99_is; assumption|]. intros c k S Hk ob. pose proof (nr_alpha c S) as A. destruct S as ([H1 H2] & [H3 H4] & H5 & H6).
  assert (B : 0 < ob <= omega_m0 c / 2) by (unfold ob; destruct (Rlt_dec 0 (omega_b0 c)); lra).
  assert (E : nr_eh99 c = eh99_params (omega_m0 c) ob (1 / 100000) 1 (1 - omega_m0 c) (hubble c) 0).
  { unfold nr_eh99, eh99_params, omega_l0. destruct (Rle_dec 0 0); [|lra]. destruct (Rle_dec (1 / 100000) 0); [lra|]. destruct (Rle_dec ob 0); [lra|].
    replace (if Rle_dec (omega_b0 c) 0 then 1 / 100000 else omega_b0 c) with ob; [reflexivity|]. unfold ob. destruct (Rlt_dec 0 (omega_b0 c)), (Rle_dec (omega_b0 c) 0); lra. }
  split.
  - unfold nr_tf. rewrite E. apply tf99_is; lra.
  - rewrite E, set99_is in A by lra. cbn [g_alpha_gamma] in A. destruct (Rle_lt_dec (EH99_alpha (omega_m0 c) ob (1 / 100000) 1 (hubble c)) 0) as [L|L]; [|exact L]. rewrite sqrt_neg_0 in A by exact L. lra.
Qed.
Print Assumptions C56_eh99_published.
(** The shape of the spectra: P is proportional to k^n T(k)^2, Delta^2 to k^(3+n) T(k)^2. *)
Theorem C56_shape : forall T c z k1 k2, 0 < k1 -> 0 < k2 ->
  power T c k1 z * (Rpower k2 (n_spec c) * T k2 ^ 2) = power T c k2 z * (Rpower k1 (n_spec c) * T k1 ^ 2) /\
  big_delta_sqr T c k1 z * (Rpower k2 (3 + n_spec c) * T k2 ^ 2) = big_delta_sqr T c k2 z * (Rpower k1 (3 + n_spec c) * T k1 ^ 2).
Proof. intros T c z k1 k2 H1 H2. unfold power, big_delta_sqr. rewrite !npow_pos by assumption. split; ring. Qed.
Print Assumptions C56_shape.

Example C56_planck : sane {| hubble := 6774 / 10000; omega_m0 := 3089 / 10000; omega_b0 := 486 / 10000; n_spec := 9667 / 10000; sigma_8 := 8159 / 10000 |} /\
  0 < omega_b0 {| hubble := 6774 / 10000; omega_m0 := 3089 / 10000; omega_b0 := 486 / 10000; n_spec := 9667 / 10000; sigma_8 := 8159 / 10000 |}.
Proof. unfold sane. cbn [omega_m0 hubble omega_b0]. lra. Qed.
(** The hypotheses of the published formulas: matter only, 0.05 of it baryons and 1e-5 in neutrinos. *)
Example C56_published_case : 0 < EH99_alpha 1 (1 / 20) (1 / 100000) 1 1 /\ sane {| hubble := 1; omega_m0 := 1; omega_b0 := 1 / 20; n_spec := 1; sigma_8 := 1 |}.
Proof.
  assert (S : sane {| hubble := 1; omega_m0 := 1; omega_b0 := 1 / 20; n_spec := 1; sigma_8 := 1 |}) by (unfold sane; cbn [omega_m0 hubble omega_b0]; lra).
  split; [|exact S]. destruct (proj2 C56_eh99_published _ 1 S ltac:(lra)) as [_ A]. cbn [omega_m0 hubble omega_b0] in A. destruct (Rlt_dec 0 (1 / 20)); [exact A|lra].
Qed.
