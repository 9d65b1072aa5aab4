(** Lemmas for C95. *)
From Coq Require Import Lia.
From Verif Require Import Base Str OdictSpec H5Model H5Spec H5Proofs H5Proofs2 H5Proofs3 H5cModel H5cSpec.
Local Open Scope list_scope. Local Open Scope nat_scope.

Lemma steps_trans flag a b c : steps flag a b -> steps flag b c -> steps flag a c.
Proof. induction 1; [auto|]. intros H1. eapply steps_next; eauto. Qed.
Lemma steps_one flag a b : step flag a b -> steps flag a b.
Proof. intros H. eapply steps_next; [exact H|apply steps_refl]. Qed.
Lemma step_det flag a b c : step flag a b -> step flag a c -> b = c.
Proof. intros H1 H2. inversion H1; subst; inversion H2; subst; congruence. Qed.
Lemma raised_end flag e h c : steps flag (Raised e h) c -> c = Raised e h.
Proof. intros H. inversion H as [|? b ? S]; subst; [reflexivity|inversion S]. Qed.
Lemma nil_end flag h c : steps flag (Run [] h) c -> c = Run [] h.
Proof. intros H. inversion H as [|? b ? S]; subst; [reflexivity|inversion S]. Qed.
Definition final (c : conf) : Prop := match c with Run [] _ => True | Raised _ _ => True | _ => False end.
Lemma final_end flag a c : final a -> steps flag a c -> c = a.
Proof. destruct a as [[|]|]; [intros _; apply nil_end|contradiction|intros _; apply raised_end]. Qed.
(** A stopped run continues to where the whole run ends. *)
Lemma steps_join flag a b c : steps flag a b -> steps flag a c -> final c -> steps flag b c.
Proof.
  intros H. revert c. induction H as [c0|a b b' S H IH]; intros c Hc F; [exact Hc|].
  inversion Hc as [|? x ? S2 H2]; subst.
  - exfalso. destruct c as [[|]|]; inversion S; subst; contradiction.
  - rewrite (step_det _ _ _ _ S S2) in *. apply IH; assumption.
Qed.
Lemma final_unique flag a b c : steps flag a b -> steps flag a c -> final b -> final c -> b = c.
Proof. intros H1 H2 F1 F2. symmetry. eapply final_end; [exact F1|]. eapply steps_join; eauto. Qed.

(** dump is these steps. *)
Definition outcome (p : result unit * file) (js : list job) : conf :=
  match p with (Ok _, h) => Run js h | (Err e, h) => Raised e h end.
Lemma items_steps flag : forall d, match d with DLeaf _ => True | DMap items =>
  dict_supported d = true -> forall h g js, steps flag (Run (jobs_of g items ++ js) h) (outcome (dump_items flag g h items) js) end.
Proof.
  induction d as [l|items IH] using data_ind'; [exact I|]. rewrite supported_map. intros HS.
  induction items as [|[[k|] v] items IHi]; intros h g js; cbn [supp_items] in HS; [apply steps_refl| |discriminate].
  assert (HI : forall h g js, steps flag (Run (jobs_of g items ++ js) h) (outcome (dump_items flag g h items) js)).
  { apply IHi; [intros k' v' Hin; apply (IH k'); right; exact Hin|]. destruct v; apply andb_prop in HS; apply HS. }
  cbn [dump_items jobs_of map fst snd app]. destruct v as [its|l].
  - apply andb_prop in HS. destruct HS as [HS _]. change (dict_supported (DMap its) = true) in HS.
    destruct (create_group h g k flag) as [[g1|e] h1] eqn:E; [|apply steps_one, step_group_err; exact E].
    eapply steps_next; [apply step_group; exact E|]. rewrite dump_map, HS.
    eapply steps_trans; [apply (IH (KStr k) _ (or_introl eq_refl)); exact HS|].
    destruct (dump_items flag g1 h1 its) as [[u|e] h2]; [apply HI|apply steps_refl].
  - destruct (ds_create h g k l flag) as [[g1|e] h1] eqn:E; [|apply steps_one, step_dset_err; exact E].
    eapply steps_next; [eapply step_dset; exact E|]. apply HI.
Qed.
Lemma dump_steps flag h g items : dict_supported (DMap items) = true ->
  steps flag (Run (jobs_of g items) h) (outcome (dump h g (DMap items) flag) []).
Proof.
  intros HS. pose proof (items_steps flag (DMap items) HS h g []) as H. rewrite app_nil_r in H. rewrite dump_map, HS. exact H.
Qed.
Lemma outcome_final p : final (outcome p []).
Proof. destruct p as [[|] h]; exact I. Qed.
Lemma outcome_inj p q : outcome p [] = outcome q [] -> p = q.
Proof. destruct p as [[[]|] h], q as [[[]|] h']; cbn; intros H; inversion H; reflexivity. Qed.
Lemma outcome_ok p h : outcome p [] = Run [] h -> p = (Ok tt, h).
Proof. destruct p as [[[]|] h']; cbn; intros H; inversion H; reflexivity. Qed.
Lemma outcome_err p e h : outcome p [] = Raised e h -> p = (Err e, h).
Proof. destruct p as [[[]|] h']; cbn; intros H; inversion H; reflexivity. Qed.

(** Relations kept along the steps. *)
Definition file_of (c : conf) : file := match c with Run _ h => h | Raised _ h => h end.
Lemma steps_rel (R : file -> file -> Prop) flag :
  (forall h, R h h) -> (forall a b c, R a b -> R b c -> R a c) ->
  (forall h g k r h', create_group h g k flag = (r, h') -> R h h') ->
  (forall h g k v r h', ds_create h g k v flag = (r, h') -> R h h') ->
  forall a b, steps flag a b -> R (file_of a) (file_of b).
Proof.
  intros Rr Rt Rg Rd a b H. induction H as [c|a b c S H IH]; [apply Rr|]. eapply Rt; [|exact IH]. inversion S; subst; cbn [file_of]; eauto.
Qed.
Lemma steps_grow flag a b : steps flag a b -> grows (file_of a) (file_of b).
Proof.
  apply steps_rel; [apply evolves_refl|apply evolves_trans|intros; apply extends_grows; eapply create_group_extends; eassumption|].
  intros; eapply ds_create_grows; eassumption.
Qed.
Lemma steps_extend flag a b : flag <> "ac"%string -> flag <> "ca"%string -> steps flag a b -> extends (file_of a) (file_of b).
Proof.
  intros N1 N2. apply steps_rel; [apply evolves_refl|apply evolves_trans|intros; eapply create_group_extends; eassumption|].
  intros; eapply ds_create_x_extends; eassumption.
Qed.

(** Empty datasets keep their value. *)
Definition empties (h h' : file) : Prop :=
  forall i d, dset_of h i = Some d -> prod (shp d) = 0 -> dset_of h' i = Some d.
Lemma empties_extends h h' : extends h h' -> empties h h'.
Proof. intros E i d Hd _. destruct (evolves_dset _ _ _ _ _ E Hd) as (d' & H1 & _ & _ & H2). rewrite <- (H2 eq_refl). exact H1. Qed.
Lemma ds_create_empties h g k v flag r h' : ds_create h g k v flag = (r, h') -> empties h h'.
Proof.
  unfold ds_create. destruct (negb (valid_flag flag)); [intros H; inversion H; subst; intros i d Hd _; exact Hd|].
  destruct (raw_find h g k) as [i|] eqn:Ef.
  - destruct (String.eqb flag "x"); [intros H; inversion H; subst; intros j d Hd _; exact Hd|].
    destruct (dset_of h i) as [d0|] eqn:E0; [|intros H; inversion H; subst; intros j d Hd _; exact Hd].
    destruct (stored_as v) as [src|]; [|intros H; inversion H; subst; intros j d Hd _; exact Hd].
    destruct (raw_write d0 src) as [d'|] eqn:Ew; [|intros H; inversion H; subst; intros j d Hd _; exact Hd].
    intros H; inversion H; subst; clear H. intros j d Hd Z. rewrite (set_dset_get _ _ _ _ _ E0).
    destruct (Nat.eqb_spec j i) as [->|]; [|exact Hd]. rewrite E0 in Hd. injection Hd as <-. unfold raw_write in Ew.
    rewrite Z in Ew. cbn in Ew. congruence.
  - intros H. apply empties_extends. eapply raw_create_extends. exact H.
Qed.
Lemma steps_empties flag a b : steps flag a b -> empties (file_of a) (file_of b).
Proof.
  apply steps_rel; [intros h i d H _; exact H| |intros; apply empties_extends; eapply create_group_extends; eassumption|intros; eapply ds_create_empties; eassumption].
  intros x y z H1 H2 i d Hd Z. apply H2; [apply H1; assumption|exact Z].
Qed.

(** ** Replaying the operations on the file they left. *)
Definition replay (hj hr hk : file) : Prop :=
  length hr = length hk /\
  forall i o, nth_error hr i = Some o -> nth_error hk i = Some o \/ (nth_error hj i = Some o /\ exists d, bdy o = BDset d).
Lemma replay_start h hk : replay h hk hk.
Proof. split; auto. Qed.
Lemma replay_end hr hk : replay hk hr hk -> hr = hk.
Proof.
  intros [L H]. apply nth_ext with (d := {| bdy := BGroup []; atts := [] |}) (d' := {| bdy := BGroup []; atts := [] |}); [exact L|].
  intros n Hn. destruct (nth_error hr n) as [o|] eqn:E; [|apply nth_error_None in E; lia].
  assert (nth_error hk n = Some o) by (destruct (H _ _ E) as [|[]]; assumption).
  rewrite (nth_error_nth _ _ _ E), (nth_error_nth _ _ _ H0). reflexivity.
Qed.
Lemma replay_grows hj hr hk : grows hj hk -> replay hj hr hk -> grows hj hr.
Proof.
  intros G [L H] i o Ho. destruct (G _ _ Ho) as (ok & Hk & Ev).
  destruct (nth_error hr i) as [o'|] eqn:E.
  - exists o'. split; [reflexivity|]. destruct (H _ _ E) as [E1|[E1 _]].
    + rewrite Hk in E1. injection E1 as <-. exact Ev.
    + rewrite Ho in E1. injection E1 as <-. apply obj_evolves_refl.
  - apply nth_error_None in E. assert (i < length hk) by (apply nth_error_Some; congruence). lia.
Qed.
Lemma replay_empties hj hr hk : grows hj hk -> empties hj hk -> replay hj hr hk -> empties hj hr.
Proof.
  intros G Em R i d Hd Z. pose proof (replay_grows _ _ _ G R) as G2. destruct R as [L H].
  destruct (evolves_dset _ _ _ _ _ G2 Hd) as (d' & Hd' & _). destruct (dset_of_Some _ _ _ Hd') as [a Ha].
  destruct (H _ _ Ha) as [E|[E _]].
  - pose proof (Em _ _ Hd Z) as K. unfold dset_of in K |- *. rewrite E in K. rewrite Ha. exact K.
  - unfold dset_of in Hd |- *. rewrite E in Hd. rewrite Ha. exact Hd.
Qed.
Lemma replay_extends hj hj1 hr hk : extends hj hj1 -> replay hj hr hk -> replay hj1 hr hk.
Proof.
  intros X [L H]. split; [exact L|]. intros i o Ho. destruct (H _ _ Ho) as [|[E [d Hd]]]; [left; assumption|]. right.
  destruct (X _ _ E) as (o' & E' & Ea & Eb). rewrite Hd in Eb. destruct o as [b a], o' as [b' a']. cbn in *. subst. destruct b' as [|d']; [contradiction|]. subst. eauto.
Qed.
Lemma raw_write_alike d d2 src : dt d2 = dt d -> shp d2 = shp d -> (prod (shp d) = 0 -> d2 = d) -> raw_write d2 src = raw_write d src.
Proof.
  intros E1 E2 E3. unfold raw_write. rewrite E2. destruct (Nat.eqb_spec (prod (shp d)) 0) as [Z|]; [rewrite (E3 Z); reflexivity|]. rewrite E1. reflexivity.
Qed.
(** Writing in both files. *)
Lemma replay_write hj1 hr hk i d' d2 : grows hj1 hr -> replay hj1 hr hk -> dset_of hj1 i = Some d' -> dset_of hr i = Some d2 ->
  replay hj1 (set_body hr i (BDset d')) hk.
Proof.
  intros G [L H] H1 H2. split; [rewrite set_body_length; exact L|]. intros j o Ho.
  destruct (dset_of_Some _ _ _ H1) as [a1 A1]. destruct (dset_of_Some _ _ _ H2) as [a2 A2].
  destruct (Nat.eq_dec i j) as [->|N].
  - rewrite (nth_set_body_same _ _ _ _ A2) in Ho. injection Ho as <-. right. cbn [atts bdy]. split; [|eauto].
    destruct (G _ _ A1) as (o' & E' & Ea & _). rewrite A2 in E'. injection E' as <-. cbn in Ea. rewrite A1, Ea. reflexivity.
  - rewrite nth_set_body_other in Ho by exact N. apply H. exact Ho.
Qed.
Lemma replay_written hj hr hk i d d' : dset_of hj i = Some d ->
  (forall j o, j <> i -> nth_error hr j = Some o -> nth_error hk j = Some o \/ (nth_error hj j = Some o /\ exists d, bdy o = BDset d)) ->
  forall hr', length hr' = length hk -> (forall j, j <> i -> nth_error hr' j = nth_error hr j) ->
  (forall o, nth_error hr' i = Some o -> nth_error (set_body hj i (BDset d')) i = Some o /\ bdy o = BDset d') ->
  replay (set_body hj i (BDset d')) hr' hk.
Proof.
  intros Hd H hr' L Ho Hi. split; [exact L|]. intros j o Hj. destruct (Nat.eq_dec j i) as [->|N].
  - right. destruct (Hi _ Hj). eauto.
  - rewrite Ho in Hj by exact N. destruct (H _ _ N Hj) as [|[E D]]; [left; assumption|right]. rewrite nth_set_body_other by congruence. auto.
Qed.

Lemma flags_x f : f = "ac"%string \/ f = "ca"%string -> valid_flag f = true /\ String.eqb f "x" = false.
Proof. intros [->| ->]; split; reflexivity. Qed.
Lemma create_group_valid h g k flag g1 h1 : create_group h g k flag = (Ok g1, h1) -> is_group h1 g1 = true.
Proof.
  unfold create_group. destruct (negb (valid_flag flag)); [discriminate|]. destruct (raw_find h g k) as [i|].
  - destruct (String.eqb flag "x"); [discriminate|]. destruct (is_group h i) eqn:E; [|discriminate]. intros H; inversion H; subst; exact E.
  - unfold raw_create. destruct (rev (segs k)) as [|s ps]; [discriminate|]. destruct (mk_parents h (start g k) (rev ps)) as [[g2|] h2]; [|discriminate].
    unfold add_obj. destruct (links_of h2 g2) as [ls|]; [|discriminate]. destruct (sget ls s); [discriminate|]. intros H; inversion H; subst; clear H.
    unfold is_group, links_of. rewrite nth_error_app2 by (rewrite set_body_length; lia). rewrite set_body_length, Nat.sub_diag. reflexivity.
Qed.
Lemma is_group_grows ow h h' i : evolves ow h h' -> is_group h i = true -> is_group h' i = true.
Proof.
  intros E. unfold is_group. destruct (links_of h i) as [ls|] eqn:L; [|discriminate]. destruct (evolves_links _ _ _ _ _ E L) as (ls' & -> & _). reflexivity.
Qed.
Lemma raw_create_dset h g k d i h1 : raw_create h g k (Some (BDset d)) = (Ok i, h1) -> dset_of h1 i = Some d.
Proof.
  unfold raw_create. destruct (rev (segs k)) as [|s ps]; [discriminate|]. destruct (mk_parents h (start g k) (rev ps)) as [[g2|] h2]; [|discriminate].
  unfold add_obj. destruct (links_of h2 g2) as [ls|]; [|discriminate]. destruct (sget ls s); [discriminate|]. intros H; inversion H; subst; clear H.
  unfold dset_of. rewrite nth_error_app2 by (rewrite set_body_length; lia). rewrite set_body_length, Nat.sub_diag. reflexivity.
Qed.

Definition job_ok (j : job) : Prop := (exists s, snd (fst j) = KStr s /\ plain s) /\ plain_keys (snd j) /\ arrays_ok (snd j).
Lemma jobs_ok g items : plain_keys (DMap items) -> arrays_ok (DMap items) -> Forall job_ok (jobs_of g items).
Proof.
  intros P A. inversion P as [|? P']; subst. inversion A as [|? A']; subst. apply Forall_forall. intros j Hj. apply in_map_iff in Hj.
  destruct Hj as ([k v] & <- & Hin). destruct (P' _ _ Hin) as [Hk Hv]. split; [exact Hk|]. split; [exact Hv|]. exact (A' _ _ Hin).
Qed.
Lemma step_replay flag f2 js hj js1 hj1 hr hk : f2 = "ac"%string \/ f2 = "ca"%string -> Forall job_ok js ->
  step flag (Run js hj) (Run js1 hj1) -> grows hj1 hk -> empties hj1 hk -> replay hj hr hk ->
  exists hr1, step f2 (Run js hr) (Run js1 hr1) /\ replay hj1 hr1 hk /\ Forall job_ok js1.
Proof.
  intros Hf Hjs S G Em R. destruct (flags_x _ Hf) as [Vf Xf]. inversion S; subst; inversion Hjs as [|? ? Hj Hjs']; subst; destruct Hj as ((s & Es & Ps) & Pv & Av);
    cbn [fst snd] in Es, Pv, Av; injection Es as <-.
  - match goal with H : create_group _ _ _ _ = _ |- _ => rename H into Hc end.
    pose proof (create_group_extends _ _ _ _ _ _ Hc) as X. pose proof (replay_extends _ _ _ _ X R) as R1.
    pose proof (replay_grows _ _ _ G R1) as G1. exists hr. split; [|split; [exact R1|]].
    + apply step_group. unfold create_group. rewrite Vf, Xf. cbn [negb].
      rewrite (raw_find_mono _ _ _ _ _ _ G1 (create_group_find _ _ _ _ _ _ Ps Hc)), (is_group_grows _ _ _ _ G1 (create_group_valid _ _ _ _ _ _ Hc)). reflexivity.
    + apply Forall_app. split; [apply jobs_ok; assumption|assumption].
  - match goal with H : ds_create _ _ _ _ _ = _ |- _ => rename H into Hc end. unfold ds_create in Hc.
    destruct (negb (valid_flag flag)); [discriminate|]. inversion Av as [? Al|]; subst.
    destruct (raw_find hj g k) as [i0|] eqn:Ef.
    + destruct (String.eqb flag "x"); [discriminate|]. destruct (dset_of hj i0) as [d|] eqn:Ed; [|discriminate].
      destruct (stored_as l) as [src|] eqn:Esrc; [|discriminate]. destruct (raw_write d src) as [d'|] eqn:Ew; [|discriminate].
      injection Hc as <- <-. destruct (raw_write_keeps _ _ _ Ew) as [K1 K2].
      pose proof (evolves_set_dset _ _ _ d' Ed K1 K2) as G0. pose proof (evolves_trans _ _ _ _ G0 G) as G2.
      pose proof (replay_grows _ _ _ G2 R) as G3.
      assert (Em2 : empties hj hk).
      { intros j dj Hdj Z. apply Em; [|exact Z]. rewrite (set_dset_get _ _ _ _ _ Ed). destruct (Nat.eqb_spec j i0) as [->|]; [|exact Hdj].
        rewrite Ed in Hdj. injection Hdj as <-. f_equal. unfold raw_write in Ew. rewrite Z in Ew. cbn in Ew. congruence. }
      destruct (evolves_dset _ _ _ _ _ G3 Ed) as (d2 & Hd2 & D1 & D2 & _). pose proof (replay_empties _ _ _ G2 Em2 R _ _ Ed) as Em3.
      assert (W : raw_write d2 src = Ok d').
      { rewrite <- Ew. apply raw_write_alike; [exact D1|exact D2|]. intros Z. specialize (Em3 Z). congruence. }
      exists (set_body hr i0 (BDset d')). split; [|split; [|assumption]].
      * eapply step_dset. unfold ds_create. rewrite Vf, Xf, (raw_find_mono _ _ _ _ _ _ G3 Ef), Hd2, Esrc, W. reflexivity.
      * destruct R as [L H]. apply (replay_written hj hr hk i0 d d' Ed); [intros j o _; apply H|rewrite set_body_length; exact L|intros j N; apply nth_set_body_other; congruence|].
        intros o Ho. destruct (dset_of_Some _ _ _ Hd2) as [a2 A2]. destruct (dset_of_Some _ _ _ Ed) as [a A]. rewrite (nth_set_body_same _ _ _ _ A2) in Ho. injection Ho as <-.
        rewrite (nth_set_body_same _ _ _ _ A). cbn. split; [|reflexivity]. destruct (G3 _ _ A) as (o' & Eo & Ea & _). rewrite A2 in Eo. injection Eo as <-. cbn in Ea. congruence.
    + destruct (stored_as l) as [src|] eqn:Esrc; cbn [option_map] in Hc;
        [|unfold raw_create in Hc; destruct (rev (segs k)); [discriminate|]; destruct (mk_parents hj (start g k) (rev l0)) as [[|] ?]; discriminate].
      pose proof (raw_create_extends _ _ _ _ _ _ Hc) as X. pose proof (replay_extends _ _ _ _ X R) as R1. pose proof (replay_grows _ _ _ G R1) as G1.
      pose proof (raw_create_dset _ _ _ _ _ _ Hc) as Hd. destruct (evolves_dset _ _ _ _ _ G1 Hd) as (d2 & Hd2 & D1 & D2 & _).
      pose proof (replay_empties _ _ _ G Em R1 _ _ Hd) as Em3. destruct (Al _ eq_refl) as [O1 O2].
      assert (W : raw_write d2 src = Ok src).
      { rewrite (raw_write_alike src d2 src D1 D2); [|intros Z; specialize (Em3 Z); congruence].
        rewrite (raw_write_exact src src O1 eq_refl O1 O2). destruct src; reflexivity. }
      exists (set_body hr i (BDset src)). split; [|split; [|assumption]].
      * eapply step_dset. unfold ds_create. rewrite Vf, Xf, (raw_find_mono _ _ _ _ _ _ G1 (raw_create_new_find _ _ _ _ _ _ Ps Hc)), Hd2, Esrc, W. reflexivity.
      * eapply replay_write; eassumption.
Qed.
Lemma steps_replay flag f2 : f2 = "ac"%string \/ f2 = "ca"%string -> forall a b, steps flag a b -> forall js h js2 hk, a = Run js h -> b = Run js2 hk ->
  Forall job_ok js -> forall hr, replay h hr hk -> steps f2 (Run js hr) (Run js2 hk).
Proof.
  intros Hf a b H. induction H as [c|a b c S H IH]; intros js h js2 hk Ea Eb Ok hr R.
  - rewrite Ea in Eb. injection Eb as <- <-. rewrite (replay_end _ _ R). apply steps_refl.
  - subst. destruct b as [js1 h1|e h1]; [|apply raised_end in H; discriminate].
    pose proof (steps_grow _ _ _ H) as G. pose proof (steps_empties _ _ _ H) as Em. cbn [file_of] in G, Em.
    destruct (step_replay _ _ _ _ _ _ _ _ Hf Ok S G Em R) as (hr1 & S1 & R1 & Ok1).
    eapply steps_next; [exact S1|]. eapply IH; eauto.
Qed.
(** Replaying from the start file instead: the same flag or "ac" in place of "x". *)
Lemma step_ac flag f2 js h js1 h1 : f2 = "ac"%string \/ f2 = "ca"%string -> step flag (Run js h) (Run js1 h1) -> step f2 (Run js h) (Run js1 h1).
Proof.
  intros Hf S. destruct (flags_x _ Hf) as [Vf Xf]. inversion S; subst.
  - apply step_group. match goal with H : create_group _ _ _ _ = _ |- _ => revert H end. unfold create_group. rewrite Vf, Xf. destruct (valid_flag flag); [|discriminate]. cbn [negb].
    destruct (raw_find h g k); [|auto]. destruct (String.eqb flag "x"); [discriminate|auto].
  - eapply step_dset with (i := i). match goal with H : ds_create _ _ _ _ _ = _ |- _ => revert H end. unfold ds_create. rewrite Vf, Xf. destruct (valid_flag flag); [|discriminate]. cbn [negb].
    destruct (raw_find h g k); [|auto]. destruct (String.eqb flag "x"); [discriminate|auto].
Qed.
Lemma steps_ac flag f2 : f2 = "ac"%string \/ f2 = "ca"%string -> forall a b, steps flag a b -> forall js h js2 hk, a = Run js h -> b = Run js2 hk ->
  steps f2 (Run js h) (Run js2 hk).
Proof.
  intros Hf a b H. induction H as [c|a b c S H IH]; intros js h js2 hk Ea Eb.
  - rewrite Ea in Eb. injection Eb as <- <-. apply steps_refl.
  - subst. destruct b as [js1 h1|e h1]; [|apply raised_end in H; discriminate].
    eapply steps_next; [eapply step_ac; eassumption|]. eapply IH; reflexivity.
Qed.
Lemma retry flag f2 h g items h' : f2 = "ac"%string \/ f2 = "ca"%string -> dict_supported (DMap items) = true -> plain_keys (DMap items) -> arrays_ok (DMap items) ->
  stopped flag h g items h' -> dump h' g (DMap items) f2 = dump h g (DMap items) f2.
Proof.
  intros Hf Sp P A (js & St). apply outcome_inj. eapply (final_unique f2 (Run (jobs_of g items) h')).
  - apply dump_steps. exact Sp.
  - eapply steps_trans; [eapply (steps_replay flag f2 Hf _ _ St); [reflexivity|reflexivity|apply jobs_ok; assumption|apply replay_start]|].
    eapply steps_join; [eapply (steps_ac flag f2 Hf _ _ St); reflexivity|apply dump_steps; exact Sp|apply outcome_final].
  - apply outcome_final.
  - apply outcome_final.
Qed.
