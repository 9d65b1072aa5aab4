(** More lemmas for the HDF5 model. *)
From Coq Require Import Sorted Permutation QArith.
From Verif Require Import Base Str OdictSpec H5Model H5Spec H5Proofs.
Local Open Scope list_scope. Local Open Scope nat_scope.

(** ** Which datasets a dump may change *)
Lemma extends_dset h h' i d : extends h h' -> dset_of h i = Some d -> dset_of h' i = Some d.
Proof. intros H Hd. destruct (evolves_dset _ _ _ _ _ H Hd) as (d' & E & _ & _ & Hf). rewrite (Hf eq_refl) in E. assumption. Qed.

Lemma ds_create_changes h g k v flag r h' i d : ds_create h g k v flag = (r, h') -> dset_of h i = Some d ->
  dset_of h' i = Some d \/ raw_find h g k = Some i.
Proof.
  unfold ds_create. intros H Hd. destruct (valid_flag flag); simpl in H; [|inversion H; subst; auto].
  destruct (raw_find h g k) as [j|] eqn:Ef.
  - destruct (Nat.eq_dec j i) as [->|N]; [auto|]. left.
    destruct (String.eqb flag "x"); [inversion H; subst; assumption|].
    destruct (dset_of h j) as [d0|]; [|inversion H; subst; assumption].
    destruct (stored_as v) as [s|]; [|inversion H; subst; assumption].
    destruct (raw_write d0 s); inversion H; subst; [|assumption].
    rewrite <- (dset_of_eq h); [assumption|]. symmetry. apply nth_set_body_other. assumption.
  - left. eapply extends_dset; [|eassumption]. eapply raw_create_extends; eassumption.
Qed.
Lemma follows_mono ow h h' g p i : evolves ow h h' -> follows h g p i -> follows h' g p i.
Proof.
  intros He. induction 1 as [g|g k i p j Hg _ IH]; [constructor|]. econstructor; [|exact IH].
  apply raw_get_Ok. apply raw_get_Ok in Hg. eapply raw_find_mono; eassumption.
Qed.
Lemma leaf_path_cons kv items p : leaf_path (DMap items) p -> leaf_path (DMap (kv :: items)) p.
Proof. intros H. inversion H; subst; [eapply lp_leaf|eapply lp_map]; try (right; eassumption). assumption. Qed.

Lemma raw_create_new_find h g k b i h' : plain k -> raw_create h g k b = (Ok i, h') -> raw_find h' g k = Some i.
Proof.
  intros Hp. unfold raw_create. rewrite (plain_segs _ Hp). cbn [rev app mk_parents]. rewrite (plain_start _ _ Hp).
  destruct b as [b|]; [|discriminate]. unfold add_obj. destruct (links_of h g) as [ls|] eqn:El; [|discriminate].
  destruct (sget ls k) eqn:Es; [discriminate|]. intros H. inversion H; subst.
  destruct (links_of_Some _ _ _ El) as [a Ea].
  assert (Hl : links_of (set_body h g (BGroup (ins ls k (Hard (length h)))) ++ [{| bdy := b; atts := [] |}]) g =
               Some (ins ls k (Hard (length h)))).
  { unfold links_of. rewrite nth_error_app1 by (rewrite set_body_length; eapply links_lt; eassumption).
    rewrite (nth_set_body_same _ _ _ _ Ea). reflexivity. }
  rewrite (plain_find _ _ _ _ Hp Hl), ins_get_same by assumption. rewrite app_length, set_body_length. simpl.
  destruct (Nat.ltb_spec (length h) (length h + 1)); [reflexivity|lia].
Qed.
Lemma create_group_find h g k flag g1 h1 : plain k -> create_group h g k flag = (Ok g1, h1) -> raw_find h1 g k = Some g1.
Proof.
  intros Hp. unfold create_group. destruct (valid_flag flag); simpl; [|discriminate].
  destruct (raw_find h g k) as [i|] eqn:E; [|apply raw_create_new_find; assumption].
  destruct (String.eqb flag "x"); [discriminate|]. destruct (is_group h i); [|discriminate].
  intros H. inversion H; subst. assumption.
Qed.

Lemma dump_items_grows flag g items : forall h1 r h', dump_items flag g h1 items = (r, h') -> grows h1 h'.
Proof.
  induction items as [|[[k|] v0] items IHx]; intros h1 r h' E; cbn [dump_items] in E.
  - inversion E; subst. apply (evolves_refl true).
  - destruct v0 as [its|l].
    + destruct (create_group h1 g k flag) as [[g1|e] h2] eqn:E1; apply create_group_extends, extends_grows in E1;
        [|inversion E; subst; assumption].
      destruct (dump h2 g1 (DMap its) flag) as [[u|e] h3] eqn:E2; apply dump_grows in E2;
        [|inversion E; subst; eapply evolves_trans; eassumption].
      eapply evolves_trans; [exact E1|]. eapply evolves_trans; [exact E2|]. eapply IHx; eassumption.
    + destruct (ds_create h1 g k l flag) as [[g1|e] h2] eqn:E1; apply ds_create_grows in E1;
        [|inversion E; subst; assumption].
      eapply evolves_trans; [exact E1|]. eapply IHx; eassumption.
  - inversion E; subst. apply (evolves_refl true).
Qed.

Lemma dump_changes flag d : plain_keys d -> forall h g r h' i d0, dump h g d flag = (r, h') -> dset_of h i = Some d0 ->
  dset_of h' i = Some d0 \/ exists p, leaf_path d p /\ follows h' g p i.
Proof.
  induction d as [l|items IH] using data_ind'; intros Hpk h g r h' i d0.
  - rewrite dump_leaf. intros H; inversion H; subst. auto.
  - rewrite dump_map. destruct (dict_supported (DMap items)); [|intros H; inversion H; subst; auto].
    inversion Hpk as [|? Hk]; subst. clear Hpk. revert h d0.
    induction items as [|[k v] items IHi]; intros h d0 H Hd; cbn [dump_items] in H; [inversion H; subst; auto|].
    destruct (Hk _ _ (or_introl eq_refl)) as [(s & -> & Hp) Hpv].
    specialize (IHi (fun k0 v0 H0 => IH k0 v0 (or_intror H0)) (fun k0 v0 H0 => Hk k0 v0 (or_intror H0))).
    assert (Hrest : forall h1, grows h h1 ->
       (dset_of h1 i = Some d0 \/ exists p, leaf_path (DMap ((KStr s, v) :: items)) p /\ follows h1 g p i) ->
       dump_items flag g h1 items = (r, h') \/ h1 = h' ->
       dset_of h' i = Some d0 \/ exists p, leaf_path (DMap ((KStr s, v) :: items)) p /\ follows h' g p i).
    { intros h1 Hg1 [Hs|(p & Hl & Hf)] [E|E1]; [|subst h'| |subst h'].
      - destruct (IHi _ _ E Hs) as [|(p & Hl & Hf)]; [auto|]. right. exists p. split; [apply leaf_path_cons; assumption|assumption].
      - auto.
      - right. exists p. split; [assumption|]. apply (follows_mono true h1); [|exact Hf].
        eapply dump_items_grows; eassumption.
      - right. exists p. auto. }
    destruct v as [its|l].
    + destruct (create_group h g s flag) as [[g1|e] h1] eqn:E1.
      2:{ inversion H; subst. apply create_group_extends in E1. left. eapply extends_dset; eassumption. }
      pose proof (create_group_extends _ _ _ _ _ _ E1) as Hx1. apply create_group_find in E1; [|assumption].
      assert (Hd1 : dset_of h1 i = Some d0) by (eapply extends_dset; eassumption).
      destruct (dump h1 g1 (DMap its) flag) as [r2 h2] eqn:E2.
      pose proof (dump_grows _ _ _ _ _ _ E2) as Hg2.
      apply (Hrest h2).
      * eapply evolves_trans; [apply extends_grows; exact Hx1|exact Hg2].
      * destruct (IH _ _ (or_introl eq_refl) Hpv _ _ _ _ _ _ E2 Hd1) as [|(p & Hl & Hf)]; [auto|]. right.
        exists (s :: p). split; [eapply lp_map; [left; reflexivity|assumption]|]. econstructor; [|exact Hf].
        apply raw_get_Ok. eapply raw_find_mono; eassumption.
      * destruct r2; [auto|]. inversion H; subst. auto.
    + destruct (ds_create h g s l flag) as [r1 h1] eqn:E1. pose proof (ds_create_grows _ _ _ _ _ _ _ E1) as Hg1.
      apply (Hrest h1).
      * assumption.
      * destruct (ds_create_changes _ _ _ _ _ _ _ _ _ E1 Hd) as [|Hf]; [auto|]. right. exists [s].
        split; [eapply lp_leaf; left; reflexivity|]. econstructor; [|constructor]. apply raw_get_Ok.
        eapply raw_find_mono; eassumption.
      * destruct r1; [auto|]. inversion H; subst. auto.
Qed.

(** ** Errors *)
Lemma mk_parents_err ss : forall h g e h', mk_parents h g ss = (Err e, h') -> e = ValueError.
Proof.
  induction ss as [|s ss IH]; intros h g e h'; cbn [mk_parents]; [discriminate|].
  destruct (links_of h g) as [ls|] eqn:E; [|congruence]. destruct (sget ls s) eqn:Es.
  - destruct (resolve nlinks h g [s]) as [i|]; [|congruence]. destruct (is_group h i); [apply IH|congruence].
  - unfold add_obj. rewrite E, Es. apply IH.
Qed.
Lemma raw_create_err h g k b e h' : raw_create h g k b = (Err e, h') -> e = ValueError \/ (e = TypeError /\ b = None).
Proof.
  unfold raw_create. destruct (rev (segs k)) as [|s ps]; [intros H; inversion H; auto|].
  destruct (mk_parents h (start g k) (rev ps)) as [[g1|e1] h1] eqn:Em.
  - destruct b as [b|]; [|intros H; inversion H; auto]. unfold add_obj.
    destruct (links_of h1 g1) as [ls|]; [destruct (sget ls s)|]; intros H; inversion H; auto.
  - intros H. inversion H; subst. left. eapply mk_parents_err; eassumption.
Qed.
Lemma create_group_err h g k flag e h' : create_group h g k flag = (Err e, h') -> e = ValueError.
Proof.
  unfold create_group. destruct (valid_flag flag); simpl; [|congruence].
  destruct (raw_find h g k) as [i|].
  - destruct (String.eqb flag "x"); [congruence|]. destruct (is_group h i); congruence.
  - intros H. apply raw_create_err in H. destruct H as [|[_ H]]; [assumption|discriminate].
Qed.
Lemma ds_create_x_err h g k l flag e h' : flag <> "ac"%string -> flag <> "ca"%string ->
  ds_create h g k l flag = (Err e, h') -> e = ValueError \/ (e = TypeError /\ stored_as l = None).
Proof.
  intros N1 N2. unfold ds_create. destruct (valid_flag flag) eqn:Ev; simpl; [|intros H; inversion H; auto].
  destruct (raw_find h g k) as [i|].
  - destruct (sspec flag "x"%string) as [|N]; [intros H; inversion H; auto|]. apply valid_flag_spec in Ev. tauto.
  - intros H. apply raw_create_err in H. destruct H as [|[-> H]]; [auto|]. right. split; [reflexivity|].
    destruct (stored_as l); [discriminate|reflexivity].
Qed.
Lemma dump_x_err d : forall h g flag e h', flag <> "ac"%string -> flag <> "ca"%string -> dump h g d flag = (Err e, h') ->
  e = ValueError \/ (e = TypeError /\ (unsupported d \/ has_unstorable d)).
Proof.
  induction d as [l|items IH] using data_ind'; intros h g flag e h' N1 N2.
  - rewrite dump_leaf. intros H; inversion H; subst. right. split; [reflexivity|]. left. constructor.
  - rewrite dump_map. destruct (dict_supported (DMap items)) eqn:Es.
    2:{ intros H; inversion H; subst. right. split; [reflexivity|]. left. apply supported_spec. assumption. }
    assert (Hns : ~ unsupported (DMap items)) by (rewrite <- supported_spec; congruence). clear Es.
    assert (Hgen : forall its h, (forall x, In x its -> In x items) -> dump_items flag g h its = (Err e, h') ->
      e = ValueError \/ (e = TypeError /\ has_unstorable (DMap items))).
    { induction its as [|[[k|] v] its IHi]; intros h1 Hsub H; cbn [dump_items] in H; [discriminate| |].
      - assert (Hin : In (KStr k, v) items) by (apply Hsub; left; reflexivity).
        destruct v as [sub|l].
        + destruct (create_group h1 g k flag) as [[g1|e1] h2] eqn:E1.
          2:{ inversion H; subst. left. eapply create_group_err; eassumption. }
          destruct (dump h2 g1 (DMap sub) flag) as [[u|e2] h3] eqn:E2.
          * apply (IHi h3); [intros; apply Hsub; right; assumption|assumption].
          * inversion H; subst. destruct (IH _ _ Hin _ _ _ _ _ N1 N2 E2) as [|[-> [U|U]]]; [auto| |].
            { exfalso. apply Hns. eapply uns_nested; eassumption. }
            { right. split; [reflexivity|]. eapply hu_in; eassumption. }
        + destruct (ds_create h1 g k l flag) as [[g1|e1] h2] eqn:E1.
          * apply (IHi h2); [intros; apply Hsub; right; assumption|assumption].
          * inversion H; subst. apply ds_create_x_err in E1; try assumption. destruct E1 as [|[-> E1]]; [auto|].
            right. split; [reflexivity|]. destruct l; try discriminate.
            { eapply hu_here; eassumption. }
            { exfalso. apply Hns. eapply uns_leaf; eassumption. }
      - exfalso. apply Hns. eapply uns_key. apply Hsub. left. reflexivity. }
    intros H. apply Hgen in H; [tauto|auto].
Qed.
Lemma dump_bad_flag d h g flag : flag <> "x"%string -> flag <> "ac"%string -> flag <> "ca"%string ->
  ~ unsupported d -> d <> DMap [] -> dump h g d flag = (Err ValueError, h).
Proof.
  intros N1 N2 N3 Hs Hne. destruct d as [items|l]; [|exfalso; apply Hs; constructor].
  rewrite dump_map. destruct (dict_supported (DMap items)) eqn:E; [|apply supported_spec in E; contradiction].
  destruct items as [|[[k|] v] items]; [congruence| |exfalso; apply Hs; eapply uns_key; left; reflexivity].
  assert (Hf : valid_flag flag = false).
  { destruct (valid_flag flag) eqn:Ef; [|reflexivity]. apply valid_flag_spec in Ef. tauto. }
  cbn [dump_items]. destruct v; unfold create_group, ds_create; rewrite Hf; reflexivity.
Qed.

(** ** Writing: conversion and broadcasting *)
Lemma int_range sg b : (int_lo sg b <= int_hi sg b)%Z.
Proof.
  unfold int_lo, int_hi. destruct sg.
  - pose proof (Z.pow_pos_nonneg 2 (Zpos b - 1)). lia.
  - pose proof (Z.pow_pos_nonneg 2 (Zpos b)). lia.
Qed.
Lemma sat_range sg b z : (int_lo sg b <= sat sg b z <= int_hi sg b)%Z.
Proof. pose proof (int_range sg b). unfold sat. lia. Qed.
Lemma conv_fits t e e' : conv t e = Some e' -> fits t e'.
Proof.
  destruct t, e; simpl; intros H; inversion H; subst; simpl; auto; apply sat_range.
Qed.
Lemma fits_conv t e : fits t e -> conv t e = Some e.
Proof.
  destruct t, e; simpl; try tauto; try reflexivity. intros H. f_equal. f_equal. unfold sat. lia.
Qed.
Lemma conv_all_spec t l : forall l', conv_all t l = Some l' <-> Forall2 (fun e e' => conv t e = Some e') l l'.
Proof.
  induction l as [|e l IH]; intros l'; simpl.
  - split; intros H; inversion H; constructor.
  - split.
    + destruct (conv t e) eqn:E; [|discriminate]. destruct (conv_all t l) as [r|]; [|discriminate].
      intros H; inversion H; subst. constructor; [assumption|]. apply IH. reflexivity.
    + intros H. inversion H as [|? e' ? r Hc Hr]; subst. rewrite Hc. apply IH in Hr. rewrite Hr. reflexivity.
Qed.
Lemma conv_all_None t l : conv_all t l = None <-> exists e, In e l /\ conv t e = None.
Proof.
  induction l as [|e l IH]; simpl.
  - split; [discriminate|]. intros (e & [] & _).
  - destruct (conv t e) eqn:E.
    + destruct (conv_all t l) as [r|].
      * split; [discriminate|]. intros (x & [->|Hx] & Hc); [congruence|]. assert (@None (list elem) <> None); [|congruence].
        assert (Some r = None) by (apply IH; eauto). discriminate.
      * split; [|reflexivity]. intros _. destruct (proj1 IH eq_refl) as (x & Hx & Hc). eauto.
    + split; [|reflexivity]. intros _. eauto.
Qed.

Lemma omap_all_spec {A B} (f : A -> option B) l : forall l', omap_all f l = Some l' <-> Forall2 (fun a b => f a = Some b) l l'.
Proof.
  induction l as [|e l IH]; intros l'; simpl.
  - split; intros H; inversion H; constructor.
  - split.
    + destruct (f e) eqn:E; [|discriminate]. destruct (omap_all f l) as [r|]; [|discriminate].
      intros H; inversion H; subst. constructor; [assumption|]. apply IH. reflexivity.
    + intros H. inversion H as [|? e' ? r Hc Hr]; subst. rewrite Hc. apply IH in Hr. rewrite Hr. reflexivity.
Qed.

Lemma skipn_skipn' {A} a b (l : list A) : skipn a (skipn b l) = skipn (b + a) l.
Proof.
  revert l. induction b as [|b IH]; intros l; [reflexivity|]. destruct l as [|x l]; simpl; [apply skipn_nil|apply IH].
Qed.
Lemma chunks_nth n sz l : forall i, i < n -> nth_error (chunks n sz l) i = Some (firstn sz (skipn (i * sz) l)).
Proof.
  revert l. induction n as [|n IH]; intros l i Hi; [lia|]. cbn [chunks]. destruct i as [|i]; simpl; [reflexivity|].
  rewrite IH by lia. rewrite skipn_skipn'. reflexivity.
Qed.
Lemma chunks_length n sz l : length (chunks n sz l) = n.
Proof. revert l. induction n; simpl; auto. Qed.
Lemma concat_nth {A} m (ls : list (list A)) : (forall l, In l ls -> length l = m) -> forall i j l, nth_error ls i = Some l -> j < m ->
  nth_error (List.concat ls) (i * m + j) = nth_error l j.
Proof.
  induction ls as [|l0 ls IH]; intros Hl i j l Hi Hj; [destruct i; discriminate|].
  assert (Hl0 : length l0 = m) by (apply Hl; left; reflexivity).
  destruct i as [|i]; simpl in *.
  - inversion Hi; subst. rewrite nth_error_app1 by lia. reflexivity.
  - rewrite nth_error_app2 by lia. replace (m + i * m + j - length l0) with (i * m + j) by lia.
    apply IH; auto.
Qed.
Lemma concat_length_eq {A} m (ls : list (list A)) : (forall l, In l ls -> length l = m) -> length (List.concat ls) = length ls * m.
Proof.
  induction ls as [|l0 ls IH]; intros Hl; simpl; [reflexivity|]. rewrite app_length, IH by (intros; apply Hl; right; assumption).
  rewrite (Hl l0) by (left; reflexivity). reflexivity.
Qed.
Lemma nth_firstn_skipn {A} (l : list A) a sz j : j < sz -> nth_error (firstn sz (skipn a l)) j = nth_error l (a + j).
Proof.
  intros Hj. revert a. induction l as [|x l IH]; intros a.
  - rewrite skipn_nil, firstn_nil. rewrite !(proj2 (nth_error_None _ _)); [reflexivity|simpl; lia|simpl; lia].
  - destruct a as [|a]; simpl.
    + clear IH. revert j Hj. generalize (x :: l). clear. intros l. revert sz. induction l as [|y l IH]; intros sz j Hj.
      * rewrite firstn_nil. reflexivity.
      * destruct sz as [|sz]; [lia|]. destruct j; simpl; [reflexivity|]. apply IH. lia.
    + apply IH.
Qed.
Lemma ravel_lt sh ix : in_range sh ix -> ravel sh ix < prod sh.
Proof.
  unfold in_range. revert ix. induction sh as [|n sh IH]; intros ix H; inversion H; subst; simpl; [lia|].
  match goal with H : Forall2 lt ?l sh |- _ => specialize (IH _ H) end. nia.
Qed.

Lemma chunk_length sz s (l : list elem) i : length l = s * sz -> i < s -> length (firstn sz (skipn (i * sz) l)) = sz.
Proof. intros H Hi. rewrite firstn_length, skipn_length, H. nia. Qed.
Lemma in_chunks n sz l c : In c (chunks n sz l) -> exists i, i < n /\ c = firstn sz (skipn (i * sz) l).
Proof.
  intros H. apply In_nth_error in H. destruct H as [i Hi]. exists i.
  assert (i < n). { rewrite <- (chunks_length n sz l). apply nth_error_Some. congruence. }
  split; [assumption|]. rewrite chunks_nth in Hi by assumption. congruence.
Qed.
Lemma Forall2_nth_l {A B} (P : A -> B -> Prop) l l' i a : Forall2 P l l' -> nth_error l i = Some a ->
  exists b, nth_error l' i = Some b /\ P a b.
Proof.
  intros H. revert i. induction H as [|x y l l' Hp _ IH]; intros i Hi; [destruct i; discriminate|].
  destruct i; simpl in *; [inversion Hi; subst; eauto|auto].
Qed.
Lemma Forall2_length' {A B} (P : A -> B -> Prop) l l' : Forall2 P l l' -> length l = length l'.
Proof. induction 1; simpl; congruence. Qed.

Lemma bc_ok src : forall dst l, length l = prod src -> broadcasts src dst ->
  exists r, bc src dst l = Some r /\ length r = prod dst /\
    forall ix, in_range dst ix -> nth_error r (ravel dst ix) = nth_error l (ravel src (bidx src ix)).
Proof.
  induction src as [|s src IH]; intros dst l Hl Hb; inversion Hb as [|? n ? dst' Hs Hb']; subst.
  - exists l. split; [reflexivity|]. split; [assumption|]. intros ix Hix. inversion Hix. reflexivity.
  - simpl prod in Hl. cbn [bc]. destruct (Nat.eqb_spec s n) as [->|Nn].
    + assert (Hp : forall c, In c (chunks n (prod src) l) -> exists r, bc src dst' c = Some r /\ length r = prod dst' /\
          forall ix, in_range dst' ix -> nth_error r (ravel dst' ix) = nth_error c (ravel src (bidx src ix))).
      { intros c Hc. apply in_chunks in Hc. destruct Hc as (i & Hi & ->). apply IH; [|assumption]. apply (chunk_length _ n); assumption. }
      apply Forall_pick in Hp. destruct Hp as [rs Hrs].
      assert (Ho : omap_all (bc src dst') (chunks n (prod src) l) = Some rs).
      { apply omap_all_spec. clear -Hrs. induction Hrs as [|c r cs rs (E & _) _ IHr]; constructor; assumption. }
      assert (Hlen : forall r, In r rs -> length r = prod dst').
      { clear -Hrs. induction Hrs as [|c r cs rs (_ & E & _) _ IHr]; intros x Hx; [destruct Hx|destruct Hx as [<-|Hx]; auto]. }
      rewrite Ho. eexists. split; [reflexivity|]. split.
      * rewrite (concat_length_eq (prod dst')) by assumption. rewrite <- (Forall2_length' _ _ _ Hrs), chunks_length. reflexivity.
      * intros ix Hix. inversion Hix as [|i ? ix' ? Hi Hix']; subst. cbn [ravel bidx].
        destruct (Forall2_nth_l _ _ _ i _ Hrs (chunks_nth n (prod src) l i Hi)) as (r & Hr & _ & Hrl & Hrx).
        rewrite (concat_nth (prod dst') rs Hlen i _ r Hr) by (apply ravel_lt; assumption).
        rewrite Hrx by assumption.
        assert (Hbr : in_range src (bidx src ix')).
        { clear -Hb' Hix'. unfold in_range in *. revert dst' ix' Hb' Hix'. induction src as [|s src IH]; intros dst ix Hb Hx;
            inversion Hb as [|? n ? dst2 Hs Hb2]; subst; [constructor|]. inversion Hx as [|i ? ix2 ? Hi Hx2]; subst. cbn [bidx].
          constructor; [destruct (Nat.eqb_spec s 1); lia|]. eapply IH; eassumption. }
        rewrite nth_firstn_skipn by (apply ravel_lt; assumption).
        destruct (Nat.eqb_spec n 1) as [->|]; [|reflexivity]. replace i with 0 by lia. reflexivity.
    + assert (s = 1) by tauto. subst s. cbn [Nat.eqb]. rewrite Nat.mul_1_l in Hl.
      destruct (IH dst' l Hl Hb') as (r & E & Hr & Hx). rewrite E. simpl option_map. eexists. split; [reflexivity|].
      assert (Hlen : forall x, In x (repeat r n) -> length x = prod dst') by (intros x Hx'; apply repeat_spec in Hx'; subst; assumption).
      split.
      * rewrite (concat_length_eq (prod dst')) by assumption. rewrite repeat_length. reflexivity.
      * intros ix Hix. inversion Hix as [|i ? ix' ? Hi Hix']; subst. cbn [ravel bidx Nat.eqb].
        rewrite (concat_nth (prod dst') _ Hlen i _ r); [rewrite Hx by assumption; reflexivity| |apply ravel_lt; assumption].
        clear -Hi. revert i Hi. induction n as [|n IHn]; intros i Hi; [lia|]. destruct i; simpl; [reflexivity|]. apply IHn. lia.
Qed.
Lemma bc_bad src : forall dst l, length l = prod src -> prod dst <> 0 -> ~ broadcasts src dst -> bc src dst l = None.
Proof.
  unfold broadcasts. induction src as [|s src IH]; intros [|n dst] l Hl Hp Hb; try reflexivity.
  - exfalso. apply Hb. constructor.
  - simpl prod in *. cbn [bc]. destruct (Nat.eqb_spec s n) as [->|Nn].
    + assert (Hb' : ~ Forall2 (fun s n => s = n \/ s = 1) src dst) by (intros H; apply Hb; constructor; auto).
      destruct n as [|n]; [lia|]. cbn [chunks omap_all]. rewrite IH; [reflexivity| |nia|assumption].
      rewrite firstn_length. nia.
    + destruct (Nat.eqb_spec s 1) as [->|]; [|reflexivity].
      rewrite IH; [reflexivity|lia|nia|]. intros H; apply Hb; constructor; auto.
Qed.

Lemma drop_ones_spec k : forall l s, drop_ones k l = Some s <-> l = repeat 1 k ++ s.
Proof.
  induction k as [|k IH]; intros l s; simpl; [split; congruence|].
  destruct l as [|[|[|n]] l]; simpl; split; intros H; try discriminate.
  - apply IH in H. congruence.
  - apply IH. congruence.
Qed.
Lemma align_spec src dst s : align src dst = Some s <->
  length s = length dst /\ (s = repeat 1 (length dst - length src) ++ src \/ src = repeat 1 (length src - length dst) ++ s).
Proof.
  unfold align. rewrite drop_ones_spec. destruct (le_lt_dec (length src) (length dst)) as [L|L].
  - replace (length src - length dst) with 0 by lia. simpl. split.
    + intros <-. split; [rewrite app_length, repeat_length; lia|auto].
    + intros [Hl [->| ->]]; [reflexivity|]. replace (length dst - length s) with 0 by lia. reflexivity.
  - replace (length dst - length src) with 0 by lia. simpl. split.
    + intros E. split; [|auto]. apply (f_equal (@length nat)) in E. rewrite app_length, repeat_length in E. lia.
    + intros [Hl [->| E]]; [lia|assumption].
Qed.
Lemma prod_ones k l : prod (repeat 1 k ++ l) = prod l.
Proof. induction k; simpl; lia. Qed.
Lemma align_prod src dst s : align src dst = Some s -> prod s = prod src.
Proof. rewrite align_spec. intros [_ [->|E]]; [apply prod_ones|]. rewrite E. symmetry. apply prod_ones. Qed.
