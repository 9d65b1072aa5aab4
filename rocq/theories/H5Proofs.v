(** Lemmas for the HDF5 model. *)
From Coq Require Import Sorted Permutation QArith.
From Verif Require Import Base Str OdictSpec H5Model H5Spec.
Local Open Scope list_scope. Local Open Scope nat_scope.

(** ** String order *)
Lemma ascii_cmp_trans_lt a b c : Ascii.compare a b = Lt -> Ascii.compare b c = Lt -> Ascii.compare a c = Lt.
Proof. unfold Ascii.compare. rewrite !N.compare_lt_iff. lia. Qed.
Lemma ascii_cmp_eq a b : Ascii.compare a b = Eq -> a = b.
Proof.
  unfold Ascii.compare. rewrite N.compare_eq_iff. intros H.
  rewrite <- (ascii_N_embedding a), <- (ascii_N_embedding b), H. reflexivity.
Qed.
Lemma ascii_cmp_refl a : Ascii.compare a a = Eq.
Proof. unfold Ascii.compare. apply N.compare_refl. Qed.

Lemma name_lt_cmp a b : name_lt a b <-> String.compare a b = Lt.
Proof. unfold name_lt, String.ltb. destruct (String.compare a b); split; congruence. Qed.

Lemma str_cmp_refl a : String.compare a a = Eq.
Proof. induction a as [|c a IH]; simpl; [reflexivity|]. rewrite ascii_cmp_refl. assumption. Qed.
Lemma name_lt_irrefl a : ~ name_lt a a.
Proof. rewrite name_lt_cmp, str_cmp_refl. discriminate. Qed.
Lemma name_lt_trans a b c : name_lt a b -> name_lt b c -> name_lt a c.
Proof.
  rewrite !name_lt_cmp. revert b c. induction a as [|x a IH]; intros [|y b] [|z c]; simpl; try discriminate; auto.
  destruct (Ascii.compare x y) eqn:E1; try discriminate; destruct (Ascii.compare y z) eqn:E2; try discriminate; intros H1 H2.
  - apply ascii_cmp_eq in E1, E2. subst. rewrite ascii_cmp_refl. eapply IH; eassumption.
  - apply ascii_cmp_eq in E1. subst. rewrite E2. reflexivity.
  - apply ascii_cmp_eq in E2. subst. rewrite E1. reflexivity.
  - rewrite (ascii_cmp_trans_lt _ _ _ E1 E2). reflexivity.
Qed.
Lemma str_cmp_antisym a b : String.compare a b = CompOpp (String.compare b a).
Proof. apply String.compare_antisym. Qed.
Lemma name_total a b : ~ name_lt a b -> a <> b -> name_lt b a.
Proof.
  rewrite !name_lt_cmp. intros H N. rewrite String.compare_antisym. destruct (String.compare a b) eqn:E; try reflexivity; try congruence.
  exfalso. apply N. apply String.compare_eq_iff. assumption.
Qed.

(** ** Insertion *)
Lemma ins_get_same {V} (l : list (string * V)) k v : sget l k = None -> sget (ins l k v) k = Some v.
Proof.
  induction l as [|[k0 v0] l IH]; simpl; intros H.
  - rewrite String.eqb_refl. reflexivity.
  - destruct (String.ltb k k0); simpl; [rewrite String.eqb_refl; reflexivity|].
    destruct (String.eqb k k0); [discriminate|]. auto.
Qed.
Lemma ins_get_other {V} (l : list (string * V)) k v k2 : k2 <> k -> sget (ins l k v) k2 = sget l k2.
Proof.
  intros N. induction l as [|[k0 v0] l IH]; simpl.
  - destruct (sspec k2 k); [congruence|reflexivity].
  - destruct (String.ltb k k0); simpl.
    + destruct (sspec k2 k); [congruence|reflexivity].
    + rewrite IH. reflexivity.
Qed.
Lemma ins_perm {V} (l : list (string * V)) k v : Permutation (ins l k v) ((k, v) :: l).
Proof.
  induction l as [|[k0 v0] l IH]; simpl; [reflexivity|]. destruct (String.ltb k k0); [reflexivity|].
  rewrite IH. apply perm_swap.
Qed.
Lemma ins_sorted {V} (l : list (string * V)) k v : StronglySorted name_lt (map fst l) -> sget l k = None ->
  StronglySorted name_lt (map fst (ins l k v)).
Proof.
  induction l as [|[k0 v0] l IH]; simpl; intros Hs Hn; [repeat constructor|].
  inversion Hs as [|? ? Hs' Hall]; subst. destruct (sspec k k0) as [|N]; [discriminate|].
  destruct (String.ltb k k0) eqn:E; simpl.
  - constructor; [assumption|]. constructor; [assumption|].
    rewrite Forall_forall in *. intros x Hx. eapply name_lt_trans; [exact E|apply Hall; assumption].
  - constructor; [apply IH; assumption|]. rewrite Forall_forall in *. intros x Hx.
    apply (Permutation_in _ (Permutation_map fst (ins_perm l k v))) in Hx. destruct Hx as [<-|Hx]; [|apply Hall; assumption].
    simpl. apply name_total; [unfold name_lt; rewrite E; discriminate|assumption].
Qed.
Lemma sorted_NoDup l : StronglySorted name_lt l -> NoDup l.
Proof.
  induction 1 as [|x l Hs IH Hall]; constructor; [|assumption]. intros Hin. rewrite Forall_forall in Hall.
  exact (name_lt_irrefl _ (Hall _ Hin)).
Qed.
Lemma sget_In {V} (l : list (string * V)) k v : sget l k = Some v -> In (k, v) l.
Proof. apply (od_get_In String.eqb sspec). Qed.
Lemma In_sget {V} (l : list (string * V)) k v : StronglySorted name_lt (map fst l) -> In (k, v) l -> sget l k = Some v.
Proof. intros H. apply (od_In_get String.eqb sspec). apply sorted_NoDup. assumption. Qed.

(** ** Store operations *)
Lemma nth_set_body_same h i b o : nth_error h i = Some o -> nth_error (set_body h i b) i = Some {| bdy := b; atts := atts o |}.
Proof. intros H. unfold set_body. rewrite H. apply upd_nth_same. apply nth_error_Some. congruence. Qed.
Lemma nth_set_body_other h i b j : i <> j -> nth_error (set_body h i b) j = nth_error h j.
Proof. intros H. unfold set_body. destruct (nth_error h i); [|reflexivity]. apply upd_nth_other. assumption. Qed.
Lemma set_body_length h i b : length (set_body h i b) = length h.
Proof. unfold set_body. destruct (nth_error h i); [apply upd_nth_length|reflexivity]. Qed.
Lemma links_of_Some h g ls : links_of h g = Some ls -> exists a, nth_error h g = Some {| bdy := BGroup ls; atts := a |}.
Proof. unfold links_of. destruct (nth_error h g) as [[[l|d] a]|]; try discriminate. intros H. inversion H. eauto. Qed.
Lemma dset_of_Some h g d : dset_of h g = Some d -> exists a, nth_error h g = Some {| bdy := BDset d; atts := a |}.
Proof. unfold dset_of. destruct (nth_error h g) as [[[l|d'] a]|]; try discriminate. intros H. inversion H. eauto. Qed.
Lemma links_lt h g ls : links_of h g = Some ls -> g < length h.
Proof. intros H. destruct (links_of_Some _ _ _ H) as [a E]. apply nth_error_Some. congruence. Qed.
Lemma dset_lt h g d : dset_of h g = Some d -> g < length h.
Proof. intros H. destruct (dset_of_Some _ _ _ H) as [a E]. apply nth_error_Some. congruence. Qed.
Lemma links_not_dset h g ls : links_of h g = Some ls -> dset_of h g = None.
Proof. intros H. destruct (links_of_Some _ _ _ H) as [a E]. unfold dset_of. rewrite E. reflexivity. Qed.
Lemma dset_not_links h g d : dset_of h g = Some d -> links_of h g = None.
Proof. intros H. destruct (dset_of_Some _ _ _ H) as [a E]. unfold links_of. rewrite E. reflexivity. Qed.

(** [same_at h h' i] *)
Lemma links_of_eq h h' i : nth_error h i = nth_error h' i -> links_of h i = links_of h' i.
Proof. unfold links_of. intros ->. reflexivity. Qed.
Lemma dset_of_eq h h' i : nth_error h i = nth_error h' i -> dset_of h i = dset_of h' i.
Proof. unfold dset_of. intros ->. reflexivity. Qed.

(** ** evolves *)
Lemma obj_evolves_refl ow o : obj_evolves ow o o.
Proof. unfold obj_evolves. split; [reflexivity|]. destruct (bdy o); [auto|]. destruct ow; auto. Qed.
Lemma evolves_refl ow h : evolves ow h h.
Proof. intros i o H. exists o. split; [assumption|apply obj_evolves_refl]. Qed.
Lemma obj_evolves_trans ow a b c : obj_evolves ow a b -> obj_evolves ow b c -> obj_evolves ow a c.
Proof.
  unfold obj_evolves. intros [A1 B1] [A2 B2]. split; [congruence|].
  destruct (bdy a), (bdy b), (bdy c); try tauto.
  - intros k l H. auto.
  - destruct ow; [destruct B1, B2; split; congruence|congruence].
Qed.
Lemma evolves_trans ow a b c : evolves ow a b -> evolves ow b c -> evolves ow a c.
Proof.
  intros H1 H2 i o H. destruct (H1 _ _ H) as (o1 & E1 & R1). destruct (H2 _ _ E1) as (o2 & E2 & R2).
  exists o2. split; [assumption|]. eapply obj_evolves_trans; eassumption.
Qed.
Lemma evolves_length ow a b : evolves ow a b -> length a <= length b.
Proof.
  intros H. destruct (le_lt_dec (length a) (length b)) as [|L]; [assumption|]. exfalso.
  destruct (nth_error a (length b)) as [o|] eqn:E.
  - destruct (H _ _ E) as (o' & E' & _). assert (length b < length b); [apply nth_error_Some; congruence|lia].
  - apply nth_error_None in E. lia.
Qed.
Lemma extends_grows h h' : extends h h' -> grows h h'.
Proof.
  intros H i o E. destruct (H _ _ E) as (o' & E' & A & B). exists o'. split; [assumption|]. split; [assumption|].
  destruct (bdy o), (bdy o'); try tauto. subst. auto.
Qed.
Lemma evolves_links ow h h' g ls : evolves ow h h' -> links_of h g = Some ls ->
  exists ls', links_of h' g = Some ls' /\ forall k l, sget ls k = Some l -> sget ls' k = Some l.
Proof.
  intros He H. destruct (links_of_Some _ _ _ H) as [a E]. destruct (He _ _ E) as ([b' a'] & E' & _ & B).
  simpl in B. destruct b' as [ls'|d]; [|tauto]. exists ls'. unfold links_of. rewrite E'. auto.
Qed.
Lemma evolves_dset ow h h' g d : evolves ow h h' -> dset_of h g = Some d ->
  exists d', dset_of h' g = Some d' /\ dt d' = dt d /\ shp d' = shp d /\ (ow = false -> d' = d).
Proof.
  intros He H. destruct (dset_of_Some _ _ _ H) as [a E]. destruct (He _ _ E) as ([b' a'] & E' & _ & B).
  simpl in B. destruct b' as [ls'|d']; [tauto|]. exists d'. unfold dset_of. rewrite E'.
  destruct ow; [|subst; auto]. intuition congruence.
Qed.
Lemma evolves_app ow h t : evolves ow h (h ++ t).
Proof.
  intros i o E. exists o. split; [|apply obj_evolves_refl]. rewrite nth_error_app1; [assumption|].
  apply nth_error_Some. congruence.
Qed.
Lemma evolves_set_links ow h g ls k l : links_of h g = Some ls -> sget ls k = None ->
  evolves ow h (set_body h g (BGroup (ins ls k l))).
Proof.
  intros H Hn i o E. destruct (links_of_Some _ _ _ H) as [a Eg]. destruct (Nat.eq_dec g i) as [<-|N].
  - rewrite Eg in E. inversion E; subst. rewrite (nth_set_body_same _ _ _ _ Eg). eexists. split; [reflexivity|].
    split; [reflexivity|]. simpl. intros k2 l2 H2. rewrite ins_get_other; [assumption|]. congruence.
  - rewrite nth_set_body_other by assumption. exists o. split; [assumption|apply obj_evolves_refl].
Qed.
Lemma evolves_set_dset h i d d' : dset_of h i = Some d -> dt d' = dt d -> shp d' = shp d -> grows h (set_body h i (BDset d')).
Proof.
  intros H H1 H2 j o E. destruct (dset_of_Some _ _ _ H) as [a Eg]. destruct (Nat.eq_dec i j) as [<-|N].
  - rewrite Eg in E. inversion E; subst. rewrite (nth_set_body_same _ _ _ _ Eg). eexists. split; [reflexivity|].
    split; [reflexivity|]. simpl. auto.
  - rewrite nth_set_body_other by assumption. exists o. split; [assumption|apply obj_evolves_refl].
Qed.

(** ** Resolution is stable under evolution *)
Lemma resolve_unfold nl h g s rest :
  resolve nl h g (s :: rest) =
  match links_of h g with
  | None => None
  | Some ls => match sget ls s with
               | None => None
               | Some (Hard i) => resolve nl h i rest
               | Some (Soft p) => match nl with 0 => None | S nl' => resolve nl' h (start g p) (segs p ++ rest) end
               | Some (Ext _ _) => None
               end
  end.
Proof. destruct nl; reflexivity. Qed.
Lemma resolve_nil nl h g : resolve nl h g [] = Some g.
Proof. destruct nl; reflexivity. Qed.

Lemma resolve_mono ow h h' : evolves ow h h' -> forall nl g ss i, resolve nl h g ss = Some i -> resolve nl h' g ss = Some i.
Proof.
  intros He. induction nl as [|nl IHn]; intros g ss; revert g;
  induction ss as [|s ss IH]; intros g i; rewrite ?resolve_nil, ?resolve_unfold; auto.
  - destruct (links_of h g) as [ls|] eqn:El; [|discriminate].
    destruct (evolves_links _ _ _ _ _ He El) as (ls' & -> & Hs).
    destruct (sget ls s) as [l|] eqn:Es; [|discriminate]. rewrite (Hs _ _ Es).
    destruct l; try discriminate. apply IH.
  - destruct (links_of h g) as [ls|] eqn:El; [|discriminate].
    destruct (evolves_links _ _ _ _ _ He El) as (ls' & -> & Hs).
    destruct (sget ls s) as [l|] eqn:Es; [|discriminate]. rewrite (Hs _ _ Es).
    destruct l; try discriminate; [apply IH|apply IHn].
Qed.
Lemma raw_find_mono ow h h' g k i : evolves ow h h' -> raw_find h g k = Some i -> raw_find h' g k = Some i.
Proof.
  unfold raw_find. intros He. destruct (String.eqb k ""); [discriminate|].
  destruct (resolve nlinks h (start g k) (segs k)) as [j|] eqn:E; [|discriminate].
  rewrite (resolve_mono _ _ _ He _ _ _ _ E). destruct (Nat.ltb_spec j (length h)); [|discriminate].
  intros H'. inversion H'; subst. apply evolves_length in He. destruct (Nat.ltb_spec i (length h')); [reflexivity|lia].
Qed.
Lemma raw_find_lt h g k i : raw_find h g k = Some i -> i < length h.
Proof.
  unfold raw_find. destruct (String.eqb k ""); [discriminate|]. destruct (resolve _ _ _ _) as [j|]; [|discriminate].
  destruct (Nat.ltb_spec j (length h)); [|discriminate]. congruence.
Qed.
Lemma raw_get_Ok h g k i : raw_get h g k = Ok i <-> raw_find h g k = Some i.
Proof. unfold raw_get. destruct (raw_find h g k); split; congruence. Qed.

(** ** Every creation extends the file *)
Lemma add_obj_extends h g s b i h' : add_obj h g s b = Ok (i, h') -> extends h h'.
Proof.
  unfold add_obj. destruct (links_of h g) as [ls|] eqn:E; [|discriminate]. destruct (sget ls s) eqn:Es; [discriminate|].
  intros H. inversion H. eapply evolves_trans; [apply evolves_set_links; eassumption|apply evolves_app].
Qed.
Lemma add_link_extends h g s l h' : add_link h g s l = Ok h' -> extends h h'.
Proof.
  unfold add_link. destruct (links_of h g) as [ls|] eqn:E; [|discriminate]. destruct (sget ls s) eqn:Es; [discriminate|].
  intros H. inversion H. apply evolves_set_links; assumption.
Qed.
Lemma mk_parents_extends ss : forall h g r h', mk_parents h g ss = (r, h') -> extends h h'.
Proof.
  induction ss as [|s ss IH]; intros h g r h'; cbn [mk_parents].
  - intros H. inversion H. apply evolves_refl.
  - destruct (links_of h g) as [ls|] eqn:E; [|intros H; inversion H; apply evolves_refl].
    destruct (sget ls s) eqn:Es.
    + destruct (resolve nlinks h g [s]) as [i|]; [|intros H; inversion H; apply evolves_refl].
      destruct (is_group h i); [apply IH|intros H; inversion H; apply evolves_refl].
    + destruct (add_obj h g s (BGroup [])) as [[i h1]|e] eqn:Ea; [|intros H; inversion H; apply evolves_refl].
      intros H. eapply evolves_trans; [eapply add_obj_extends; eassumption|eapply IH; eassumption].
Qed.
Lemma raw_create_extends h g k b r h' : raw_create h g k b = (r, h') -> extends h h'.
Proof.
  unfold raw_create. destruct (rev (segs k)) as [|s ps]; [intros H; inversion H; apply evolves_refl|].
  destruct (mk_parents h (start g k) (rev ps)) as [[g1|e] h1] eqn:Em; apply mk_parents_extends in Em;
    [|intros H; inversion H; subst; assumption].
  destruct b as [b|]; [|intros H; inversion H; subst; assumption].
  destruct (add_obj h1 g1 s b) as [[i h2]|e] eqn:Ea; intros H; inversion H; subst; [|assumption].
  eapply evolves_trans; [exact Em|eapply add_obj_extends; eassumption].
Qed.
Lemma raw_create_link_extends h g k l r h' : raw_create_link h g k l = (r, h') -> extends h h'.
Proof.
  unfold raw_create_link. destruct (rev (segs k)) as [|s ps]; [intros H; inversion H; apply evolves_refl|].
  destruct (mk_parents h (start g k) (rev ps)) as [[g1|e] h1] eqn:Em; apply mk_parents_extends in Em;
    [|intros H; inversion H; subst; assumption].
  destruct (add_link h1 g1 s l) as [h2|e] eqn:Ea; intros H; inversion H; subst; [|assumption].
  eapply evolves_trans; [exact Em|eapply add_link_extends; eassumption].
Qed.
Lemma create_group_extends h g k flag r h' : create_group h g k flag = (r, h') -> extends h h'.
Proof.
  unfold create_group. destruct (valid_flag flag); simpl; [|intros H; inversion H; apply evolves_refl].
  destruct (raw_find h g k) as [i|].
  - destruct (String.eqb flag "x"); [intros H; inversion H; apply evolves_refl|].
    destruct (is_group h i); intros H; inversion H; apply evolves_refl.
  - apply raw_create_extends.
Qed.
Lemma raw_write_keeps d s d' : raw_write d s = Ok d' -> dt d' = dt d /\ shp d' = shp d.
Proof.
  unfold raw_write. destruct (Nat.eqb _ 0); [intros H; inversion H; auto|].
  destruct (bcast _ _ _) as [l|]; [|discriminate]. destruct (conv_all _ l); [|discriminate].
  intros H. inversion H. auto.
Qed.
Lemma ds_create_grows h g k v flag r h' : ds_create h g k v flag = (r, h') -> grows h h'.
Proof.
  unfold ds_create. destruct (valid_flag flag); simpl; [|intros H; inversion H; apply evolves_refl].
  destruct (raw_find h g k) as [i|].
  - destruct (String.eqb flag "x"); [intros H; inversion H; apply evolves_refl|].
    destruct (dset_of h i) as [d|] eqn:Ed; [|intros H; inversion H; apply evolves_refl].
    destruct (stored_as v) as [s|]; [|intros H; inversion H; apply evolves_refl].
    destruct (raw_write d s) as [d'|e] eqn:Ew; intros H; inversion H; subst; [|apply evolves_refl].
    destruct (raw_write_keeps _ _ _ Ew). eapply evolves_set_dset; eassumption.
  - intros H. apply extends_grows. eapply raw_create_extends; eassumption.
Qed.
Lemma ds_create_x_extends h g k v flag r h' : flag <> "ac"%string -> flag <> "ca"%string ->
  ds_create h g k v flag = (r, h') -> extends h h'.
Proof.
  intros N1 N2. unfold ds_create. destruct (valid_flag flag) eqn:Ev; simpl; [|intros H; inversion H; apply evolves_refl].
  destruct (raw_find h g k) as [i|]; [|apply raw_create_extends].
  destruct (sspec flag "x"%string) as [|N]; [intros H; inversion H; apply evolves_refl|]. exfalso.
  unfold valid_flag in Ev. apply orb_prop in Ev. destruct Ev as [Ev|Ev]; [apply orb_prop in Ev; destruct Ev as [Ev|Ev]|];
    apply String.eqb_eq in Ev; congruence.
Qed.

(** ** data induction; dump as a loop *)
Section data_induction.
  Variable P : data -> Prop.
  Hypothesis Hl : forall l, P (DLeaf l).
  Hypothesis Hm : forall items, (forall k v, In (k, v) items -> P v) -> P (DMap items).
  Fixpoint data_ind' (d : data) : P d :=
    match d with
    | DLeaf l => Hl l
    | DMap items =>
        Hm items ((fix go (items : list (key * data)) : forall k v, In (k, v) items -> P v :=
                     match items with
                     | [] => fun k v H => False_ind _ H
                     | (k0, v0) :: items' => fun k v H =>
                         match H with
                         | or_introl E => eq_ind v0 P (data_ind' v0) v (f_equal snd E)
                         | or_intror H' => go items' k v H'
                         end
                     end) items)
    end.
End data_induction.

Definition dump_items (flag : string) (g : nat) :=
  fix go (h : file) (items : list (key * data)) {struct items} : result unit * file :=
    match items with
    | [] => (Ok tt, h)
    | (KOther, _) :: _ => (Err TypeError, h)
    | (KStr k, v) :: items' =>
        match v with
        | DMap _ =>
            match create_group h g k flag with
            | (Err e, h1) => (Err e, h1)
            | (Ok g1, h1) => match dump h1 g1 v flag with
                             | (Err e, h2) => (Err e, h2)
                             | (Ok _, h2) => go h2 items'
                             end
            end
        | DLeaf l =>
            match ds_create h g k l flag with
            | (Err e, h1) => (Err e, h1)
            | (Ok _, h1) => go h1 items'
            end
        end
    end.
Lemma dump_map h g items flag :
  dump h g (DMap items) flag = if dict_supported (DMap items) then dump_items flag g h items else (Err TypeError, h).
Proof. reflexivity. Qed.
Lemma dump_leaf h g l flag : dump h g (DLeaf l) flag = (Err TypeError, h).
Proof. reflexivity. Qed.

(** A generic invariant: any reflexive transitive relation respected by the two creations is respected by dump. *)
Lemma dump_rel (R : file -> file -> Prop) flag :
  (forall h, R h h) -> (forall a b c, R a b -> R b c -> R a c) ->
  (forall h g k r h', create_group h g k flag = (r, h') -> R h h') ->
  (forall h g k v r h', ds_create h g k v flag = (r, h') -> R h h') ->
  forall d h g r h', dump h g d flag = (r, h') -> R h h'.
Proof.
  intros Hr Ht Hg Hd. induction d as [l|items IH] using data_ind'; intros h g r h'.
  - rewrite dump_leaf. intros H; inversion H; subst; apply Hr.
  - rewrite dump_map. destruct (dict_supported (DMap items)); [|intros H; inversion H; subst; apply Hr].
    revert h. induction items as [|[[k|] v] items IHi]; intros h; cbn [dump_items].
    + intros H; inversion H; subst; apply Hr.
    + destruct v as [its|l].
      * destruct (create_group h g k flag) as [[g1|e] h1] eqn:E1; apply Hg in E1; [|intros H; inversion H; subst; assumption].
        destruct (dump h1 g1 (DMap its) flag) as [[u|e] h2] eqn:E2;
          apply (IH (KStr k) _ (or_introl eq_refl)) in E2; [|intros H; inversion H; subst; eauto].
        intros H. apply IHi in H; [eauto|]. intros k' v' Hin. apply (IH k'). right. assumption.
      * destruct (ds_create h g k l flag) as [[g1|e] h1] eqn:E1; apply Hd in E1; [|intros H; inversion H; subst; assumption].
        intros H. apply IHi in H; [eauto|]. intros k' v' Hin. apply (IH k'). right. assumption.
    + intros H; inversion H; subst; apply Hr.
Qed.

Lemma dump_grows d h g flag r h' : dump h g d flag = (r, h') -> grows h h'.
Proof.
  apply (dump_rel grows flag).
  - apply evolves_refl.
  - apply evolves_trans.
  - intros. apply extends_grows. eapply create_group_extends; eassumption.
  - intros. eapply ds_create_grows; eassumption.
Qed.
Lemma dump_x_extends d h g flag r h' : flag <> "ac"%string -> flag <> "ca"%string ->
  dump h g d flag = (r, h') -> extends h h'.
Proof.
  intros N1 N2. apply (dump_rel extends flag).
  - apply evolves_refl.
  - apply evolves_trans.
  - intros. eapply create_group_extends; eassumption.
  - intros. eapply ds_create_x_extends; eassumption.
Qed.

(** ** file_ok is preserved *)
Lemma file_ok_app_dset h b : file_ok h -> (b = BGroup [] \/ exists d, b = BDset d) -> file_ok (h ++ [{| bdy := b; atts := [] |}]).
Proof.
  intros [Hr Hl] Hb. split.
  - rewrite <- (links_of_eq h); [assumption|]. rewrite nth_error_app1; [reflexivity|].
    destruct (links_of h root) eqn:E; [|congruence]. eapply links_lt; eassumption.
  - intros g ls H. destruct (lt_dec g (length h)) as [L|L].
    + rewrite <- (links_of_eq h) in H by (rewrite nth_error_app1 by assumption; reflexivity).
      destruct (Hl _ _ H) as [H1 H2]. split; [assumption|]. intros k i Hin. rewrite app_length. specialize (H2 _ _ Hin). lia.
    + unfold links_of in H. rewrite nth_error_app2 in H by lia. destruct (g - length h) as [|m]; simpl in H.
      * destruct Hb as [->|[d ->]]; [|discriminate]. inversion H. split; [constructor|]. intros k i [].
      * destruct m; discriminate.
Qed.
Lemma file_ok_ins h g ls k l : file_ok h -> links_of h g = Some ls -> sget ls k = None ->
  (forall i, l = Hard i -> i < length h) -> file_ok (set_body h g (BGroup (ins ls k l))).
Proof.
  intros [Hr Hl] Hg Hn Hi. destruct (links_of_Some _ _ _ Hg) as [a Ea].
  assert (Hsame : links_of (set_body h g (BGroup (ins ls k l))) g = Some (ins ls k l)).
  { unfold links_of. rewrite (nth_set_body_same _ _ _ _ Ea). reflexivity. }
  assert (Hother : forall j, j <> g -> links_of (set_body h g (BGroup (ins ls k l))) j = links_of h j).
  { intros j N. apply links_of_eq. apply nth_set_body_other. congruence. }
  split.
  - destruct (Nat.eq_dec root g) as [<-|N]; [congruence|]. rewrite Hother; assumption.
  - intros j ls' H. rewrite set_body_length. destruct (Nat.eq_dec j g) as [->|N].
    + rewrite Hsame in H. inversion H; subst. destruct (Hl _ _ Hg) as [H1 H2]. split; [apply ins_sorted; assumption|].
      intros k' i Hin. apply (Permutation_in _ (ins_perm ls k l)) in Hin. destruct Hin as [E|Hin].
      * inversion E; subst. apply Hi. reflexivity.
      * eapply H2; eassumption.
    + rewrite Hother in H by assumption. apply Hl in H. assumption.
Qed.
Lemma set_body_app h g b t : g < length h -> set_body (h ++ t) g b = set_body h g b ++ t.
Proof.
  intros L. unfold set_body. rewrite nth_error_app1 by assumption. destruct (nth_error h g) as [o|] eqn:E.
  - revert g L E. induction h as [|x h IH]; simpl; intros g L E; [lia|]. destruct g; simpl; [reflexivity|]. f_equal. apply IH; [lia|assumption].
  - reflexivity.
Qed.
Lemma add_obj_ok h g s b i h' : file_ok h -> (b = BGroup [] \/ exists d, b = BDset d) -> add_obj h g s b = Ok (i, h') -> file_ok h'.
Proof.
  intros Hok Hb. unfold add_obj. destruct (links_of h g) as [ls|] eqn:E; [|discriminate]. destruct (sget ls s) eqn:Es; [discriminate|].
  intros H. inversion H. rewrite <- set_body_app by (eapply links_lt; eassumption).
  apply file_ok_ins.
  - apply file_ok_app_dset; assumption.
  - rewrite <- (links_of_eq h); [assumption|]. rewrite nth_error_app1; [reflexivity|]. eapply links_lt; eassumption.
  - assumption.
  - intros j Hj. inversion Hj. rewrite app_length. simpl. lia.
Qed.
Lemma mk_parents_ok ss : forall h g r h', file_ok h -> mk_parents h g ss = (r, h') -> file_ok h'.
Proof.
  induction ss as [|s ss IH]; intros h g r h' Hok; cbn [mk_parents].
  - intros H. inversion H; subst. assumption.
  - destruct (links_of h g) as [ls|] eqn:E; [|intros H; inversion H; subst; assumption].
    destruct (sget ls s) eqn:Es.
    + destruct (resolve nlinks h g [s]) as [i|]; [|intros H; inversion H; subst; assumption].
      destruct (is_group h i); [apply IH; assumption|intros H; inversion H; subst; assumption].
    + destruct (add_obj h g s (BGroup [])) as [[i h1]|e] eqn:Ea; [|intros H; inversion H; subst; assumption].
      apply IH. eapply add_obj_ok; [eassumption|left; reflexivity|eassumption].
Qed.
Lemma raw_create_ok h g k b r h' : file_ok h -> (forall x, b = Some x -> x = BGroup [] \/ exists d, x = BDset d) ->
  raw_create h g k b = (r, h') -> file_ok h'.
Proof.
  intros Hok Hb. unfold raw_create. destruct (rev (segs k)) as [|s ps]; [intros H; inversion H; subst; assumption|].
  destruct (mk_parents h (start g k) (rev ps)) as [[g1|e] h1] eqn:Em; apply mk_parents_ok in Em; try assumption;
    [|intros H; inversion H; subst; assumption].
  destruct b as [b|]; [|intros H; inversion H; subst; assumption].
  destruct (add_obj h1 g1 s b) as [[i h2]|e] eqn:Ea; intros H; inversion H; subst; [|assumption].
  eapply add_obj_ok; [eassumption| |eassumption]. apply Hb. reflexivity.
Qed.
Lemma create_group_ok h g k flag r h' : file_ok h -> create_group h g k flag = (r, h') -> file_ok h'.
Proof.
  intros Hok. unfold create_group. destruct (valid_flag flag); simpl; [|intros H; inversion H; subst; assumption].
  destruct (raw_find h g k) as [i|].
  - destruct (String.eqb flag "x"); [intros H; inversion H; subst; assumption|].
    destruct (is_group h i); intros H; inversion H; subst; assumption.
  - apply raw_create_ok; [assumption|]. intros x Hx. inversion Hx. auto.
Qed.
Lemma file_ok_set_dset h i d d' : file_ok h -> dset_of h i = Some d -> file_ok (set_body h i (BDset d')).
Proof.
  intros [Hr Hl] Hd. destruct (dset_of_Some _ _ _ Hd) as [a Ea].
  assert (Hother : forall j, links_of (set_body h i (BDset d')) j = links_of h j).
  { intros j. destruct (Nat.eq_dec i j) as [<-|N].
    - rewrite (dset_not_links _ _ _ Hd). unfold links_of. rewrite (nth_set_body_same _ _ _ _ Ea). reflexivity.
    - apply links_of_eq. apply nth_set_body_other. assumption. }
  split; [rewrite Hother; assumption|]. intros g ls H. rewrite Hother in H. rewrite set_body_length. exact (Hl _ _ H).
Qed.
Lemma ds_create_ok h g k v flag r h' : file_ok h -> ds_create h g k v flag = (r, h') -> file_ok h'.
Proof.
  intros Hok. unfold ds_create. destruct (valid_flag flag); simpl; [|intros H; inversion H; subst; assumption].
  destruct (raw_find h g k) as [i|].
  - destruct (String.eqb flag "x"); [intros H; inversion H; subst; assumption|].
    destruct (dset_of h i) as [d|] eqn:Ed; [|intros H; inversion H; subst; assumption].
    destruct (stored_as v) as [s|]; [|intros H; inversion H; subst; assumption].
    destruct (raw_write d s) as [d'|e] eqn:Ew; intros H; inversion H; subst; [|assumption].
    eapply file_ok_set_dset; eassumption.
  - apply raw_create_ok; [assumption|]. intros x Hx. destruct (stored_as v); inversion Hx. eauto.
Qed.
Lemma dump_ok d h g flag r h' : file_ok h -> dump h g d flag = (r, h') -> file_ok h'.
Proof.
  intros Hok H. revert Hok. refine (dump_rel (fun a b => file_ok a -> file_ok b) flag _ _ _ _ d h g r h' H); auto.
  - intros. eapply create_group_ok; eassumption.
  - intros. eapply ds_create_ok; eassumption.
Qed.
Lemma empty_file_ok : file_ok empty_file.
Proof.
  split; [discriminate|]. intros [|g] ls H.
  - inversion H. split; [constructor|intros k i []].
  - destruct g; discriminate.
Qed.

(** ** The pre-scan *)
Definition supp_items :=
  fix go (items : list (key * data)) : bool :=
    match items with
    | [] => true
    | (k, v) :: items' =>
        match k with
        | KOther => false
        | KStr _ => match v with
                    | DMap _ => dict_supported v && go items'
                    | DLeaf l => leaf_supported l && go items'
                    end
        end
    end.
Lemma supported_map items : dict_supported (DMap items) = supp_items items.
Proof. reflexivity. Qed.

Lemma supported_spec d : dict_supported d = false <-> unsupported d.
Proof.
  induction d as [l|items IH] using data_ind'.
  - split; [constructor|reflexivity].
  - rewrite supported_map.
    assert (Hgen : supp_items items = false <->
      (exists v, In (KOther, v) items) \/ (exists k, In (k, DLeaf LOther) items) \/
      (exists k its, In (k, DMap its) items /\ unsupported (DMap its))).
    { induction items as [|[k v] items IHi].
      - simpl. split; [discriminate|]. intros [[v []]|[[k []]|(k & its & [] & _)]].
      - assert (IHi' := IHi (fun k0 v0 H0 => IH k0 v0 (or_intror H0))). clear IHi.
        assert (Hcons : forall (Q : Prop), (Q \/ (supp_items items = false)) <->
           (Q \/ ((exists v0, In (KOther, v0) items) \/ (exists k0, In (k0, DLeaf LOther) items) \/
             (exists k0 its, In (k0, DMap its) items /\ unsupported (DMap its))))) by (intros Q; rewrite IHi'; reflexivity).
        destruct k as [s|]; cbn [supp_items].
        + destruct v as [its|l].
          * rewrite andb_false_iff, (IH (KStr s) (DMap its) (or_introl eq_refl)), Hcons.
            split.
            { intros [H|[[v H]|[[k H]|(k & its' & H & U)]]]; [right; right|left|right; left|right; right].
              - exists (KStr s), its. split; [left; reflexivity|assumption].
              - exists v. right; assumption.
              - exists k. right; assumption.
              - exists k, its'. split; [right; assumption|assumption]. }
            { intros [[v [H|H]]|[[k [H|H]]|(k & its' & [H|H] & U)]]; try (inversion H; subst; clear H);
                [right; left; eauto|right; right; left; eauto|left; assumption|right; right; right; eauto]. }
          * rewrite andb_false_iff.
            rewrite Hcons. split.
            { intros [H|[[v H]|[[k H]|(k & its' & H & U)]]]; [right; left|left|right; left|right; right].
              - exists (KStr s). left. destruct l; try discriminate. reflexivity.
              - exists v. right; assumption.
              - exists k. right; assumption.
              - exists k, its'. split; [right; assumption|assumption]. }
            { intros [[v [H|H]]|[[k [H|H]]|(k & its' & [H|H] & U)]]; try (inversion H; subst; clear H);
                [right; left; eauto|left; reflexivity|right; right; left; eauto|right; right; right; eauto]. }
        + split; [|reflexivity]. intros _. left. exists v. left. reflexivity. }
    rewrite Hgen. split.
    + intros [[v H]|[[k H]|(k & its & H & U)]]; [eapply uns_key|eapply uns_leaf|eapply uns_nested]; eassumption.
    + intros H. inversion H; subst; eauto 8.
Qed.

Lemma dump_unsupported d h g flag : unsupported d -> dump h g d flag = (Err TypeError, h).
Proof.
  intros H. apply supported_spec in H. destruct d as [items|l]; [|reflexivity]. rewrite dump_map, H. reflexivity.
Qed.

(** ** Plain names *)
Lemma plain_segs k : plain k -> segs k = [k].
Proof.
  intros (H1 & H2 & H3). unfold segs. rewrite segments_nochar by assumption. simpl.
  destruct (sspec k "."%string); [congruence|reflexivity].
Qed.
Lemma plain_start g k : plain k -> start g k = g.
Proof.
  intros (H1 & H2 & H3). unfold start, is_abs. destruct k as [|c k]; [reflexivity|]. simpl in H3.
  destruct (Ascii.eqb c "/"); [discriminate|reflexivity].
Qed.
Lemma plain_find h g k ls : plain k -> links_of h g = Some ls -> 
  raw_find h g k = match sget ls k with
                   | Some (Hard i) => if Nat.ltb i (length h) then Some i else None
                   | Some (Soft p) => match resolve 15 h (start g p) (segs p) with
                                      | Some i => if Nat.ltb i (length h) then Some i else None
                                      | None => None
                                      end
                   | _ => None
                   end.
Proof.
  intros Hp Hl. unfold raw_find. destruct (sspec k ""%string) as [->|_]; [destruct Hp; congruence|].
  rewrite (plain_start _ _ Hp), (plain_segs _ Hp), resolve_unfold, Hl.
  destruct (sget ls k) as [[i|p|f p]|]; try reflexivity.
  unfold nlinks. rewrite app_nil_r. reflexivity.
Qed.
Lemma plain_create h g k ls b : plain k -> links_of h g = Some ls -> sget ls k = None ->
  raw_create h g k (Some b) = (Ok (length h), set_body h g (BGroup (ins ls k (Hard (length h)))) ++ [{| bdy := b; atts := [] |}]).
Proof.
  intros Hp Hl Hn. unfold raw_create. rewrite (plain_segs _ Hp). cbn [rev app mk_parents].
  rewrite (plain_start _ _ Hp). unfold add_obj. rewrite Hl, Hn. reflexivity.
Qed.

Lemma valid_flag_spec f : valid_flag f = true <-> f = "x"%string \/ f = "ac"%string \/ f = "ca"%string.
Proof. unfold valid_flag. rewrite !orb_true_iff, !String.eqb_eq. tauto. Qed.

(** ** Round trip: dumping into absent names *)
Inductive repr (lo : nat) (h : file) : nat -> data -> Prop :=
| repr_leaf i l d : lo <= i -> dset_of h i = Some d -> stored_as l = Some d -> repr lo h i (DLeaf l)
| repr_map i items ls : lo <= i -> links_of h i = Some ls ->
    (forall k v, In (k, v) items -> exists s j, k = KStr s /\ sget ls s = Some (Hard j) /\ repr lo h j v) ->
    (forall s, sget ls s <> None -> exists v, In (KStr s, v) items) ->
    repr lo h i (DMap items).

Lemma repr_stable lo lo' h h' d : lo' <= lo ->
  (forall j, lo <= j -> j < length h -> nth_error h' j = nth_error h j) ->
  forall i, repr lo h i d -> repr lo' h' i d.
Proof.
  intros Hlo Hs. induction d as [l|items IH] using data_ind'; intros i H; inversion H; subst.
  - eapply repr_leaf; [lia| |eassumption]. rewrite <- (dset_of_eq h); [assumption|]. symmetry. apply Hs; [assumption|].
    eapply dset_lt; eassumption.
  - eapply repr_map; [lia| | |eassumption].
    + rewrite <- (links_of_eq h); [eassumption|]. symmetry. apply Hs; [assumption|]. eapply links_lt; eassumption.
    + intros k v Hin. match goal with Hc : forall k v, In (k, v) items -> _ |- _ => destruct (Hc k v Hin) as (s & j & -> & Hj & Hr) end.
      exists s, j. split; [reflexivity|]. split; [assumption|]. eapply IH; eassumption.
Qed.

Lemma sget_In_key {V} (l : list (string * V)) s : sget l s <> None <-> In s (map fst l).
Proof.
  pose proof (od_get_None String.eqb sspec l s) as H. unfold od_keys in H.
  destruct (sget l s) eqn:E.
  - split; [intros _|congruence]. destruct (in_dec string_dec s (map fst l)) as [i|n]; [assumption|]. apply H in n. discriminate.
  - split; [congruence|]. intros Hin. exfalso. apply H; [reflexivity|assumption].
Qed.

Lemma dumpable_supported d : dumpable d -> dict_supported d = true.
Proof.
  intros H. destruct (dict_supported d) eqn:E; [reflexivity|]. apply supported_spec in E. exfalso. revert E.
  induction d as [l|items IH] using data_ind'; inversion H as [? Hnd Hk Hv]; subst. intros E. inversion E; subst.
  - match goal with Hin : In _ items |- _ => destruct (Hk _ _ Hin) as (s & Es & _); discriminate end.
  - match goal with Hin : In _ items |- _ => destruct (Hv _ _ Hin) as [(l & d & El & Es)|(its & El & _)] end;
      [inversion El; subst; discriminate|discriminate].
  - match goal with Hin : In _ items |- _ => destruct (Hv _ _ Hin) as [(l & d & El & Es)|(its' & El & Hd)]; [discriminate|];
      apply (IH _ _ Hin Hd) end; assumption.
Qed.

Definition fresh_dump flag (h : file) (g : nat) (ls : list (string * link)) (a : list (string * dset)) (items : list (key * data)) : Prop :=
  exists h' ls', dump_items flag g h items = (Ok tt, h') /\
    (forall j, j < length h -> j <> g -> nth_error h' j = nth_error h j) /\ length h <= length h' /\
    nth_error h' g = Some {| bdy := BGroup ls'; atts := a |} /\
    (forall s, ~ In (KStr s) (map fst items) -> sget ls' s = sget ls s) /\
    (forall k v, In (k, v) items -> exists s j, k = KStr s /\ sget ls' s = Some (Hard j) /\ repr (length h) h' j v).

Lemma dump_items_fresh flag : valid_flag flag = true -> forall d, match d with DLeaf _ => True | DMap items =>
  dumpable d -> forall h g ls a, nth_error h g = Some {| bdy := BGroup ls; atts := a |} ->
    (forall s, In (KStr s) (map fst items) -> sget ls s = None) -> fresh_dump flag h g ls a items end.
Proof.
  intros Hflag. induction d as [l|items IH] using data_ind'; [exact I|]. intros Hd.
  inversion Hd as [? Hnd Hk Hv]; subst. clear Hd. induction items as [|[k v] items IHi]; intros h g ls a Hg Hfree.
  - exists h, ls. split; [reflexivity|]. split; [reflexivity|]. split; [lia|]. split; [assumption|].
    split; [reflexivity|]. intros k v [].
  - destruct (Hk k v (or_introl eq_refl)) as (s & -> & Hp).
    inversion Hnd as [|? ? Hni Hnd']; subst.
    assert (Hlk : links_of h g = Some ls) by (unfold links_of; rewrite Hg; reflexivity).
    assert (Hsn : sget ls s = None) by (apply Hfree; left; reflexivity).
    assert (Hfind : raw_find h g s = None) by (rewrite (plain_find _ _ _ _ Hp Hlk), Hsn; reflexivity).
    assert (Hlen : g < length h) by (apply nth_error_Some; congruence).
    specialize (IHi (fun k0 v0 H0 => IH k0 v0 (or_intror H0)) Hnd' (fun k0 v0 H0 => Hk k0 v0 (or_intror H0))
                    (fun k0 v0 H0 => Hv k0 v0 (or_intror H0))).
    assert (Hmain : exists h2, dump_items flag g h ((KStr s, v) :: items) = dump_items flag g h2 items /\
      (forall j, j < length h -> j <> g -> nth_error h2 j = nth_error h j) /\ S (length h) <= length h2 /\
      nth_error h2 g = Some {| bdy := BGroup (ins ls s (Hard (length h))); atts := a |} /\ repr (length h) h2 (length h) v).
    { assert (Hcr : forall b, exists h1, raw_create h g s (Some b) = (Ok (length h), h1) /\
         (forall j, j < length h -> j <> g -> nth_error h1 j = nth_error h j) /\ length h1 = S (length h) /\
         nth_error h1 g = Some {| bdy := BGroup (ins ls s (Hard (length h))); atts := a |} /\
         nth_error h1 (length h) = Some {| bdy := b; atts := [] |}).
      { intros b. rewrite (plain_create _ _ _ _ b Hp Hlk Hsn). eexists. split; [reflexivity|]. split; [|split; [|split]].
        - intros j Hj Hne. rewrite nth_error_app1 by (rewrite set_body_length; assumption). apply nth_set_body_other. congruence.
        - rewrite app_length, set_body_length. simpl. lia.
        - rewrite nth_error_app1 by (rewrite set_body_length; assumption). rewrite (nth_set_body_same _ _ _ _ Hg). reflexivity.
        - rewrite nth_error_app2 by (rewrite set_body_length; lia). rewrite set_body_length, Nat.sub_diag. reflexivity. }
      destruct (Hv _ _ (or_introl eq_refl)) as [(l & d & -> & Hst)|(its & -> & Hdits)].
      - destruct (Hcr (BDset d)) as (h1 & E1 & Hs1 & Hl1 & Hg1 & Hn1).
        cbn [dump_items]. unfold ds_create at 1. rewrite Hflag, Hfind, Hst. cbn [negb option_map]. rewrite E1.
        exists h1. split; [reflexivity|]. split; [assumption|]. split; [lia|]. split; [assumption|].
        eapply repr_leaf; [lia| |eassumption]. unfold dset_of. rewrite Hn1. reflexivity.
      - destruct (Hcr (BGroup [])) as (h1 & E1 & Hs1 & Hl1 & Hg1 & Hn1).
        cbn [dump_items]. unfold create_group at 1. rewrite Hflag, Hfind. cbn [negb]. rewrite E1.
        rewrite dump_map, (dumpable_supported _ Hdits).
        destruct (IH _ _ (or_introl eq_refl) Hdits h1 (length h) [] [] Hn1) as (h2 & ls2 & E2 & Hs2 & Hl2 & Hg2 & Ho2 & Hc2).
        { reflexivity. }
        rewrite E2. exists h2. split; [reflexivity|]. split; [|split; [lia|split]].
        + intros j Hj Hne. rewrite Hs2 by lia. apply Hs1; assumption.
        + rewrite Hs2 by lia. assumption.
        + eapply repr_map; [lia|unfold links_of; rewrite Hg2; reflexivity| |].
          * intros k0 v0 Hin. destruct (Hc2 _ _ Hin) as (s0 & j0 & -> & Hj0 & Hr0). exists s0, j0.
            split; [reflexivity|]. split; [assumption|]. eapply repr_stable; [|reflexivity|exact Hr0]. lia.
          * intros s0 Hs0. destruct (in_dec string_dec s0 (map (fun kv => match fst kv with KStr x => x | KOther => ""%string end)
                (filter (fun kv => match fst kv with KStr _ => true | _ => false end) its))) as [i|n].
            { apply in_map_iff in i. destruct i as ([k0 v0] & Ek & Hin). apply filter_In in Hin. destruct Hin as [Hin Hf].
              destruct k0; [|discriminate]. simpl in Ek. subst. eauto. }
            { exfalso. apply Hs0. rewrite Ho2; [reflexivity|]. intros Hin. apply n. apply in_map_iff in Hin.
              destruct Hin as ([k0 v0] & Ek & Hin). simpl in Ek. subst k0. apply in_map_iff. exists (KStr s0, v0).
              split; [reflexivity|]. apply filter_In. auto. } }
    destruct Hmain as (h2 & E2 & Hs2 & Hl2 & Hg2 & Hr2).
    destruct (IHi h2 g (ins ls s (Hard (length h))) a Hg2) as (h3 & ls3 & E3 & Hs3 & Hl3 & Hg3 & Ho3 & Hc3).
    { intros s' Hin. rewrite ins_get_other; [apply Hfree; right; assumption|]. intros ->. contradiction. }
    exists h3, ls3. split; [rewrite E2; assumption|]. split; [|split; [lia|split; [assumption|split]]].
    + intros j Hj Hne. rewrite Hs3 by lia. apply Hs2; assumption.
    + intros s' Hn'. simpl in Hn'. rewrite Ho3 by tauto. apply ins_get_other. intros ->. tauto.
    + intros k0 v0 [E|Hin].
      * inversion E; subst. exists s, (length h). split; [reflexivity|]. split.
        { rewrite Ho3 by assumption. apply ins_get_same. assumption. }
        apply (repr_stable (length h) (length h) h2 h3 v0); [lia|intros j Hj1 Hj2; apply Hs3; lia|exact Hr2].
      * destruct (Hc3 _ _ Hin) as (s0 & j0 & -> & Hj0 & Hr0). exists s0, j0. split; [reflexivity|]. split; [assumption|].
        eapply repr_stable; [|reflexivity|exact Hr0]. lia.
Qed.

(** ** Reading a represented mapping *)
Lemma Forall_pick {A B} (P : A -> B -> Prop) l : (forall a, In a l -> exists b, P a b) -> exists bs, Forall2 P l bs.
Proof.
  induction l as [|a l IH]; intros H; [exists []; constructor|].
  destruct (H a (or_introl eq_refl)) as [b Hb]. destruct IH as [bs Hbs]; [intros; apply H; right; assumption|].
  exists (b :: bs). constructor; assumption.
Qed.
Lemma NoDup_keys_inj {K V} (l : list (K * V)) k v v' : NoDup (map fst l) -> In (k, v) l -> In (k, v') l -> v = v'.
Proof.
  induction l as [|[k0 v0] l IH]; simpl; intros Hn H1 H2; [tauto|]. inversion Hn as [|? ? Hni Hn']; subst.
  destruct H1 as [E1|H1]; destruct H2 as [E2|H2]; try congruence.
  - inversion E1; subst. exfalso. apply Hni. apply (in_map fst) in H2. assumption.
  - inversion E2; subst. exfalso. apply Hni. apply (in_map fst) in H1. assumption.
  - apply IH; assumption.
Qed.
Lemma depth_child its k t : In (k, t) its -> depth t < depth (LMap its).
Proof.
  simpl. induction its as [|[k0 t0] its IH]; simpl; [tauto|]. intros [E|H]; [inversion E; subst; lia|].
  specialize (IH H). lia.
Qed.


Lemma repr_reads lo h d : file_ok h -> dumpable d \/ (exists l, d = DLeaf l) ->
  forall i, repr lo h i d -> exists t, loads_as d t /\ reads h i t /\ (forall its, d = DMap its -> exists its', t = LMap its').
Proof.
  intros Hok. induction d as [l|items IH] using data_ind'; intros Hd i Hr; inversion Hr as [? ? dd ? Hds Hst|? ? ls Hlo Hl Hc Hdom]; subst.
  - exists (LVal dd). split; [constructor; assumption|]. split; [assumption|]. discriminate.
  - destruct Hd as [Hd|[l Hl']]; [|discriminate]. inversion Hd as [? Hnd Hk Hv]; subst.
    destruct (proj2 Hok _ _ Hl) as [Hsort Hlt].
    assert (Hpick : forall sl, In sl ls -> exists vt : data * ltree,
              In (KStr (fst sl), fst vt) items /\ loads_as (fst vt) (snd vt) /\
              exists j, snd sl = Hard j /\ j < length h /\ reads h j (snd vt)).
    { intros [s l] Hin. simpl. destruct (Hdom s) as [v Hv0]; [apply sget_In_key; apply (in_map fst) in Hin; assumption|].
      destruct (Hc _ _ Hv0) as (s0 & j & Es & Hj & Hrj). inversion Es; subst s0.
      assert (El : l = Hard j) by (apply In_sget in Hin; [congruence|assumption]). subst l.
      destruct (IH _ _ Hv0) with (i := j) as (t & Ht & Hrt & _); [|assumption|].
      { destruct (Hv _ _ Hv0) as [(l & d' & -> & _)|(its & -> & Hdi)]; eauto. }
      exists (v, t). split; [assumption|]. split; [assumption|]. exists j. split; [reflexivity|]. split; [|assumption].
      eapply Hlt; eassumption. }
    apply Forall_pick in Hpick. destruct Hpick as [vts Hvt].
    set (its := combine (map fst ls) (map snd vts)).
    set (items' := combine (map (fun sl : string * link => KStr (fst sl)) ls) (map fst vts)).
    exists (LMap its).
    assert (Hkeys : map fst its = map fst ls).
    { unfold its. clear -Hvt. induction Hvt; simpl; [reflexivity|]. f_equal. assumption. }
    assert (Hkeys' : map fst items' = map KStr (map fst ls)).
    { unfold items'. clear -Hvt. induction Hvt; simpl; [reflexivity|]. f_equal. assumption. }
    assert (Hsub : forall x, In x items' -> In x items).
    { unfold items'. clear -Hvt. induction Hvt as [|sl [v t] ls vts (H1 & _) _ IHf]; simpl; [tauto|].
      intros x [<-|Hx]; [assumption|]. apply IHf. assumption. }
    assert (Hnd' : NoDup (map fst items')).
    { rewrite Hkeys'. apply FinFun.Injective_map_NoDup; [intros x y E; congruence|]. apply sorted_NoDup. assumption. }
    split.
    + apply la_map with (items' := items').
      * apply NoDup_Permutation; [eapply NoDup_map_inv; exact Hnd|eapply NoDup_map_inv; exact Hnd'|].
        intros [k v]. split; [|apply Hsub]. intros Hin. destruct (Hc _ _ Hin) as (s & j & -> & Hj & _).
        assert (Hs : In (KStr s) (map fst items')).
        { rewrite Hkeys'. apply in_map. apply sget_In_key. congruence. }
        apply in_map_iff in Hs. destruct Hs as ([k' v'] & Ek & Hin'). simpl in Ek. subst k'.
        assert (v' = v) by (eapply NoDup_keys_inj; [exact Hnd|apply Hsub; exact Hin'|exact Hin]). subst. assumption.
      * rewrite Hkeys. assumption.
      * unfold items', its. clear -Hvt. induction Hvt as [|sl [v t] ls vts (_ & H2 & _) _ IHf]; simpl; constructor; [|assumption].
        simpl. auto.
    + split; [|eauto]. split; [eapply links_not_dset; eassumption|].
      intros fuel Hf. destruct fuel as [|fuel]; [simpl in Hf; lia|]. cbn [load]. rewrite Hl.
      assert (HM : mapM (fun x : string * link => bind (raw_get h i (fst x)) (fun i0 => match dset_of h i0 with
            | Some d => Ok (fst x, LVal d) | None => rmap (pair (fst x)) (load fuel h i0) end)) ls = Ok its).
      { apply mapM_Ok. assert (Hdep : forall k t, In (k, t) its -> depth t <= fuel).
        { intros k t Hin. apply depth_child in Hin. lia. }
        assert (Hplain : forall s l, In (s, l) ls -> sget ls s = Some l /\ plain s).
        { intros s l Hin. split; [apply In_sget; assumption|]. destruct (Hdom s) as [v Hv0].
          - apply sget_In_key. apply (in_map fst) in Hin. assumption.
          - destruct (Hk _ _ Hv0) as (s0 & Es & Hp). congruence. }
        unfold its in *. clear -Hvt Hdep Hplain Hl.
        assert (Hgen : forall ls0 vts0, Forall2 (fun sl (vt : data * ltree) => In (KStr (fst sl), fst vt) items /\
             loads_as (fst vt) (snd vt) /\ exists j, snd sl = Hard j /\ j < length h /\ reads h j (snd vt)) ls0 vts0 ->
             (forall s l, In (s, l) ls0 -> sget ls s = Some l /\ plain s) ->
             (forall k t, In (k, t) (combine (map fst ls0) (map snd vts0)) -> depth t <= fuel) ->
             Forall2 (fun x b => bind (raw_get h i (fst x)) (fun i0 => match dset_of h i0 with
               | Some d => Ok (fst x, LVal d) | None => rmap (pair (fst x)) (load fuel h i0) end) = Ok b)
               ls0 (combine (map fst ls0) (map snd vts0))).
        { clear Hdep Hplain Hvt. induction 1 as [|[s l] [v t] ls0 vts0 (H1 & H2 & j & Ej & Hj & Hr) _ IHf]; intros Hp Hdep; simpl; constructor.
          - simpl in *. subst l. destruct (Hp s (Hard j) (or_introl eq_refl)) as [Hs Hpl].
            unfold raw_get. rewrite (plain_find _ _ _ _ Hpl Hl), Hs. destruct (Nat.ltb_spec j (length h)); [|lia]. simpl.
            destruct t as [its|d]; simpl in Hr.
            + destruct Hr as [-> Hr]. rewrite Hr; [reflexivity|]. apply (Hdep s (LMap its)). left. reflexivity.
            + rewrite Hr. reflexivity.
          - apply IHf; [intros; apply Hp; right; assumption|]. intros k t' Hin. apply (Hdep k). right. assumption. }
        apply Hgen; assumption. }
      rewrite HM. reflexivity.
Qed.

Lemma dump_roundtrip flag items h g ls : valid_flag flag = true -> file_ok h -> dumpable (DMap items) ->
  links_of h g = Some ls -> (forall s, In (KStr s) (map fst items) -> sget ls s = None) ->
  exists h', dump h g (DMap items) flag = (Ok tt, h') /\ file_ok h' /\
    (forall j, j < length h -> j <> g -> nth_error h' j = nth_error h j) /\
    (exists ls' a, nth_error h g = Some {| bdy := BGroup ls; atts := a |} /\
                   nth_error h' g = Some {| bdy := BGroup ls'; atts := a |} /\
                   (forall s, ~ In (KStr s) (map fst items) -> sget ls' s = sget ls s)) /\
    (forall k v, In (k, v) items -> exists s i t, k = KStr s /\ raw_get h' g s = Ok i /\ loads_as v t /\ reads h' i t) /\
    (ls = [] -> exists its, loads_as (DMap items) (LMap its) /\ forall fuel, depth (LMap its) <= fuel -> load fuel h' g = Ok (LMap its)).
Proof.
  intros Hf Hok Hd Hl Hfree. destruct (links_of_Some _ _ _ Hl) as [a Ha].
  destruct (dump_items_fresh flag Hf (DMap items) Hd h g ls a Ha Hfree) as (h' & ls' & E & Hs & Hlen & Hg & Ho & Hc).
  assert (Hg' : links_of h' g = Some ls') by (unfold links_of; rewrite Hg; reflexivity).
  exists h'. assert (E' : dump h g (DMap items) flag = (Ok tt, h')) by (rewrite dump_map, (dumpable_supported _ Hd); assumption).
  split; [assumption|]. assert (Hok' : file_ok h') by (eapply dump_ok; eassumption). split; [assumption|].
  split; [assumption|]. split; [exists ls', a; auto|]. inversion Hd as [? Hnd Hk Hv]; subst. split.
  - intros k v Hin. destruct (Hc _ _ Hin) as (s & j & -> & Hj & Hr). destruct (Hk _ _ Hin) as (s0 & Es & Hp). inversion Es; subst s0.
    destruct (repr_reads (length h) h' v Hok') with (i := j) as (t & Ht & Hrd & _); [|assumption|].
    { destruct (Hv _ _ Hin) as [(l & d' & -> & _)|(its & -> & Hdi)]; eauto. }
    exists s, j, t. split; [reflexivity|]. split; [|auto]. unfold raw_get. rewrite (plain_find _ _ _ _ Hp Hg'), Hj.
    assert (j < length h'). { inversion Hr; subst; [eapply dset_lt|eapply links_lt]; eassumption. }
    destruct (Nat.ltb_spec j (length h')); [reflexivity|lia].
  - intros ->. destruct (repr_reads 0 h' (DMap items) Hok') with (i := g) as (t & Ht & Hrd & Hm); [auto| |].
    + eapply repr_map; [lia|eassumption| |].
      * intros k v Hin. destruct (Hc _ _ Hin) as (s & j & -> & Hj & Hr). exists s, j. split; [reflexivity|]. split; [assumption|].
        apply (repr_stable (length h) 0 h' h' v); [lia|reflexivity|assumption].
      * intros s Hs0. destruct (in_dec string_dec s (map (fun kv => match fst kv with KStr x => x | KOther => ""%string end)
                (filter (fun kv => match fst kv with KStr _ => true | _ => false end) items))) as [i|n].
        { apply in_map_iff in i. destruct i as ([k0 v0] & Ek & Hin). apply filter_In in Hin. destruct Hin as [Hin Hff].
          destruct k0; [|discriminate]. simpl in Ek. subst. eauto. }
        { exfalso. apply Hs0. rewrite Ho; [reflexivity|]. intros Hin. apply n. apply in_map_iff in Hin.
          destruct Hin as ([k0 v0] & Ek & Hin). simpl in Ek. subst k0. apply in_map_iff. exists (KStr s, v0).
          split; [reflexivity|]. apply filter_In. auto. }
    + destruct (Hm _ eq_refl) as [its ->]. exists its. split; [assumption|]. apply Hrd.
Qed.
