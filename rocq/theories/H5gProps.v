(** Property theorems C78: group-like objects in files, text tables, deleting and selecting members. *)
From Coq Require Import Sorted Permutation QArith.
From Verif Require Import Base Str OdictSpec H5Model H5Spec H5Proofs H5Proofs2 H5Proofs3 H5Proofs4 H5gModel.
Local Open Scope list_scope. Local Open Scope nat_scope.

Lemma get_group_ok h k g : get_group h k = Ok g <-> raw_get h root k = Ok g /\ is_group h g = true.
Proof.
  unfold get_group. destruct (raw_get h root k) as [i|e]; cbn [bind]; [destruct (is_group h i) eqn:E|]; split.
  - intros H; inversion H; subst; auto.
  - intros [H _]; assumption.
  - discriminate.
  - intros [H1 H2]; inversion H1; subst; congruence.
  - discriminate.
  - intros [H _]; discriminate.
Qed.
Lemma raw_get_mono ow h h' g k i : evolves ow h h' -> raw_get h g k = Ok i -> raw_get h' g k = Ok i.
Proof.
  unfold raw_get. intros E H. destruct (raw_find h g k) as [j|] eqn:F; [|discriminate]. inversion H; subst.
  rewrite (raw_find_mono _ _ _ _ _ _ E F). reflexivity.
Qed.
Lemma override_nil l : map (override []) l = l.
Proof. induction l as [|[k v] l IH]; [reflexivity|]. cbn [map]. rewrite IH. reflexivity. Qed.

(** A whole object written to a file, under a group that exists and is empty, is read back equal; the rest of the file, and every other file,
    keep everything they had. *)
Theorem C78_file_roundtrip : forall f path h fs o group g ff flag, instance (HObj fs) o -> open_file f path ff = Ok (h, RW) -> file_ok h ->
  raw_get h root group = Ok g -> links_of h g = Some [] -> valid_flag flag = true ->
  exists f' h' n, obj_to_file f path (HObj fs) o group ff flag = (Ok tt, f') /\ f' path = Some h' /\ extends h h' /\
    (forall p, p <> path -> f' p = f p) /\
    exists o', same_obj o o' /\ forall fuel, n <= fuel -> obj_from_file fuel f' path fs group [] = Ok o'.
Proof.
  intros f path h fs o group g ff flag Hi Ho Hok Hg Hl Hf.
  destruct (h5_data_roundtrip _ _ Hi) as (d & Ed & (items & -> & Hd) & Hfr).
  destruct (dump_roundtrip flag items h g [] Hf Hok Hd Hl (fun _ _ => eq_refl)) as (h' & E & _ & Hold & (ls' & a & Hn & Hn' & _) & _ & Hr).
  destruct (Hr eq_refl) as (its & Hla & Hfu).
  assert (Hgrp : is_group h g = true) by (unfold is_group; rewrite Hl; reflexivity).
  assert (Hext : extends h h').
  { intros i o' Hi'. destruct (Nat.eq_dec i g) as [->|Hne].
    - rewrite Hi' in Hn. inversion Hn; subst. eexists. split; [exact Hn'|]. split; [reflexivity|]. intros k l Hk. discriminate.
    - exists o'. split; [|apply obj_evolves_refl]. rewrite Hold; [assumption| |assumption]. apply nth_error_Some. congruence. }
  eexists (fun p => if String.eqb p path then Some h' else f p), h', (depth (LMap its)).
  split; [|split; [|split; [|split]]].
  - unfold obj_to_file. rewrite Ho. assert (G : get_group h group = Ok g) by (apply get_group_ok; auto). rewrite G.
    unfold obj_to_group. rewrite Ed, E. reflexivity.
  - rewrite String.eqb_refl. reflexivity.
  - assumption.
  - intros p Hp. apply String.eqb_neq in Hp. rewrite Hp. reflexivity.
  - destruct (Hfr _ Hla) as (o' & Eo & So). exists o'. split; [exact So|]. intros fuel Hle. unfold obj_from_file, open_file. cbn [String.eqb Ascii.eqb Bool.eqb]. rewrite String.eqb_refl. cbn [bind].
    assert (G : get_group h' group = Ok g).
    { apply get_group_ok. split; [eapply raw_get_mono; [exact Hext|assumption]|]. unfold is_group, links_of. rewrite Hn'. reflexivity. }
    rewrite G. cbn [bind]. unfold obj_from_group. rewrite (Hfu _ Hle). cbn [bind]. rewrite Eo.
    inversion Hi as [| | |? vals]; subst. inversion So; subst. cbn [bind]. unfold construct. cbn [map forallb]. rewrite override_nil. reflexivity.
Qed.
Print Assumptions C78_file_roundtrip.

Example C78_roundtrip_case : exists f', obj_to_file (fun _ => None) "p" (HObj [("x", HStr)]) (OObj [("x", OStr "v")]) "/" "x" "x" = (Ok tt, f') /\
  obj_from_file 3 f' "p" [("x", HStr)] "/" [] = Ok (OObj [("x", OStr "v")]).
Proof. eexists. split; reflexivity. Qed.

(** A group that is not there is never created: KeyError.  Finding: the file itself has by then been created (or truncated), so repeating the
    call with the default flag fails with FileExistsError. *)
Theorem C78_missing_group : forall f path t o group ff flag r f' h, obj_to_file f path t o group ff flag = (r, f') ->
  open_file f path ff = Ok (h, RW) -> raw_find h root group = None ->
  r = Err KeyError /\ f' path = Some h /\ (forall p, p <> path -> f' p = f p) /\
  forall group2 flag2, obj_to_file f' path t o group2 "x" flag2 = (Err FileExistsError, f').
Proof.
  intros f path t o group ff flag r f' h E Ho Hn. unfold obj_to_file in E. rewrite Ho in E. unfold get_group, raw_get in E. rewrite Hn in E.
  cbn [bind] in E. inversion E; subst. cbv beta. rewrite String.eqb_refl. repeat split.
  - intros p Hp. apply String.eqb_neq in Hp. rewrite Hp. reflexivity.
  - intros. unfold obj_to_file, open_file. cbn [String.eqb Ascii.eqb Bool.eqb]. rewrite String.eqb_refl. reflexivity.
Qed.
Print Assumptions C78_missing_group.
(** A path that names a dataset is an AttributeError on writing and reading alike, a read-only file an OSError (and nothing is changed), a file
    that cannot be opened the error of opening it. *)
Theorem C78_refused : forall f path t o group ff flag,
  (forall e, open_file f path ff = Err e -> obj_to_file f path t o group ff flag = (Err e, f)) /\
  (forall h g, open_file f path ff = Ok (h, RO) -> raw_get h root group = Ok g -> links_of h g <> None -> obj_to_file f path t o group ff flag = (Err OSError, f)) /\
  (forall h m g d, open_file f path ff = Ok (h, m) -> raw_get h root group = Ok g -> dset_of h g = Some d ->
     exists f', obj_to_file f path t o group ff flag = (Err AttributeError, f') /\ (forall p, p <> path -> f' p = f p) /\ (f' path = f path \/ f' path = Some h)) /\
  (forall h g d fuel fs kw, f path = Some h -> raw_get h root group = Ok g -> dset_of h g = Some d -> obj_from_file fuel f path fs group kw = Err AttributeError) /\
  (forall fuel fs kw, f path = None -> obj_from_file fuel f path fs group kw = Err FileNotFoundError).
Proof.
  intros f path t o group ff flag. assert (D : forall h g d, dset_of h g = Some d -> is_group h g = false).
  { intros h g d. unfold dset_of, is_group, links_of. destruct (nth_error h g) as [[[ls|d0] a]|]; try discriminate; reflexivity. }
  split; [|split; [|split; [|split]]].
  - intros e E. unfold obj_to_file. rewrite E. reflexivity.
  - intros h g E G L. unfold obj_to_file, get_group. rewrite E, G. cbn [bind]. unfold is_group. destruct (links_of h g); [reflexivity|congruence].
  - intros h m g d E G Hd. unfold obj_to_file, get_group. rewrite E, G. cbn [bind]. rewrite (D _ _ _ Hd). destruct m; eexists; (split; [reflexivity|]).
    + split; [reflexivity|]. left. reflexivity.
    + split; [intros p Hp; apply String.eqb_neq in Hp; rewrite Hp; reflexivity|]. right. rewrite String.eqb_refl. reflexivity.
  - intros h g d fuel fs kw E G Hd. unfold obj_from_file, open_file. cbn [String.eqb Ascii.eqb Bool.eqb]. rewrite E. cbn [bind]. unfold get_group. rewrite G. cbn [bind].
    rewrite (D _ _ _ Hd). reflexivity.
  - intros fuel fs kw E. unfold obj_from_file, open_file. cbn [String.eqb Ascii.eqb Bool.eqb]. rewrite E. reflexivity.
Qed.
Print Assumptions C78_refused.
Example C78_missing_group_case : exists f', obj_to_file (fun _ => None) "p" (HObj []) (OObj []) "snap" "x" "x" = (Err KeyError, f') /\
  f' "p"%string = Some empty_file.
Proof. eexists. split; reflexivity. Qed.

(** Keywords given on reading replace fields; every declared field must be in the file all the same, other data in the group is ignored, and a
    keyword that is no field is a TypeError. *)
Theorem C78_keywords : forall fuel h g fs kw o vals, od_wf kw -> obj_from_group fuel h g fs [] = Ok (OObj vals) ->
  (forall k, In k (map fst kw) -> In k (map fst fs)) -> obj_from_group fuel h g fs kw = Ok o ->
  exists vals', o = OObj vals' /\ map fst vals' = map fst vals /\
    Forall2 (fun new old => (forall v, In (fst old, v) kw -> snd new = v) /\ (~ In (fst old) (map fst kw) -> snd new = snd old)) vals' vals.
Proof.
  intros fuel h g fs kw o vals Hwf H0 Hsub H. unfold obj_from_group in *. destruct (load fuel h g) as [x|]; [|discriminate]. cbn [bind] in *.
  destruct (from_h5_data (HObj fs) x) as [[| | |vs]|]; try discriminate. cbn [bind] in *. unfold construct in H0. cbn [map forallb] in H0.
  rewrite override_nil in H0. inversion H0; subst vs. unfold construct in H. destruct (forallb _ _); [|discriminate]. inversion H; subst.
  exists (map (override kw) vals). split; [reflexivity|]. split.
  - rewrite map_map. apply map_ext. intros [k v]. reflexivity.
  - clear - Hwf. induction vals as [|[k v] vals IH]; constructor; [|assumption]. cbn [fst snd override]. split.
    + intros v' Hin. rewrite (od_In_get _ String.eqb_spec _ _ _ Hwf Hin). reflexivity.
    + intros Hni. destruct (od_get String.eqb kw k) eqn:E; [|reflexivity]. exfalso. apply Hni. apply (od_get_In _ String.eqb_spec) in E.
      apply (in_map fst) in E. exact E.
Qed.
Print Assumptions C78_keywords.
Theorem C78_keywords_errors : forall fuel h g fs kw,
  (forall e, obj_from_group fuel h g fs [] = Err e -> obj_from_group fuel h g fs kw = Err e) /\
  (forall o k, obj_from_group fuel h g fs [] = Ok o -> In k (map fst kw) -> ~ In k (map fst fs) -> obj_from_group fuel h g fs kw = Err TypeError) /\
  (forall o, obj_from_group fuel h g fs [] = Ok o -> (forall k, In k (map fst kw) -> In k (map fst fs)) -> exists o', obj_from_group fuel h g fs kw = Ok o').
Proof.
  intros fuel h g fs kw. unfold obj_from_group. destruct (load fuel h g) as [x|e0]; cbn [bind]; [|repeat split; intros; congruence].
  destruct (from_h5_data (HObj fs) x) as [[d|s|cols|vs]|e0]; cbn [bind]; unfold construct; cbn [map forallb]; repeat split; intros; try congruence.
  - match goal with |- (if ?b then _ else _) = _ => destruct b eqn:HT; [|reflexivity] end. exfalso. rewrite forallb_forall in HT. specialize (HT _ H0).
    apply existsb_exists in HT. destruct HT as (k' & Hin & E). apply String.eqb_eq in E. subst. contradiction.
  - eexists. rewrite (proj2 (forallb_forall _ _)); [reflexivity|]. intros k Hk. apply existsb_exists. exists k. split; [auto|apply String.eqb_refl].
Qed.
Print Assumptions C78_keywords_errors.

(** Text tables.  Into a group the columns are stored exactly as Group.dump stores the mapping of column names to columns (so C10-C13 apply):
    in order, stopping at the first refused one. *)
Definition as_mapping (cols : list (string * dset)) : data := DMap (map (fun c => (KStr (fst c), DLeaf (LArr (snd c)))) cols).
Lemma cols_supported cols : dict_supported (as_mapping cols) = true.
Proof. induction cols as [|[k d] cols IH]; [reflexivity|]. cbn. exact IH. Qed.
Theorem C78_text_to_group : forall cols h g d_flag, columns_to_group h g cols d_flag = dump h g (as_mapping cols) d_flag.
Proof.
  intros cols h g fl. unfold as_mapping. cbn [dump]. pose proof (cols_supported cols) as S. unfold as_mapping in S. rewrite S. clear S. revert h.
  induction cols as [|[k d] cols IH]; intros h; [reflexivity|]. cbn [columns_to_group map fst snd].
  destruct (ds_create h g k (LArr d) fl) as [[i|e] h1]; [|reflexivity]. exact (IH h1).
Qed.
Print Assumptions C78_text_to_group.
(** Into a file: as [File.dump_to] with f_flag and dump flag 'ac'.  Finding: whatever [d_flag] is asked for, even 'x' or an invalid one. *)
Theorem C78_text_to_file : forall f cols path d_flag ff gf cr,
  txt_to_h5_file f cols path d_flag ff = dump_to f path (as_mapping cols) None ff gf "ac" cr.
Proof.
  intros. unfold txt_to_h5_file, dump_to. destruct (open_file f path ff) as [[h [|]]|e]; try reflexivity.
  rewrite C78_text_to_group. reflexivity.
Qed.
Print Assumptions C78_text_to_file.
Definition col (z : Z) : dset := {| dt := TInt true 64; shp := [1]; dat := [EInt z] |}.
Example C78_text_flag_refuted : exists f1 f2, txt_to_h5_file (fun _ => None) [("a", col 1)]%string "p" "x" "w" = (Ok tt, f1) /\
  txt_to_h5_file f1 [("a", col 2)]%string "p" "x" "a" = (Ok tt, f2) /\ load_from 3 f2 "p" None = Ok (LMap [("a", LVal (col 2))])%string.
Proof. eexists _, _. repeat split. Qed.

(** ** Deleting a member *)
Lemma del_sorted {V} (l : list (string * V)) k : StronglySorted name_lt (map fst l) ->
  StronglySorted name_lt (map fst (od_del String.eqb l k)) /\ forall x, In x (od_del String.eqb l k) -> In x l.
Proof.
  induction l as [|[k' v] l IH]; intros H; [split; [constructor|intros ? []]|]. inversion H as [|? ? Hs Hf]; subst. cbn [od_del].
  destruct (String.eqb k k'); [split; [assumption|intros x Hx; right; assumption]|]. destruct (IH Hs) as [S1 S2]. split.
  - cbn [map fst]. constructor; [assumption|]. rewrite Forall_forall in *. intros n Hn. apply Hf. apply in_map_iff in Hn.
    destruct Hn as (x & <- & Hx). apply in_map. auto.
  - intros x [<-|Hx]; [left; reflexivity|right; auto].
Qed.
(** [del g[k]] of a member removes that name and nothing else: no other name of that group, no other group, no dataset, no attribute. *)
Theorem C78_delete : forall h g k ls l, plain k -> file_ok h -> links_of h g = Some ls -> od_get String.eqb ls k = Some l ->
  exists h', group_del h g k = (Ok tt, h') /\ file_ok h' /\ raw_find h' g k = None /\
    (exists ls', links_of h' g = Some ls' /\ od_get String.eqb ls' k = None /\ forall k2, k2 <> k -> od_get String.eqb ls' k2 = od_get String.eqb ls k2) /\
    attrs_of h' g = attrs_of h g /\ length h' = length h /\ (forall j, j <> g -> nth_error h' j = nth_error h j).
Proof.
  intros h g k ls l Hp Hok Hl Hk. destruct Hok as [Hr Hg]. destruct (Hg _ _ Hl) as [Hs Hh]. destruct (links_of_Some _ _ _ Hl) as [a Ea].
  destruct (del_sorted ls k Hs) as [Ds Din]. pose proof (sorted_NoDup _ Hs) as Hnd.
  set (h' := set_body h g (BGroup (od_del String.eqb ls k))).
  assert (Hn' : nth_error h' g = Some {| bdy := BGroup (od_del String.eqb ls k); atts := a |}) by apply (nth_set_body_same _ _ _ _ Ea).
  assert (Hl' : links_of h' g = Some (od_del String.eqb ls k)) by (unfold links_of; rewrite Hn'; reflexivity).
  assert (Hoth : forall j, j <> g -> nth_error h' j = nth_error h j) by (intros j N; apply nth_set_body_other; congruence).
  assert (Hnone : od_get String.eqb (od_del String.eqb ls k) k = None) by (apply (od_get_del_same _ String.eqb_spec); exact Hnd).
  exists h'. split; [|split; [split|split; [|split; [|split; [|split]]]]].
  - unfold group_del. rewrite (plain_segs _ Hp). cbn [rev app]. rewrite (plain_start _ _ Hp).
    assert (Er : resolve nlinks h g [] = Some g) by reflexivity. rewrite Er, Hl, Hk. reflexivity.
  - destruct (Nat.eq_dec root g) as [<-|N]; [congruence|]. rewrite (links_of_eq h' h _ (Hoth _ N)). assumption.
  - intros j ls' H. unfold h'. rewrite set_body_length. destruct (Nat.eq_dec j g) as [->|N].
    + rewrite Hl' in H. inversion H; subst. split; [assumption|]. intros k' i Hin. eapply Hh. apply Din. exact Hin.
    + rewrite (links_of_eq h' h _ (Hoth _ N)) in H. exact (Hg _ _ H).
  - rewrite (plain_find _ _ _ _ Hp Hl'), Hnone. reflexivity.
  - eexists. split; [exact Hl'|]. split; [assumption|]. intros k2 N. apply (od_get_del_other _ String.eqb_spec). assumption.
  - unfold attrs_of. rewrite Hn', Ea. reflexivity.
  - apply set_body_length.
  - assumption.
Qed.
Print Assumptions C78_delete.
Theorem C78_delete_missing : forall h g k ls, plain k -> links_of h g = Some ls -> od_get String.eqb ls k = None -> group_del h g k = (Err KeyError, h).
Proof.
  intros h g k ls Hp Hl Hk. unfold group_del. rewrite (plain_segs _ Hp). cbn [rev app]. rewrite (plain_start _ _ Hp).
  assert (Er : resolve nlinks h g [] = Some g) by reflexivity. rewrite Er, Hl, Hk. reflexivity.
Qed.
Print Assumptions C78_delete_missing.
(** Neither can the group itself be deleted (an empty path, "." or "/"). *)
Theorem C78_delete_self : forall h g, group_del h g "" = (Err KeyError, h) /\ group_del h g "." = (Err KeyError, h) /\ group_del h g "/" = (Err KeyError, h).
Proof. intros h g. repeat split. Qed.
Print Assumptions C78_delete_self.
(** Deleting and creating again, even exclusively, replaces a dataset by one of another dtype and shape. *)
Theorem C78_replace : forall h g k ls l v d flag, plain k -> file_ok h -> links_of h g = Some ls -> od_get String.eqb ls k = Some l ->
  valid_flag flag = true -> stored_as v = Some d ->
  exists h1 i h2, group_del h g k = (Ok tt, h1) /\ ds_create h1 g k v flag = (Ok i, h2) /\ ds_get h2 g k = Ok d /\
    (forall j, j < length h -> j <> g -> nth_error h2 j = nth_error h j).
Proof.
  intros h g k ls l v d flag Hp Hok Hl Hk Hf Hv.
  destruct (C78_delete _ _ _ _ _ Hp Hok Hl Hk) as (h1 & E1 & _ & _ & (ls' & Hl' & Hn & _) & _ & Hlen & Hoth).
  destruct (ds_create_new h1 g k ls' v d flag Hf Hp Hl' Hn Hv) as (i & h2 & E2 & G & _ & Hold).
  exists h1, i, h2. repeat split; auto. intros j Hj N. rewrite Hold by (try rewrite Hlen; assumption). apply Hoth. assumption.
Qed.
Print Assumptions C78_replace.
Example C78_delete_case : exists h1 h2, dump empty_file root (as_mapping [("a", col 1); ("b", col 2)])%string "x" = (Ok tt, h1) /\
  group_del h1 root "a" = (Ok tt, h2) /\ load 3 h2 root = Ok (LMap [("b", LVal (col 2))])%string /\ group_del h2 root "a" = (Err KeyError, h2).
Proof. eexists _, _. repeat split. Qed.

(** ** Selecting several members *)
(** A sequence of keys gives the objects (values) in the order asked for; KeyError as soon as one is missing (or, for values, no dataset). *)
Theorem C78_select : forall h g ks,
  (forall l, group_get_many h g ks = Ok l <-> Forall2 (fun k i => raw_get h g k = Ok i) ks l) /\
  (forall l, ds_get_many h g ks = Ok l <-> Forall2 (fun k d => ds_get h g k = Ok d) ks l) /\
  (forall e, group_get_many h g ks = Err e <-> e = KeyError /\ exists k, In k ks /\ raw_in h g k = false) /\
  (forall e, ds_get_many h g ks = Err e <-> e = KeyError /\ exists k, In k ks /\ ds_contains h g k = false).
Proof.
  assert (G : forall A (get : string -> result A) (isin : string -> bool), (forall k, isin k = true <-> exists a, get k = Ok a) ->
      (forall k e, get k = Err e -> e = KeyError) -> forall ks e, mapM get ks = Err e <-> e = KeyError /\ exists k, In k ks /\ isin k = false).
  { intros A get isin H1 H2 ks e. induction ks as [|k ks IH]; cbn [mapM].
    - split; [discriminate|intros [_ (k & [] & _)]].
    - destruct (get k) as [a|e0] eqn:E; cbn [bind].
      + destruct (mapM get ks) as [l|e1] eqn:M; cbn [bind rmap].
        * split; [discriminate|]. intros [-> (k' & [<-|Hin] & Hf)].
          -- assert (isin k = true) by (apply H1; eauto). congruence.
          -- exfalso. assert (X : @Ok (list A) l = Err KeyError) by (apply IH; eauto). discriminate.
        * split; intros H.
          -- assert (Ee : e1 = e) by congruence. subst. destruct (proj1 IH eq_refl) as (-> & k' & Hin & Hf). split; [reflexivity|]. exists k'. split; [right; assumption|assumption].
          -- destruct H as [-> (k' & [<-|Hin] & Hf)].
             ++ assert (isin k = true) by (apply H1; eauto). congruence.
             ++ apply IH. split; [reflexivity|]. exists k'. auto.
      + assert (e0 = KeyError) by eauto. subst. split.
        * intros H. inversion H; subst. split; [reflexivity|]. exists k. split; [left; reflexivity|].
          destruct (isin k) eqn:F; [|reflexivity]. apply H1 in F. destruct F as [a F]. congruence.
        * intros [-> _]. reflexivity. }
  intros h g ks. unfold group_get_many, ds_get_many. split; [|split; [|split]].
  - intros l. apply mapM_Ok.
  - intros l. apply mapM_Ok.
  - apply (G _ _ (raw_in h g)).
    + intros k. unfold raw_in, raw_get. destruct (raw_find h g k); split; eauto; try discriminate. intros [a H]; discriminate.
    + intros k e. unfold raw_get. destruct (raw_find h g k); intros H; inversion H; reflexivity.
  - apply (G _ _ (ds_contains h g)).
    + intros k. unfold ds_contains, ds_get, is_dset. destruct (raw_find h g k) as [i|]; [destruct (dset_of h i)|]; split; eauto; try discriminate; intros [a H]; discriminate.
    + intros k e. unfold ds_get. destruct (raw_find h g k) as [i|]; [destruct (dset_of h i)|]; intros H; inversion H; reflexivity.
Qed.
Print Assumptions C78_select.
(** Attribute access on [datasets] gives the same values, with AttributeError instead of KeyError.  Finding: the listing of [datasets]
    ([what], [ls]) raises TypeError on every group. *)
Theorem C78_dataset_attributes : forall h g k,
  (forall d, ds_getattr h g k = Ok d <-> ds_get h g k = Ok d) /\ (ds_contains h g k = false <-> ds_getattr h g k = Err AttributeError) /\
  ds_what h g = Err TypeError.
Proof.
  intros h g k. unfold ds_getattr, ds_contains, ds_get, is_dset. destruct (raw_find h g k) as [i|]; [destruct (dset_of h i)|]; repeat split; intros; try discriminate; try reflexivity; congruence.
Qed.
Print Assumptions C78_dataset_attributes.
