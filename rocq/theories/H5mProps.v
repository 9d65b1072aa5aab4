(** More theorems for C16, C18 and C19 (HDF5 layer): named links, and whole mappings of attributes.  Vocabulary: H5Spec.v, Str.v. *)
From Coq Require Import Sorted QArith Lia.
From Verif Require Import Base Str OdictSpec H5Model H5Spec H5Proofs H5Proofs2 H5Proofs3 H5Proofs4 H5Proofs5 H5Props.
Local Open Scope list_scope. Local Open Scope nat_scope.

(** Following names that are ordinary (hard) members. *)
Inductive hard_steps (h : file) : nat -> list string -> nat -> Prop :=
| hs_nil g : hard_steps h g [] g
| hs_cons g s ls j p i : links_of h g = Some ls -> od_get String.eqb ls s = Some (Hard j) -> hard_steps h j p i -> hard_steps h g (s :: p) i.
Lemma hard_resolve h nl g p i : hard_steps h g p i -> resolve nl h g p = Some i.
Proof. induction 1 as [g|g s ls j p i L G H IH]; [apply resolve_nil|]. rewrite resolve_unfold, L, G. exact IH. Qed.
Lemma resolve_more h : forall nl g ss i, resolve nl h g ss = Some i -> resolve (S nl) h g ss = Some i.
Proof.
  induction nl as [|nl IHn]; intros g ss; revert g; induction ss as [|s ss IH]; intros g i H.
  - rewrite resolve_nil in *. exact H.
  - rewrite resolve_unfold in *. destruct (links_of h g) as [ls|]; [|discriminate]. destruct (sget ls s) as [[]|]; try discriminate. apply IH, H.
  - rewrite resolve_nil in *. exact H.
  - rewrite resolve_unfold in H. rewrite resolve_unfold. destruct (links_of h g) as [ls|]; [|discriminate]. destruct (sget ls s) as [[j|q|]|]; try discriminate; [apply IH, H|apply IHn, H].
Qed.

(** create_soft_link with a new plain name: the member is a soft link holding exactly the given path, no other member and no other object changes.
    Opening the link opens what the path names from the group (or from the root for an absolute path): an object that the path reaches over ordinary members is what the
    link opens, and whatever the link opens is what the path opens. *)
Theorem C18_soft_link : forall h g k path flag ls, plain k -> links_of h g = Some ls -> valid_flag flag = true -> od_get String.eqb ls k = None ->
  exists h' ls', create_soft_link h g k path flag = (Ok tt, h') /\ links_of h' g = Some ls' /\ od_get String.eqb ls' k = Some (Soft path) /\
    (forall k2, k2 <> k -> od_get String.eqb ls' k2 = od_get String.eqb ls k2) /\ (forall j, j <> g -> nth_error h' j = nth_error h j) /\
    (forall ss i, is_path "/" path ss -> ~ In "."%string ss -> hard_steps h (match path with String "/" _ => root | _ => g end) ss i -> i < length h -> raw_get h' g k = Ok i) /\
    (forall i, path <> ""%string -> raw_get h' g k = Ok i -> raw_get h' g path = Ok i).
Proof.
  intros h g k path flag ls P L F N. destruct (proj1 (proj2 (create_link_spec h g k (Soft path) flag ls P L)) F N) as (h' & E & L' & O).
  exists h', (ins ls k (Soft path)). split; [exact E|]. split; [exact L'|]. split; [apply ins_get_same, N|]. split; [intros k2 Q; apply ins_get_other, Q|]. split; [exact O|].
  assert (St : start g path = match path with String "/" _ => root | _ => g end).
  { unfold start, is_abs. destruct path as [|c s]; [reflexivity|]. destruct (Ascii.eqb_spec c "/") as [->|Nc]; [reflexivity|]. destruct c as [[] [] [] [] [] [] [] []]; try reflexivity. congruence. }
  assert (X : extends h h') by (apply (create_link_extends _ _ _ _ _ _ _ E)).
  split.
  - intros ss i Hp Nd Hs Hi. unfold raw_get. rewrite (plain_find _ _ _ _ P L'), ins_get_same by exact N. rewrite St.
    assert (Sg : segs path = ss).
    { unfold segs. apply is_path_segments in Hp. rewrite <- Hp. clear -Nd. induction ss as [|s ss IH]; [reflexivity|]. cbn. destruct (String.eqb_spec s ".") as [->|]; [exfalso; apply Nd; left; reflexivity|]. cbn. f_equal. apply IH. intros H. apply Nd. right. exact H. }
    rewrite Sg, (resolve_mono _ _ _ X _ _ _ _ (hard_resolve h 15 _ _ _ Hs)).
    assert (length h <= length h').
    { destruct (Nat.le_gt_cases (length h) (length h')) as [|Q]; [assumption|exfalso]. destruct (Nat.eq_dec (length h') g) as [Z|Z]; [apply links_of_Some in L'; destruct L' as [? L']; assert (g < length h') by (apply nth_error_Some; congruence); lia|]. specialize (O _ Z). rewrite (proj2 (nth_error_None h' (length h'))) in O by lia. symmetry in O. apply nth_error_None in O. lia. }
    destruct (Nat.ltb_spec i (length h')); [reflexivity|lia].
  - intros i Np. unfold raw_get. rewrite (plain_find _ _ _ _ P L'), ins_get_same by exact N. unfold raw_find. destruct (String.eqb_spec path ""); [contradiction|].
    destruct (resolve 15 h' (start g path) (segs path)) as [j|] eqn:R; [|discriminate]. change nlinks with (S 15). rewrite (resolve_more _ _ _ _ _ R). auto.
Qed.
Print Assumptions C18_soft_link.
(** create_external_link with a new plain name: the member is an external link holding exactly the file name and the path. *)
Theorem C18_external_link : forall h g k fname path flag ls, plain k -> links_of h g = Some ls -> valid_flag flag = true -> od_get String.eqb ls k = None ->
  exists h' ls', create_external_link h g k fname path flag = (Ok tt, h') /\ links_of h' g = Some ls' /\ od_get String.eqb ls' k = Some (Ext fname path) /\
    (forall k2, k2 <> k -> od_get String.eqb ls' k2 = od_get String.eqb ls k2) /\ (forall j, j <> g -> nth_error h' j = nth_error h j).
Proof.
  intros h g k fname path flag ls P L F N. destruct (proj1 (proj2 (create_link_spec h g k (Ext fname path) flag ls P L)) F N) as (h' & E & L' & O).
  exists h', (ins ls k (Ext fname path)). split; [exact E|]. split; [exact L'|]. split; [apply ins_get_same, N|]. split; [intros k2 Q; apply ins_get_other, Q|exact O].
Qed.
Print Assumptions C18_external_link.
Example ex_soft_link : let h := snd (dump empty_file root ex_data "x") in
  exists h1, create_soft_link h root "ln" "a/x" "x" = (Ok tt, h1) /\ raw_get h1 root "ln" = Ok 3 /\ raw_get h root "a/x" = Ok 3 /\ raw_in h root "ln" = false /\
  fst (create_soft_link h1 root "ln" "b" "x") = Err ValueError.
Proof. eexists. repeat split. Qed.

Lemma bdy_len (h h' : file) : (forall j, option_map bdy (nth_error h' j) = option_map bdy (nth_error h j)) -> length h' = length h.
Proof.
  intros E. destruct (Nat.lt_trichotomy (length h') (length h)) as [Q|[Q|Q]]; [exfalso|exact Q|exfalso].
  - specialize (E (length h')). rewrite (proj2 (nth_error_None h' (length h'))) in E by lia. destruct (nth_error h (length h')) eqn:X; [discriminate|]. apply nth_error_None in X. lia.
  - specialize (E (length h)). rewrite (proj2 (nth_error_None h (length h))) in E by lia. destruct (nth_error h' (length h)) eqn:X; [discriminate|]. apply nth_error_None in X. lia.
Qed.
(** attrs.dump(d): with names the object does not have, every attribute is made with its value and nothing else changes. *)
Theorem C16_attr_dump : forall i flag items h, i < length h -> valid_flag flag = true -> NoDup (map fst items) ->
  (forall k v, In (k, v) items -> attr_get h i k = Err KeyError /\ exists d, stored_as v = Some d) ->
  exists h', attr_dump h i items flag = (Ok tt, h') /\
    (forall k v, In (k, v) items -> exists d, stored_as v = Some d /\ attr_get h' i k = Ok d) /\
    (forall k, ~ In k (map fst items) -> attr_get h' i k = attr_get h i k) /\
    (forall j k, j <> i -> attr_get h' j k = attr_get h j k) /\
    (forall j, option_map bdy (nth_error h' j) = option_map bdy (nth_error h j)) /\ length h' = length h.
Proof.
  intros i flag items. induction items as [|[k v] items IH]; intros h Hi F N A; cbn [attr_dump].
  - exists h. split; [reflexivity|]. split; [intros k v []|]. repeat split; reflexivity.
  - destruct (A k v ltac:(left; reflexivity)) as (G & d & D). destruct (proj1 (proj2 (proj2 (attr_create_spec h i k v flag Hi))) F G d D) as (h1 & -> & E1 & E2 & E3 & E4).
    inversion N as [|? ? N1 N2]; subst.
    assert (Len : length h1 = length h) by (apply bdy_len, E4).
    destruct (IH h1) as (h' & E & P1 & P2 & P3 & P4 & P5); [lia|exact F|exact N2| |].
    { intros k2 v2 H2. destruct (A k2 v2 (or_intror H2)) as [G2 D2]. split; [|exact D2]. rewrite E2; [exact G2|]. intros ->. apply N1. apply (in_map fst) in H2. exact H2. }
    exists h'. split; [exact E|]. split; [|split; [|split; [|split]]].
    + intros k2 v2 [H2|H2]; [|apply P1, H2]. injection H2 as <- <-. exists d. split; [exact D|]. rewrite P2 by exact N1. exact E1.
    + intros k2 H2. cbn in H2. rewrite P2 by tauto. apply E2. intros ->. tauto.
    + intros j k2 H2. rewrite P3 by exact H2. apply E3, H2.
    + intros j. rewrite P4. apply E4.
    + lia.
Qed.
Print Assumptions C16_attr_dump.
(** The first attribute that fails stops the dump: the ones before it have been written, it and the ones after it have not. *)
Theorem C16_attr_dump_stops : forall i flag pre k v post h h1 e, i < length h ->
  attr_dump h i pre flag = (Ok tt, h1) -> fst (attr_create h1 i k v flag) = Err e ->
  attr_dump h i (pre ++ (k, v) :: post) flag = (Err e, h1).
Proof.
  intros i flag pre k v post. induction pre as [|[k0 v0] pre IH]; intros h h1 e Hi H E; cbn [attr_dump app] in *.
  - injection H as <-. pose proof (proj1 (proj2 (attr_create_spec h i k v flag Hi))) as K. destruct (attr_create h i k v flag) as [[|] h2]; cbn in E; [discriminate|]. injection E as ->. rewrite (K e h2 eq_refl). reflexivity.
  - destruct (attr_create h i k0 v0 flag) as [[|] h2] eqn:C; [|discriminate]. apply (IH h2); [|exact H|exact E].
    destruct (aruns_rel i [ACreate k0 v0 flag] h Hi) as (_ & _ & _ & L). cbn in L. rewrite C in L. cbn in L. rewrite (bdy_len _ _ L). exact Hi.
Qed.
Print Assumptions C16_attr_dump_stops.
(** attrs.load and datasets.load: the names chosen (all of the object's, or those given) that the pattern accepts, each with its value. *)
Theorem C16_attr_load : forall h i m keys,
  let ks := match keys with None => attr_keys h i | Some l => l end in
  let sel := filter (fun k => match m with None => true | Some f => f k end) ks in
  (forall r, attr_load h i m keys = Ok r -> NoDup (map fst r) /\ (forall k d, In (k, d) r <-> In k sel /\ attr_get h i k = Ok d) /\ (NoDup sel -> map fst r = sel)) /\
  ((exists r, attr_load h i m keys = Ok r) <-> forall k, In k sel -> exists d, attr_get h i k = Ok d) /\
  (forall e, attr_load h i m keys = Err e -> exists k, In k sel /\ attr_get h i k = Err e) /\
  (keys = None -> exists r, attr_load h i m keys = Ok r).
Proof.
  intros h i m keys ks sel. destruct (load_selected_spec (attr_get h i) (attr_keys h i) m keys) as (A & B & C). split; [exact A|]. split; [exact B|]. split; [exact C|].
  intros E. apply B. intros k K. apply filter_In in K. destruct K as [K _]. subst keys. apply C16_attr_keys. exact K.
Qed.
Print Assumptions C16_attr_load.
Theorem C16_ds_load : forall h g m,
  (forall l, let sel := filter (fun k => match m with None => true | Some f => f k end) l in
    (forall r, ds_load h g m (Some l) = Ok r -> NoDup (map fst r) /\ (forall k d, In (k, d) r <-> In k sel /\ ds_get h g k = Ok d) /\ (NoDup sel -> map fst r = sel)) /\
    ((exists r, ds_load h g m (Some l) = Ok r) <-> forall k, In k sel -> exists d, ds_get h g k = Ok d) /\
    (forall e, ds_load h g m (Some l) = Err e -> exists k, In k sel /\ ds_get h g k = Err e)) /\
  (forall ks, ds_keys h g = Ok ks -> ds_load h g m None = ds_load h g m (Some ks)) /\
  (forall e, ds_keys h g = Err e -> ds_load h g m None = Err e).
Proof.
  intros h g m. split; [intros l sel; exact (load_selected_spec (ds_get h g) l m (Some l))|]. split; intros x E; unfold ds_load; rewrite E; reflexivity.
Qed.
Print Assumptions C16_ds_load.
(** What attrs.dump wrote on an object without attributes, attrs.load gives back. *)
Theorem C16_attr_dump_load : forall i flag items h, i < length h -> valid_flag flag = true -> NoDup (map fst items) -> attr_keys h i = [] ->
  (forall k v, In (k, v) items -> exists d, stored_as v = Some d) ->
  exists h' r, attr_dump h i items flag = (Ok tt, h') /\ attr_load h' i None None = Ok r /\ NoDup (map fst r) /\
    forall k d, In (k, d) r <-> exists v, In (k, v) items /\ stored_as v = Some d.
Proof.
  intros i flag items h Hi F N K S. assert (G : forall k, attr_get h i k = Err KeyError).
  { intros k. destruct (attr_get h i k) as [d|e] eqn:E; [exfalso; assert (Q : In k (attr_keys h i)) by (apply C16_attr_keys; eauto); rewrite K in Q; destruct Q|]. unfold attr_get in E. destruct (sget _ _); congruence. }
  destruct (C16_attr_dump i flag items h Hi F N) as (h' & E & P1 & P2 & _); [intros k v H; split; [apply G|apply (S k v H)]|].
  destruct (C16_attr_load h' i None None) as (A & _ & _ & B). destruct (B eq_refl) as (r & R). destruct (A r R) as (A1 & A2 & _). exists h', r. split; [exact E|]. split; [exact R|]. split; [exact A1|].
  intros k d. rewrite A2. rewrite filter_In, C16_attr_keys. split.
  - intros [_ H]. destruct (in_dec string_dec k (map fst items)) as [Q|Q]; [|rewrite P2, G in H by exact Q; discriminate]. apply in_map_iff in Q. destruct Q as ([k' v] & Q & Q2). cbn in Q. subst k'.
    destruct (P1 k v Q2) as (d' & D & D'). exists v. split; [exact Q2|]. congruence.
  - intros (v & H & D). destruct (P1 k v H) as (d' & D1 & D2). assert (d' = d) by congruence. subst d'. split; [split; [eauto|reflexivity]|exact D2].
Qed.
Print Assumptions C16_attr_dump_load.
Example ex_attr_dump : let h := empty_file in let items := [("u", LStr "m"); ("n", LArr one)]%string in
  attr_keys h root = [] /\ NoDup (map fst items) /\ exists h1, attr_dump h root items "x" = (Ok tt, h1) /\
  attr_load h1 root (Some (String.eqb "u")) None = Ok [("u", {| dt := TStr; shp := []; dat := [EStr "m"] |})]%string /\
  fst (attr_dump h1 root [("z", LStr "a"); ("u", LStr "b")]%string "x") = Err ValueError.
Proof. split; [reflexivity|]. split; [repeat constructor; cbn; intuition discriminate|]. eexists. repeat split. Qed.
