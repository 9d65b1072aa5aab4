(** Property theorems C85 (tables in HDF5 files) and C86 (dataset managers as mappings, file handles). *)
From Coq Require Import Sorted Permutation QArith.
From Verif Require Import Base Str OdictSpec H5Model H5Spec H5Proofs H5Proofs2 H5Proofs3 H5Proofs4 H5gModel H5gProps H5tModel.
Local Open Scope list_scope. Local Open Scope nat_scope.

Lemma sorted_perm_eq {V} (l l' : list (string * V)) : StronglySorted name_lt (map fst l) -> StronglySorted name_lt (map fst l') -> Permutation l l' -> l = l'.
Proof.
  revert l'. induction l as [|[k v] l IH]; intros l' S S' P; [apply Permutation_nil in P; congruence|].
  destruct l' as [|[k' v'] l']; [apply Permutation_sym, Permutation_nil in P; discriminate|]. cbn [map fst] in S, S'.
  inversion S as [|? ? Sl A]; inversion S' as [|? ? Sl' A']; subst. rewrite Forall_forall in A, A'.
  assert (E : (k, v) = (k', v')).
  { assert (I : In (k, v) ((k', v') :: l')) by (eapply Permutation_in; [exact P|left; reflexivity]).
    assert (I' : In (k', v') ((k, v) :: l)) by (eapply Permutation_in; [apply Permutation_sym; exact P|left; reflexivity]).
    destruct I as [I|I]; [congruence|]. destruct I' as [I'|I']; [congruence|]. apply (in_map fst) in I, I'. cbn in I, I'.
    exfalso. apply (name_lt_irrefl k). eapply name_lt_trans; [apply (A k' I')|apply (A' k I)]. }
  injection E as -> ->. f_equal. apply IH; [assumption|assumption|]. eapply Permutation_cons_inv. exact P.
Qed.

(** ** C85 *)
(** A table whose columns are arrays under distinct plain names: written into any empty group, by itself, and read back as a table, it has the same
    columns with the same values; only their order is now that of the names. *)
Theorem C85_roundtrip : forall cols, NoDup (map fst cols) -> (forall k, In k (map fst cols) -> plain k) ->
  (forall k c, In (k, c) cols -> exists d, c = CArr d) -> exists items, table_to_h5 cols = Ok (DMap items) /\
  forall h g flag, valid_flag flag = true -> file_ok h -> links_of h g = Some [] ->
    exists h' n cols', dump h g (DMap items) flag = (Ok tt, h') /\
      (forall fuel, n <= fuel -> bind (load fuel h' g) table_from_h5 = Ok (OTab cols')) /\
      Permutation cols cols' /\ StronglySorted name_lt (map fst cols') /\
      (forall k, od_get String.eqb cols' k = od_get String.eqb cols k) /\
      (StronglySorted name_lt (map fst cols) -> cols' = cols).
Proof.
  intros cols ND PL CA. destruct (table_good cols (in_tab cols ND PL CA)) as (d & Ed & (items & -> & Hd) & Hfr). exists items. split; [exact Ed|].
  intros h g flag Hf Hok Hl. destruct (dump_roundtrip flag items h g [] Hf Hok Hd Hl (fun _ _ => eq_refl)) as (h' & E & _ & _ & _ & _ & Hr).
  destruct (Hr eq_refl) as (its & Hla & Hfu). destruct (Hfr _ Hla) as (o' & Eo & So). inversion So as [| |? cols' P S|]; subst.
  exists h', (depth (LMap its)), cols'. split; [exact E|]. split; [intros fuel Hle; rewrite (Hfu _ Hle); exact Eo|]. split; [exact P|]. split; [exact S|]. split.
  - intros k. destruct (od_get String.eqb cols k) as [c|] eqn:G.
    + apply (od_In_get String.eqb String.eqb_spec); [apply sorted_NoDup; exact S|]. eapply Permutation_in; [exact P|]. apply (od_get_In String.eqb String.eqb_spec). exact G.
    + destruct (od_get String.eqb cols' k) as [c|] eqn:G'; [|reflexivity]. exfalso. apply (od_get_In String.eqb String.eqb_spec) in G'.
      apply (Permutation_in _ (Permutation_sym P)) in G'. apply (od_In_get String.eqb String.eqb_spec _ _ _ ND) in G'. congruence.
  - intros So'. symmetry. apply sorted_perm_eq; assumption.
Qed.
Print Assumptions C85_roundtrip.

(** Inside group-like objects (C15, C78): an object whose tables all have their columns in name order, in particular one without tables, comes back equal. *)
Theorem C85_objects_equal : forall o o', name_ordered o -> same_obj o o' -> o' = o.
Proof.
  intros o o' N. revert o'. induction N as [d|s|cols So|vals A IH]; intros o' S; inversion S as [| |? cols' P So'|? vals' F]; subst; try reflexivity.
  - f_equal. symmetry. apply sorted_perm_eq; assumption.
  - f_equal. clear S A. revert vals' F. induction vals as [|[k v] vals IHv]; intros vals' F; inversion F as [|? [k' v'] ? vs' [Ek Sv] F']; subst; [reflexivity|].
    cbn [fst snd] in Ek, Sv. subst k'. f_equal; [|apply IHv; [|exact F']; intros; eapply IH; [right; eassumption|assumption]].
    f_equal. apply (IH k v (or_introl eq_refl) v' Sv).
Qed.
Print Assumptions C85_objects_equal.

(** Reading: a dataset is no table; every member of a group becomes a column under its name, whatever wrote it. *)
Theorem C85_reading : forall x, (forall d, x = LVal d -> table_from_h5 x = Err AssertionError) /\
  (forall its, x = LMap its -> NoDup (map fst its) -> exists cols, table_from_h5 x = Ok (OTab cols) /\ map fst cols = map fst its /\
     forall k d, In (k, CArr d) cols <-> In (k, LVal d) its).
Proof.
  intros x. split; [intros d ->; reflexivity|]. intros its -> ND. cbn [table_from_h5].
  set (g := fun it : string * ltree => (fst it, match snd it with LVal d => CArr d | LMap _ => COdd end)).
  assert (G : map fst (map g its) = map fst its) by (rewrite map_map; reflexivity).
  exists (map g its). split; [|split; [exact G|]].
  - f_equal. f_equal. apply (od_update_id String.eqb String.eqb_spec). assert (W : NoDup (map fst (map g its))) by (rewrite G; exact ND). exact W.
  - intros k d. rewrite in_map_iff. split.
    + intros ([k0 [its0|d0]] & E & I); unfold g in E; cbn [fst snd] in E; inversion E; subst; exact I.
    + intros I. exists (k, LVal d). split; [reflexivity|exact I].
Qed.
Print Assumptions C85_reading.
(** Writing: a column that holds no array of a storable type is refused before anything is written; otherwise the members are the columns in order. *)
Theorem C85_writing : forall cols, (forall items, table_to_h5 cols = Ok (DMap items) <->
    Forall2 (fun c it => exists d, snd c = CArr d /\ it = (KStr (fst c), DLeaf (LArr d))) cols items) /\
  (forall e, table_to_h5 cols = Err e <-> e = TypeError /\ exists k, In (k, COdd) cols).
Proof.
  intros cols. unfold table_to_h5. induction cols as [|[k c] cols [IH1 IH2]].
  - split; [intros items; cbn; split; [intros H; inversion H; constructor|intros H; inversion H; reflexivity]|]. intros e. cbn. split; [discriminate|intros [_ (k & [])]].
  - cbn [mapM fst snd]. destruct c as [d|]; cbn [bind].
    + destruct (mapM _ cols) as [its|e0]; cbn [bind rmap] in *.
      * split.
        -- intros items. split.
           ++ intros H. inversion H; subst. constructor; [exists d; auto|]. apply IH1. reflexivity.
           ++ intros H. inversion H as [|? it ? its' (d' & Ed & ->) F]; subst. cbn in Ed. injection Ed as <-. apply IH1 in F. inversion F; subst. reflexivity.
        -- intros e. split; [discriminate|]. intros [-> (k0 & [E|I])]; [discriminate|]. assert (X : Ok (DMap its) = Err TypeError) by (apply IH2; eauto). discriminate.
      * split.
        -- intros items. split; [discriminate|]. intros H. inversion H as [|? it ? its' Hx F]; subst. apply IH1 in F. discriminate.
        -- intros e. split.
           ++ intros H. inversion H; subst. destruct (proj1 (IH2 e) eq_refl) as [-> (k0 & I)]. split; [reflexivity|]. exists k0. right. exact I.
           ++ intros [-> (k0 & [E|I])]; [discriminate|]. apply IH2. eauto.
    + cbn. split.
      * intros items. split; [discriminate|]. intros H. inversion H as [|? ? ? ? (d & Ed & _) _]; discriminate.
      * intros e. split; [intros H; inversion H; split; [reflexivity|]; exists k; left; reflexivity|intros [-> _]; reflexivity].
Qed.
Print Assumptions C85_writing.

Definition col1 (z : Z) : dset := {| dt := TInt true 64; shp := [1]; dat := [EInt z] |}.
(** Finding: the order of the columns is not kept. *)
Theorem C85_order_refuted : exists items h', table_to_h5 [("x", CArr (col1 1)); ("m", CArr (col1 2))]%string = Ok (DMap items) /\
  dump empty_file root (DMap items) "x" = (Ok tt, h') /\ bind (load 3 h' root) table_from_h5 = Ok (OTab [("m", CArr (col1 2)); ("x", CArr (col1 1))])%string.
Proof. eexists _, _. repeat split. Qed.
Print Assumptions C85_order_refuted.
(** Finding: a column whose name has a slash is written into a subgroup and is not a column any more when the table is read. *)
Theorem C85_slash_refuted : exists items h' cols, table_to_h5 [("halo/mass", CArr (col1 1))]%string = Ok (DMap items) /\
  dump empty_file root (DMap items) "x" = (Ok tt, h') /\ bind (load 3 h' root) table_from_h5 = Ok (OTab cols) /\
  od_get String.eqb cols "halo/mass"%string = None /\ map fst cols = ["halo"]%string.
Proof. eexists _, _, _. repeat split. Qed.
Print Assumptions C85_slash_refuted.
(** Finding: writing a table over an older one (flag "ac") leaves the columns the new table does not have. *)
Theorem C85_stale_column_refuted : exists i1 h1 i2 h2, table_to_h5 [("a", CArr (col1 1)); ("b", CArr (col1 2))]%string = Ok (DMap i1) /\
  dump empty_file root (DMap i1) "x" = (Ok tt, h1) /\ table_to_h5 [("a", CArr (col1 3))]%string = Ok (DMap i2) /\
  dump h1 root (DMap i2) "ac" = (Ok tt, h2) /\ bind (load 3 h2 root) table_from_h5 = Ok (OTab [("a", CArr (col1 3)); ("b", CArr (col1 2))])%string.
Proof. eexists _, _, _, _. repeat split. Qed.
Print Assumptions C85_stale_column_refuted.
(** Non-vacuity of C85_roundtrip and of the table case of C15. *)
Example ex_table : instance (HObj [("t", HTab)])%string (OObj [("t", OTab [("x", CArr (col1 1)); ("m", CArr (col1 2))])])%string.
Proof.
  assert (P : forall s, In s ["t"; "x"; "m"]%string -> plain s) by (intros s [<-|[<-|[<-|[]]]]; repeat split; discriminate).
  constructor.
  - repeat constructor. intros [].
  - intros k [<-|[]]. apply P. left. reflexivity.
  - constructor; [|constructor]. split; [reflexivity|]. constructor.
    + repeat constructor; cbn; intuition discriminate.
    + intros k [<-|[<-|[]]]; apply P; cbn; auto.
    + intros k c [E|[E|[]]]; inversion E; eauto.
Qed.

(** ** C86: dataset managers as mappings *)
(** values, items and keys of a group whose members all resolve: the datasets among its direct members, once each, in name order. *)
Theorem C86_items : forall h g ls, file_ok h -> links_of h g = Some ls -> (forall k l, In (k, l) ls -> exists i, raw_get h g k = Ok i) ->
  exists l, ds_items h g = Ok l /\ ds_values h g = Ok (map snd l) /\ ds_keys h g = Ok (map fst l) /\ StronglySorted name_lt (map fst l) /\
    forall k d, In (k, d) l <-> In k (map fst ls) /\ ds_get h g k = Ok d.
Proof.
  intros h g ls Hok Hl Hall. destruct (ds_keys_spec h g ls Hok Hl Hall) as (ks & Ek & Sk & Ik). unfold ds_keys, ds_values, ds_items in *. rewrite Hl in *.
  destruct (mapM (fun x : string * link => rmap (pair (fst x)) (raw_get h g (fst x))) ls) as [ys|e] eqn:M; cbn [rmap] in *; [|discriminate].
  set (f := fun x : string * nat => match dset_of h (snd x) with Some d => [(fst x, d)] | None => [] end).
  exists (flat_map f ys). split; [reflexivity|]. split; [reflexivity|].
  assert (K : map fst (flat_map f ys) = map fst (filter (fun x => is_dset h (snd x)) ys)).
  { clear. induction ys as [|[k i] ys IH]; [reflexivity|]. cbn [flat_map filter]. unfold f at 1, is_dset at 1. cbn [fst snd]. destruct (dset_of h i); cbn [app map fst]; rewrite <- IH; reflexivity. }
  rewrite K. split; [reflexivity|]. injection Ek as <-. split; [exact Sk|].
  assert (R : forall k i, In (k, i) ys -> raw_get h g k = Ok i /\ In k (map fst ls)).
  { apply mapM_Ok in M. clear -M. induction M as [|x [k0 i0] l l' E _ IH]; intros k i I; [destruct I|]. destruct I as [I|I].
    - inversion I; subst. destruct (raw_get h g (fst x)) as [j|] eqn:G; [|discriminate]. cbn in E. inversion E; subst. split; [exact G|left; reflexivity].
    - destruct (IH k i I). split; [assumption|right; assumption]. }
  intros k d. rewrite in_flat_map. split.
  - intros ([k0 i] & I & J). unfold f in J. cbn [fst snd] in J. destruct (dset_of h i) as [d0|] eqn:D; [|destruct J]. destruct J as [J|[]]. inversion J; subst.
    destruct (R k i I) as [G Il]. split; [exact Il|]. apply raw_get_Ok in G. unfold ds_get. rewrite G, D. reflexivity.
  - intros [Il G]. pose proof (proj2 (Ik k) (conj Il (ex_intro _ d G))) as I. apply in_map_iff in I. destruct I as ([k0 i] & E & I). cbn [fst] in E. subst k0.
    apply filter_In in I. destruct I as [I _]. exists (k, i). split; [exact I|]. destruct (R k i I) as [Gr _]. apply raw_get_Ok in Gr.
    unfold ds_get in G. rewrite Gr in G. unfold f. cbn [fst snd]. destruct (dset_of h i); [|discriminate]. inversion G; subst. left. reflexivity.
Qed.
Print Assumptions C86_items.
(** A member that does not resolve (a soft link to nothing) makes all three views fail with KeyError, also when datasets stand beside it. *)
Theorem C86_dangling : forall h g ls k l, links_of h g = Some ls -> In (k, l) ls -> raw_in h g k = false ->
  ds_items h g = Err KeyError /\ ds_values h g = Err KeyError /\ ds_keys h g = Err KeyError.
Proof.
  intros h g ls k l Hl I N. unfold ds_keys, ds_values, ds_items. rewrite Hl.
  assert (M : mapM (fun x : string * link => rmap (pair (fst x)) (raw_get h g (fst x))) ls = Err KeyError).
  { assert (RE : forall s e, raw_get h g s = Err e -> e = KeyError) by (intros s e; unfold raw_get; destruct (raw_find h g s); intros H; inversion H; reflexivity).
    clear Hl. induction ls as [|[k0 l0] ls IH]; [destruct I|]. cbn [mapM fst]. destruct (raw_get h g k0) as [j|e] eqn:G; cbn [rmap bind].
    - destruct I as [I|I]; [|rewrite (IH I); reflexivity]. inversion I; subst. unfold raw_get in G. unfold raw_in in N. destruct (raw_find h g k); discriminate.
    - rewrite (RE _ _ G). reflexivity. }
  rewrite M. repeat split; reflexivity.
Qed.
Print Assumptions C86_dangling.

(** [datasets.dump] of values that can all be stored is Group.dump of the same flat mapping, in every file, with every flag (so C10-C13 apply). *)
Theorem C86_dump : forall items h g flag, Forall (fun kv => leaf_supported (snd kv) = true) items ->
  ds_dump h g items flag = dump h g (DMap (map (fun kv => (KStr (fst kv), DLeaf (snd kv))) items)) flag.
Proof.
  intros items h g flag F. assert (S : dict_supported (DMap (map (fun kv => (KStr (fst kv), DLeaf (snd kv))) items)) = true).
  { clear h. induction F as [|[k v] l E F IH]; [reflexivity|]. cbn [map fst snd dict_supported]. cbn [snd] in E. rewrite E. exact IH. }
  cbn [dump]. rewrite S. clear S F. revert h. induction items as [|[k v] items IH]; intros h; [reflexivity|]. cbn [ds_dump map fst snd].
  destruct (ds_create h g k v flag) as [[i|e] h1]; [exact (IH h1)|reflexivity].
Qed.
Print Assumptions C86_dump.
(** Finding: it does not look at the values beforehand, as Group.dump does: what precedes a value that cannot be stored stays written. *)
Theorem C86_no_scan_refuted : exists h', ds_dump empty_file root [("a", LArr (col1 1)); ("b", LOther)]%string "x" = (Err TypeError, h') /\
  ds_get h' root "a"%string = Ok (col1 1) /\
  dump empty_file root (DMap [(KStr "a", DLeaf (LArr (col1 1))); (KStr "b", DLeaf LOther)])%string "x" = (Err TypeError, empty_file).
Proof. eexists. repeat split. Qed.
Print Assumptions C86_no_scan_refuted.
Example ex_ds_items : exists h', ds_dump empty_file root [("b", LArr (col1 1)); ("a", LStr "v")]%string "x" = (Ok tt, h') /\
  exists l, ds_items h' root = Ok l /\ map fst l = ["a"; "b"]%string.
Proof. eexists. split; [reflexivity|]. eexists. split; reflexivity. Qed.

(** ** C86: file handles *)
(** Opening: the flag is checked before anything else; with a path the handle is open if the file could be opened, else the error of opening is raised. *)
Theorem C86_open : forall f path flag, 
  (~ In flag ["r"; "a"; "x"; "ac"; "ca"; "w"]%string -> new_handle f path flag = Err ValueError) /\
  (In flag ["r"; "a"; "x"; "ac"; "ca"; "w"]%string -> new_handle f None flag = Ok NoRaw /\
     forall p, (forall e, open_file f p flag = Err e -> new_handle f (Some p) flag = Err e) /\
               (forall x, open_file f p flag = Ok x -> exists r, new_handle f (Some p) flag = Ok r /\ use r = Ok tt)).
Proof.
  intros f path flag. unfold new_handle. destruct (existsb (String.eqb flag) ["r"; "a"; "x"; "ac"; "ca"; "w"]%string) eqn:B; cbn [negb].
  - apply existsb_exists in B. destruct B as (s & I & E). apply String.eqb_eq in E. subst s. split; [intros N; contradiction|]. intros _. split; [reflexivity|].
    intros p. split; [intros e ->; reflexivity|]. intros x ->. exists (Raw true). split; reflexivity.
  - split; [reflexivity|]. intros I. exfalso. assert (X : existsb (String.eqb flag) ["r"; "a"; "x"; "ac"; "ca"; "w"]%string = true).
    { apply existsb_exists. exists flag. split; [exact I|apply String.eqb_refl]. } congruence.
Qed.
Print Assumptions C86_open.
(** A with block, whatever happens in it (it may raise, use or close the handle): afterwards the handle is closed (never left open) unless there is
    no file at all, and the outcome of the block, an exception too, is the outcome of the statement. *)
Theorem C86_with_block : forall A (x : handle) (body : handle -> result A * handle),
  (forall y, snd (body y) = y \/ snd (body y) = close y) ->
  fst (with_block x body) = fst (body x) /\ use (snd (with_block x body)) <> Ok tt /\
  (x = NoRaw -> snd (with_block x body) = NoRaw) /\ (x <> NoRaw -> use (snd (with_block x body)) = Err ValueError).
Proof.
  intros A x body H. unfold with_block. specialize (H x). destruct (body x) as [r y]. cbn [snd fst exit_] in *.
  destruct x as [|b]; destruct H as [-> | ->]; cbn; repeat split; congruence.
Qed.
Print Assumptions C86_with_block.
(** Closing twice, or leaving a block in which the handle was closed, is harmless; a handle without a file can be closed but not used. *)
Theorem C86_close : forall x, close (close x) = close x /\ fst (exit_ x) = close x /\ snd (exit_ x) = false /\ use (close x) <> Ok tt /\
  (use x = Ok tt -> use (close x) = Err ValueError) /\ use (from_raw NoRaw) = Err TypeError /\ (forall r, use (from_raw r) = use r).
Proof. intros [|[|]]; cbn; repeat split; congruence. Qed.
Print Assumptions C86_close.
Example ex_with : fst (with_block (Raw true) (fun x => (Err KeyError : result nat, x))) = Err KeyError /\
  use (snd (with_block (Raw true) (fun x => (Err KeyError : result nat, x)))) = Err ValueError.
Proof. split; reflexivity. Qed.
