(** Property theorems C10-C19 (HDF5 layer).  Vocabulary: H5Spec.v, Str.v ([is_path]: non-empty segments). *)
From Coq Require Import Sorted Permutation QArith.
From Verif Require Import Base Str OdictSpec H5Model H5Spec H5Proofs H5Proofs2 H5Proofs3 H5Proofs4 H5Proofs5.
Local Open Scope list_scope. Local Open Scope nat_scope.

(** ** C10: dump/load round trip into a group [g] that has none of the top-level names. *)
Theorem C10_dump_load_roundtrip : forall flag items h g ls, valid_flag flag = true -> file_ok h -> dumpable (DMap items) ->
  links_of h g = Some ls -> (forall s, In (KStr s) (map fst items) -> od_get String.eqb ls s = None) ->
  exists h', dump h g (DMap items) flag = (Ok tt, h') /\ file_ok h' /\
    (forall j, j < length h -> j <> g -> nth_error h' j = nth_error h j) /\
    (exists ls' a, nth_error h g = Some {| bdy := BGroup ls; atts := a |} /\
                   nth_error h' g = Some {| bdy := BGroup ls'; atts := a |} /\
                   (forall s, ~ In (KStr s) (map fst items) -> od_get String.eqb ls' s = od_get String.eqb ls s)) /\
    (forall k v, In (k, v) items -> exists s i t, k = KStr s /\ raw_get h' g s = Ok i /\ loads_as v t /\ reads h' i t) /\
    (ls = [] -> exists its, loads_as (DMap items) (LMap its) /\ forall fuel, depth (LMap its) <= fuel -> load fuel h' g = Ok (LMap its)).
Proof. exact dump_roundtrip. Qed.
Print Assumptions C10_dump_load_roundtrip.

(** The same through File.dump_to / load_from at the root (key None or a key without segments such as "/"). *)
Theorem C10_dump_to_load_from_root : forall f path h items key ff gf df cr, open_file f path ff = Ok (h, RW) -> file_ok h ->
  links_of h root = Some [] -> (key = None \/ exists k, key = Some k /\ is_path "/" k []) -> valid_flag df = true -> dumpable (DMap items) ->
  exists f' h' t, dump_to f path (DMap items) key ff gf df cr = (Ok tt, f') /\ f' path = Some h' /\ file_ok h' /\
    loads_as (DMap items) t /\ (forall fuel, depth t <= fuel -> load_from fuel f' path None = Ok t).
Proof. exact dump_to_root. Qed.
Print Assumptions C10_dump_to_load_from_root.

(** Every file the API makes is well formed. *)
Theorem C10_files_stay_well_formed : file_ok empty_file /\ forall d h g flag r h', file_ok h -> dump h g d flag = (r, h') -> file_ok h'.
Proof. exact (conj empty_file_ok dump_ok). Qed.
Print Assumptions C10_files_stay_well_formed.

(** Witness: {'b': 1, 'a': {'x': 'hi'}, 'e': {}} *)
Definition one : dset := {| dt := TInt true 64; shp := []; dat := [EInt 1] |}.
Definition ex_data : data :=
  DMap [(KStr "b", DLeaf (LArr one)); (KStr "a", DMap [(KStr "x", DLeaf (LStr "hi"))]); (KStr "e", DMap [])]%string.
Example ex_dumpable : dumpable ex_data.
Proof.
  constructor.
  - repeat constructor; simpl; intuition discriminate.
  - simpl. intros k v H. repeat destruct H as [H|H]; try (inversion H; subst; eexists; split; [reflexivity|];
      repeat split; (discriminate || reflexivity)). destruct H.
  - simpl. intros k v H. repeat destruct H as [H|H]; try (inversion H; subst; clear H).
    + left. eexists _, _. split; reflexivity.
    + right. eexists. split; [reflexivity|]. constructor.
      * repeat constructor; simpl; tauto.
      * simpl. intros k v [H|[]]; inversion H; subst. eexists. split; [reflexivity|]. repeat split; (discriminate || reflexivity).
      * simpl. intros k v [H|[]]; inversion H; subst. left. eexists _, _. split; reflexivity.
    + right. eexists. split; [reflexivity|]. constructor; simpl; [constructor|tauto|tauto].
Qed.
Example ex_roundtrip : load 5 (snd (dump empty_file root ex_data "x")) root =
  Ok (LMap [("a", LMap [("x", LVal {| dt := TStr; shp := []; dat := [EStr "hi"] |})]); ("b", LVal one); ("e", LMap [])])%string.
Proof. reflexivity. Qed.

(** Findings.  A key containing a slash is a path, an absolute one escapes the group; and a soft link to an
    ancestor makes load recurse without end. *)
Example C10_slash_key_refuted : exists h', dump empty_file root (DMap [(KStr "g/x", DLeaf (LArr one))]) "x"%string = (Ok tt, h') /\
  load 5 h' root = Ok (LMap [("g", LMap [("x", LVal one)])])%string.
Proof. eexists. split; reflexivity. Qed.
Example C10_absolute_key_refuted : exists g h1 h2, create_group empty_file root "g" "x" = (Ok g, h1) /\
  dump h1 g (DMap [(KStr "/x", DLeaf (LArr one))]) "x"%string = (Ok tt, h2) /\ load 5 h2 g = Ok (LMap []) /\
  load 5 h2 root = Ok (LMap [("g", LMap []); ("x", LVal one)])%string.
Proof. eexists _, _, _. repeat split; reflexivity. Qed.
Theorem C10_load_link_cycle_refuted : exists h, create_soft_link empty_file root "s" "/" "x" = (Ok tt, h) /\
  forall fuel, load fuel h root = Err RuntimeError.
Proof.
  eexists. split; [reflexivity|]. induction fuel as [|fuel IH]; [reflexivity|].
  cbn [load]. set (h := snd (create_soft_link empty_file root "s" "/" "x")) in *.
  change (rmap LMap (mapM (fun x => bind (raw_get h root (fst x)) (fun i => match dset_of h i with
     | Some d => Ok (fst x, LVal d) | None => rmap (pair (fst x)) (load fuel h i) end)) [("s"%string, Soft "/")]) = Err RuntimeError).
  cbn [mapM]. replace (raw_get h root (fst ("s"%string, Soft "/"))) with (Ok root) by reflexivity. cbn [bind].
  replace (dset_of h root) with (@None dset) by reflexivity.
  replace (load fuel h root) with (@Err ltree RuntimeError) by (symmetry; exact IH). reflexivity.
Qed.
Print Assumptions C10_load_link_cycle_refuted.

(** ** C11: the pre-scan. *)
Theorem C11_unsupported_rejected : forall d h g flag, unsupported d -> dump h g d flag = (Err TypeError, h).
Proof. exact dump_unsupported. Qed.
Print Assumptions C11_unsupported_rejected.
Theorem C11_scan_exact : forall d, dict_supported d = false <-> unsupported d.
Proof. exact supported_spec. Qed.
Print Assumptions C11_scan_exact.
(** Creating (flag "x" or an invalid one): a TypeError means bad input or an array HDF5 cannot store. *)
Theorem C11_type_error_reason : forall d h g flag e h', flag <> "ac"%string -> flag <> "ca"%string -> dump h g d flag = (Err e, h') ->
  e = ValueError \/ (e = TypeError /\ (unsupported d \/ has_unstorable d)).
Proof. exact dump_x_err. Qed.
Print Assumptions C11_type_error_reason.
(** Finding: an array of unicode strings passes the scan and fails half way, after earlier members were
    written. *)
Theorem C11_atomic_dump_refuted : exists d h', ~ unsupported d /\ dump empty_file root d "x" = (Err TypeError, h') /\
  ds_get h' root "a" = Ok one /\ ds_get empty_file root "a" = Err KeyError.
Proof.
  exists (DMap [(KStr "a", DLeaf (LArr one)); (KStr "b", DLeaf LNoH5)]%string). eexists. split; [|repeat split; reflexivity].
  intros H. apply supported_spec in H. discriminate.
Qed.
Print Assumptions C11_atomic_dump_refuted.
Example ex_unsupported : unsupported (DMap [(KStr "a", DMap [(KStr "b", DMap [(KOther, DLeaf LOther)])])]%string).
Proof. eapply uns_nested; [left; reflexivity|]. eapply uns_nested; [left; reflexivity|]. eapply uns_key; left; reflexivity. Qed.

(** ** C12: creation flags. *)
Theorem C12_bad_flag : forall d h g flag, flag <> "x"%string -> flag <> "ac"%string -> flag <> "ca"%string ->
  ~ unsupported d -> d <> DMap [] -> dump h g d flag = (Err ValueError, h).
Proof. exact dump_bad_flag. Qed.
Print Assumptions C12_bad_flag.
(** Without "ac"/"ca" nothing old is modified, whatever the outcome. *)
Theorem C12_x_never_overwrites : forall d h g flag r h', flag <> "ac"%string -> flag <> "ca"%string ->
  dump h g d flag = (r, h') -> extends h h'.
Proof. exact dump_x_extends. Qed.
Print Assumptions C12_x_never_overwrites.
Theorem C12_x_refuses_existing : forall h g k v i flag, raw_find h g k = Some i -> flag <> "ac"%string -> flag <> "ca"%string ->
  ds_create h g k v flag = (Err ValueError, h) /\ create_group h g k flag = (Err ValueError, h).
Proof. exact ds_existing_x. Qed.
Print Assumptions C12_x_refuses_existing.
(** With any flag nothing is removed. *)
Theorem C12_nothing_removed : forall d h g flag r h', dump h g d flag = (r, h') -> grows h h'.
Proof. exact dump_grows. Qed.
Print Assumptions C12_nothing_removed.
(** With any flag a dataset that was there and is not at a leaf path of the input keeps its value. *)
Theorem C12_only_named_change : forall flag d, plain_keys d -> forall h g r h' i d0, dump h g d flag = (r, h') -> dset_of h i = Some d0 ->
  dset_of h' i = Some d0 \/ exists p, leaf_path d p /\ follows h' g p i.
Proof. exact dump_changes. Qed.
Print Assumptions C12_only_named_change.
Theorem C12_ac_existing : forall h g k v i flag, flag = "ac"%string \/ flag = "ca"%string -> raw_find h g k = Some i ->
  (forall d, dset_of h i = Some d ->
     fst (ds_create h g k v flag) = match fst (ds_set h g k v) with Ok _ => Ok i | Err e => Err e end /\
     snd (ds_create h g k v flag) = snd (ds_set h g k v)) /\
  (dset_of h i = None -> ds_create h g k v flag = (Err ValueError, h)).
Proof. exact ds_existing_ac. Qed.
Print Assumptions C12_ac_existing.
(** Groups: with "ac"/"ca" an existing group is handed out, a dataset of that name is refused; nothing changes. *)
Theorem C12_group_existing : forall h g k i flag, flag = "ac"%string \/ flag = "ca"%string -> raw_find h g k = Some i ->
  (forall ls, links_of h i = Some ls -> create_group h g k flag = (Ok i, h)) /\ (forall d, dset_of h i = Some d -> create_group h g k flag = (Err ValueError, h)).
Proof.
  intros h g k i flag Hf Hr. unfold create_group. assert (Hv : valid_flag flag = true) by (apply valid_flag_spec; tauto). rewrite Hv, Hr. cbn [negb].
  assert (X : String.eqb flag "x" = false) by (destruct Hf; subst; reflexivity). rewrite X. unfold is_group. split.
  - intros ls ->. reflexivity.
  - intros d Hd. assert (N : links_of h i = None); [|rewrite N; reflexivity]. unfold dset_of in Hd. unfold links_of. destruct (nth_error h i) as [o|]; [|reflexivity]. destruct o as [[ls|d'] at']; cbn in *; [discriminate|reflexivity].
Qed.
Print Assumptions C12_group_existing.
Example ex_ac_overwrites : 
  let h := snd (dump empty_file root ex_data "x") in
  let two := {| dt := TInt true 64; shp := []; dat := [EInt 2] |} in
  ds_get (snd (dump h root (DMap [(KStr "b", DLeaf (LArr two))]) "ac")) root "b" = Ok two /\
  fst (dump h root (DMap [(KStr "b", DLeaf (LArr two))]) "x") = Err ValueError.
Proof. split; reflexivity. Qed.
(** The empty mapping is accepted under any flag, even an invalid one. *)
Example C12_empty_mapping_flag : dump empty_file root (DMap []) "bogus" = (Ok tt, empty_file).
Proof. reflexivity. Qed.

(** ** C13: overwriting converts and broadcasts, never changes dtype or shape. *)
Theorem C13_overwrite : forall d src d', length (dat src) = prod (shp src) -> dset_ok d -> raw_write d src = Ok d' ->
  dt d' = dt d /\ shp d' = shp d /\ dset_ok d' /\
  (prod (shp d) = 0 -> d' = d) /\
  (prod (shp d) <> 0 -> exists s, align (shp src) (shp d) = Some s /\ broadcasts s (shp d) /\
     forall ix, in_range (shp d) ix -> exists e e', nth_error (dat src) (ravel s (bidx s ix)) = Some e /\
        conv (dt d) e = Some e' /\ elem_at d' ix = Some e').
Proof. exact raw_write_spec. Qed.
Print Assumptions C13_overwrite.
Theorem C13_bad_shape : forall d src, length (dat src) = prod (shp src) -> prod (shp d) <> 0 ->
  (forall s, align (shp src) (shp d) = Some s -> ~ broadcasts s (shp d)) -> raw_write d src = Err TypeError.
Proof. exact raw_write_bad_shape. Qed.
Print Assumptions C13_bad_shape.
(** Data of the stored shape whose elements fit the stored dtype is stored exactly. *)
Theorem C13_exact : forall d src, length (dat src) = prod (shp src) -> shp src = shp d -> length (dat d) = prod (shp d) ->
  Forall (fits (dt d)) (dat src) -> raw_write d src = Ok {| dt := dt d; shp := shp d; dat := dat src |}.
Proof. exact raw_write_exact. Qed.
Print Assumptions C13_exact.
(** Conversion of one element to the stored type: integers are clipped to the range of the type, floats are cut towards zero first, integers become
    floats exactly; numbers and texts are not converted into each other. *)
Theorem C13_conversion : forall b z q s, let lo := (- 2 ^ (Zpos b - 1))%Z in let hi := (2 ^ (Zpos b - 1) - 1)%Z in let top := (2 ^ Zpos b - 1)%Z in
  ((lo <= z <= hi)%Z -> conv (TInt true b) (EInt z) = Some (EInt z)) /\ ((z < lo)%Z -> conv (TInt true b) (EInt z) = Some (EInt lo)) /\ ((hi < z)%Z -> conv (TInt true b) (EInt z) = Some (EInt hi)) /\
  ((0 <= z <= top)%Z -> conv (TInt false b) (EInt z) = Some (EInt z)) /\ ((z < 0)%Z -> conv (TInt false b) (EInt z) = Some (EInt 0)) /\ ((top < z)%Z -> conv (TInt false b) (EInt z) = Some (EInt top)) /\
  (forall sg, exists t, conv (TInt sg b) (EFlt q) = conv (TInt sg b) (EInt t) /\ ((0 <= q)%Q -> inject_Z t <= q < inject_Z t + 1)%Q /\ ((q <= 0)%Q -> q <= inject_Z t < q + 1)%Q) /\
  conv TFlt (EInt z) = Some (EFlt (inject_Z z)) /\ conv TFlt (EFlt q) = Some (EFlt q) /\ conv TStr (EStr s) = Some (EStr s) /\
  (forall sg, conv (TInt sg b) (EStr s) = None) /\ conv TFlt (EStr s) = None /\ conv TStr (EInt z) = None /\ conv TStr (EFlt q) = None.
Proof.
  intros b z q s lo hi top. assert (LH : (lo <= hi)%Z) by exact (int_range true b). assert (T0 : (0 <= top)%Z) by exact (int_range false b).
  cbn [conv]. unfold sat. change (int_lo true b) with lo. change (int_hi true b) with hi. change (int_lo false b) with 0%Z. change (int_hi false b) with top.
  split; [intros H; do 2 f_equal; lia|]. split; [intros H; do 2 f_equal; lia|]. split; [intros H; do 2 f_equal; lia|].
  split; [intros H; do 2 f_equal; lia|]. split; [intros H; do 2 f_equal; lia|]. split; [intros H; do 2 f_equal; lia|].
  split; [|repeat split]. intros sg. exists (truncate q). split; [reflexivity|]. unfold truncate. destruct q as [n d]. unfold Qle, Qlt, Qplus, inject_Z. cbn [Qnum Qden].
  pose proof (Z.quot_rem' n (Zpos d)) as QR. split; intros H.
  - pose proof (Z.rem_bound_pos n (Zpos d) ltac:(lia) ltac:(lia)). rewrite Pos.mul_1_l in *. nia.
  - pose proof (Z.rem_bound_pos (- n) (Zpos d) ltac:(lia) ltac:(lia)) as RB. rewrite Z.rem_opp_l in RB by lia. rewrite ?Pos.mul_1_r in *. nia.
Qed.
Print Assumptions C13_conversion.
Theorem C13_item_assignment : forall h g k v,
  (forall e, ds_get h g k = Err e -> ds_set h g k v = (Err KeyError, h)) /\
  (forall d, ds_get h g k = Ok d ->
     (stored_as v = None -> ds_set h g k v = (Err TypeError, h)) /\
     (forall src e, stored_as v = Some src -> raw_write d src = Err e -> ds_set h g k v = (Err e, h)) /\
     (forall src d', stored_as v = Some src -> raw_write d src = Ok d' ->
        exists h', ds_set h g k v = (Ok tt, h') /\ ds_get h' g k = Ok d' /\ dt d' = dt d /\ shp d' = shp d /\
          (forall g2 k2, raw_find h' g2 k2 = raw_find h g2 k2) /\
          (forall j, raw_find h g k <> Some j -> nth_error h' j = nth_error h j) /\
          grows h h')).
Proof. exact ds_set_spec. Qed.
Print Assumptions C13_item_assignment.
(** Finding: writing 1.5 over an int dataset reads back 1, 300 over a uint8 one 255, and writing anything
    over an empty dataset stores nothing, silently. *)
Theorem C13_value_read_back_refuted :
  raw_write one {| dt := TFlt; shp := []; dat := [EFlt (3 # 2)] |} = Ok one /\
  raw_write {| dt := TInt false 8; shp := []; dat := [EInt 0] |} {| dt := TInt true 64; shp := []; dat := [EInt 300] |}
    = Ok {| dt := TInt false 8; shp := []; dat := [EInt 255] |} /\
  (forall src t, raw_write {| dt := t; shp := [0]; dat := [] |} src = Ok {| dt := t; shp := [0]; dat := [] |}).
Proof. repeat split; reflexivity. Qed.
Print Assumptions C13_value_read_back_refuted.
Example ex_broadcast : raw_write {| dt := TInt true 64; shp := [2; 3]; dat := map EInt [0; 0; 0; 0; 0; 0]%Z |}
   {| dt := TInt true 64; shp := [2; 1]; dat := map EInt [5; 7]%Z |} =
  Ok {| dt := TInt true 64; shp := [2; 3]; dat := map EInt [5; 5; 5; 7; 7; 7]%Z |}.
Proof. reflexivity. Qed.

(** ** C14: dump_to / load_from. *)
(** A key whose last segment does not exist yet: the data is found there again, everything old is untouched
    except for one new name in one group. *)
Theorem C14_new_key : forall f path h key p d ff gf df, open_file f path ff = Ok (h, RW) -> file_ok h -> is_path "/" key p -> p <> [] ->
  Forall plain p -> vacant h root p -> valid_flag gf = true -> valid_flag df = true ->
  dumpable d \/ (exists l x, d = DLeaf l /\ stored_as l = Some x) ->
  exists f' h' t, dump_to f path d (Some key) ff gf df true = (Ok tt, f') /\ f' path = Some h' /\ file_ok h' /\ extends h h' /\
    (exists gp name, one_link h h' gp name) /\ loads_as d t /\ (forall fuel, depth t <= fuel -> load_from fuel f' path (Some key) = Ok t).
Proof. exact dump_to_vacant. Qed.
Print Assumptions C14_new_key.
(** C10 at a key path: into a group that does not exist yet, and into an existing group without members. *)
Theorem C10_dump_to_load_from_key : forall f path h items key p ff gf df, open_file f path ff = Ok (h, RW) -> file_ok h -> is_path "/" key p -> p <> [] ->
  Forall plain p -> vacant h root p -> valid_flag gf = true -> valid_flag df = true -> dumpable (DMap items) ->
  exists f' h' t, dump_to f path (DMap items) (Some key) ff gf df true = (Ok tt, f') /\ f' path = Some h' /\ file_ok h' /\
    loads_as (DMap items) t /\ (forall fuel, depth t <= fuel -> load_from fuel f' path (Some key) = Ok t).
Proof.
  intros f path h items key p ff gf df Ho Fk Hp N Pl V G D Du. destruct (dump_to_vacant f path h key p (DMap items) ff gf df Ho Fk Hp N Pl V G D (or_introl Du)) as (f' & h' & t & E & E2 & E3 & _ & _ & L & R).
  exists f', h', t. auto.
Qed.
Print Assumptions C10_dump_to_load_from_key.
Theorem C14_no_parent_created : forall h key pre k post gp d gf df e, is_path "/" key (pre ++ k :: post) -> post <> [] ->
  groups h root pre gp -> (raw_get h gp k = Err e \/ e = ValueError /\ exists i, raw_get h gp k = Ok i /\ is_group h i = false) ->
  dump_file h d (Some key) gf df false = (Err e, h).
Proof. exact dump_file_noparent. Qed.
Print Assumptions C14_no_parent_created.
Theorem C14_missing_is_key_error : forall h g k e, raw_get h g k = Err e -> e = KeyError.
Proof. exact raw_get_err. Qed.
Print Assumptions C14_missing_is_key_error.
Theorem C14_rootlike_key : forall h d key gf df cr, (key = None \/ exists k, key = Some k /\ is_path "/" k []) ->
  dump_file h d key gf df cr = dump h root d df.
Proof. exact dump_file_root. Qed.
Print Assumptions C14_rootlike_key.
(** A key that names an existing object: a mapping goes into the group of that name when the group flag allows it, exactly as Group.dump into that
    group (C12: only the datasets the input names change); a leaf is written over the dataset of that name when the dump flag allows it, as an item
    assignment would (C13); otherwise, and when the object is of the other kind, ValueError and nothing changes.  Parents are not created anew. *)
Theorem C14_existing_target : forall h key pre s gp i d gf df cr, is_path "/" key (pre ++ [s]) -> groups h root pre gp -> raw_get h gp s = Ok i ->
  (forall items, d = DMap items ->
     (forall ls, links_of h i = Some ls -> gf = "ac"%string \/ gf = "ca"%string -> dump_file h d (Some key) gf df cr = dump h i d df) /\
     (forall x, dset_of h i = Some x -> dump_file h d (Some key) gf df cr = (Err ValueError, h)) /\
     (gf <> "ac"%string -> gf <> "ca"%string -> dump_file h d (Some key) gf df cr = (Err ValueError, h))) /\
  (forall l, d = DLeaf l ->
     (forall x, dset_of h i = Some x -> df = "ac"%string \/ df = "ca"%string -> dump_file h d (Some key) gf df cr = ds_set h gp s l) /\
     (dset_of h i = None -> dump_file h d (Some key) gf df cr = (Err ValueError, h)) /\
     (df <> "ac"%string -> df <> "ca"%string -> dump_file h d (Some key) gf df cr = (Err ValueError, h))).
Proof.
  intros h key pre s gp i d gf df cr Hp Hg Hi.
  assert (Hf : raw_find h gp s = Some i) by (unfold raw_get in Hi; destruct (raw_find h gp s); congruence).
  assert (Hpar : parents h root pre cr = (Ok gp, h)).
  { clear - Hg. revert Hg. generalize root. induction pre as [|k pre IH]; intros g Hg; inversion Hg; subst; [reflexivity|]. cbn [parents].
    match goal with E : raw_get _ _ _ = Ok ?j, G : is_group _ _ = true |- _ => rename E into E1; rename G into G1; rename j into j1 end.
    destruct cr.
    - assert (R : raw_find h g k = Some j1) by (unfold raw_get in E1; destruct (raw_find h g k); congruence).
      unfold create_group. rewrite R, G1. cbn. apply IH. assumption.
    - rewrite E1, G1. apply IH. assumption. }
  assert (Hd : dump_file h d (Some key) gf df cr = match d with
    | DMap _ => match create_group h gp s gf with (Err e, h2) => (Err e, h2) | (Ok g2, h2) => dump h2 g2 d df end
    | DLeaf l => match ds_create h gp s l df with (Err e, h2) => (Err e, h2) | (Ok _, h2) => (Ok tt, h2) end end).
  { unfold dump_file. apply is_path_segments in Hp. rewrite <- Hp, rev_app_distr. cbn [rev app]. rewrite rev_involutive, Hpar. reflexivity. }
  rewrite Hd. split.
  - intros items ->. split; [|split].
    + intros ls Hl Hgf. rewrite (proj1 (C12_group_existing h gp s i gf Hgf Hf) ls Hl). reflexivity.
    + intros x Hx. destruct (String.eqb_spec gf "ac") as [Ea|Na]; [|destruct (String.eqb_spec gf "ca") as [Ea|Nc]].
      * rewrite (proj2 (C12_group_existing h gp s i gf (or_introl Ea) Hf) x Hx). reflexivity.
      * rewrite (proj2 (C12_group_existing h gp s i gf (or_intror Ea) Hf) x Hx). reflexivity.
      * rewrite (proj2 (C12_x_refuses_existing h gp s (LArr x) i gf Hf Na Nc)). reflexivity.
    + intros Na Nc. rewrite (proj2 (C12_x_refuses_existing h gp s LOther i gf Hf Na Nc)). reflexivity.
  - intros l ->. split; [|split].
    + intros x Hx Hdf. destruct (proj1 (C12_ac_existing h gp s l i df Hdf Hf) x Hx) as (H1 & H2).
      destruct (ds_create h gp s l df) as [r1 h1], (ds_set h gp s l) as [r2 h2]. cbn in H1, H2. subst r1 h1. destruct r2 as [[]|e]; reflexivity.
    + intros Hx. destruct (String.eqb_spec df "ac") as [Ea|Na]; [|destruct (String.eqb_spec df "ca") as [Ea|Nc]].
      * rewrite (proj2 (C12_ac_existing h gp s l i df (or_introl Ea) Hf) Hx). reflexivity.
      * rewrite (proj2 (C12_ac_existing h gp s l i df (or_intror Ea) Hf) Hx). reflexivity.
      * rewrite (proj1 (C12_x_refuses_existing h gp s l i df Hf Na Nc)). reflexivity.
    + intros Na Nc. rewrite (proj1 (C12_x_refuses_existing h gp s l i df Hf Na Nc)). reflexivity.
Qed.
Print Assumptions C14_existing_target.
Theorem C10_dump_to_load_from_existing : forall f path h items key pre s gp i ff gf df cr, open_file f path ff = Ok (h, RW) -> file_ok h -> is_path "/" key (pre ++ [s]) ->
  groups h root pre gp -> raw_get h gp s = Ok i -> raw_get h root key = Ok i -> links_of h i = Some [] -> gf = "ac"%string \/ gf = "ca"%string -> valid_flag df = true -> dumpable (DMap items) ->
  exists f' h' t, dump_to f path (DMap items) (Some key) ff gf df cr = (Ok tt, f') /\ f' path = Some h' /\ file_ok h' /\
    loads_as (DMap items) t /\ (forall fuel, depth t <= fuel -> load_from fuel f' path (Some key) = Ok t).
Proof.
  intros f path h items key pre s gp i ff gf df cr Ho Fk Hp Hg Hs Hk Hl Hgf Hdf Du.
  pose proof (proj1 (proj1 (C14_existing_target h key pre s gp i (DMap items) gf df cr Hp Hg Hs) items eq_refl) [] Hl Hgf) as Ed.
  destruct (C10_dump_load_roundtrip df items h i [] Hdf Fk Du Hl) as (h' & E & Fk' & _ & _ & _ & R); [intros; reflexivity|]. destruct (R eq_refl) as (its & La & Lo).
  exists (fun q => if String.eqb q path then Some h' else f q), h', (LMap its). unfold dump_to. rewrite Ho, Ed, E. split; [reflexivity|].
  assert (Ep : (if String.eqb path path then Some h' else f path) = Some h') by (rewrite String.eqb_refl; reflexivity). split; [exact Ep|]. split; [exact Fk'|]. split; [exact La|].
  intros fuel Hf. unfold load_from, open_file. cbn [String.eqb Ascii.eqb Bool.eqb]. rewrite Ep. cbn [bind].
  assert (Hk' : raw_get h' root key = Ok i) by (apply raw_get_Ok; apply raw_get_Ok in Hk; eapply raw_find_mono; [eapply dump_grows; exact E|exact Hk]).
  rewrite Hk'. cbn [bind]. destruct (dset_of h' i) as [d|] eqn:Ei; [exfalso|exact (Lo fuel Hf)].
  specialize (Lo fuel Hf). destruct fuel; cbn in Hf; [lia|]. cbn [load] in Lo. rewrite (dset_not_links _ _ _ Ei) in Lo. discriminate.
Qed.
Print Assumptions C10_dump_to_load_from_existing.
Example ex_existing_empty : let h := snd (create_group empty_file root "a" "x") in
  is_path "/" "/a" ([] ++ ["a"%string])%list /\ groups h root [] root /\ raw_get h root "a" = Ok 1 /\ raw_get h root "/a" = Ok 1 /\ links_of h 1 = Some [] /\ file_ok h.
Proof.
  cbv zeta. split; [apply is_path_segments; reflexivity|]. split; [constructor|]. split; [vm_compute; reflexivity|]. split; [vm_compute; reflexivity|]. split; [vm_compute; reflexivity|].
  eapply create_group_ok; [exact empty_file_ok|apply surjective_pairing].
Qed.
Example ex_existing_target : let h := snd (dump empty_file root ex_data "x") in
  is_path "/" "/a//x" (["a"%string] ++ ["x"%string])%list /\ exists i j, groups h root ["a"%string] i /\ raw_get h i "x" = Ok j.
Proof.
  cbv zeta. split; [apply is_path_segments; reflexivity|]. do 2 eexists.
  split; [econstructor; [vm_compute; reflexivity|vm_compute; reflexivity|constructor]|vm_compute; reflexivity].
Qed.
Theorem C14_x_never_overwrites : forall h d k gf df cr r h', df <> "ac"%string -> df <> "ca"%string ->
  dump_file h d k gf df cr = (r, h') -> extends h h'.
Proof. exact dump_file_x_extends. Qed.
Print Assumptions C14_x_never_overwrites.
Theorem C14_nothing_removed : forall h d k gf df cr r h', dump_file h d k gf df cr = (r, h') -> grows h h'.
Proof. exact dump_file_grows. Qed.
Print Assumptions C14_nothing_removed.
Theorem C14_other_files_untouched : forall f path d k ff gf df cr r f' p, dump_to f path d k ff gf df cr = (r, f') ->
  p <> path -> f' p = f p.
Proof. exact dump_to_other. Qed.
Print Assumptions C14_other_files_untouched.
(** The file flag: "x" never touches an existing file, "r" never writes, "a" needs the file, an unknown flag is
    rejected; in all these cases no file changes.  "ac"/"ca" continues from the present content (an empty file if
    there is none) and "w" from an empty file. *)
Theorem C14_file_flags : forall f path d k ff gf df cr r f', dump_to f path d k ff gf df cr = (r, f') ->
  (ff = "x" -> f path <> None -> r = Err FileExistsError /\ f' = f)%string /\
  (ff = "r" -> (exists e, r = Err e) /\ f' = f)%string /\
  (ff = "a" -> f path = None -> r = Err FileNotFoundError /\ f' = f)%string /\
  (~ In ff ["r"; "a"; "x"; "ac"; "ca"; "w"] -> r = Err ValueError /\ f' = f)%string /\
  (forall h0, (ff = "a" /\ f path = Some h0 \/ (ff = "ac" \/ ff = "ca") /\ f path = Some h0 \/
               (ff = "ac" \/ ff = "ca" \/ ff = "x") /\ f path = None /\ h0 = empty_file \/ ff = "w" /\ h0 = empty_file)%string ->
     r = fst (dump_file h0 d k gf df cr) /\ f' path = Some (snd (dump_file h0 d k gf df cr))).
Proof. exact dump_to_flags. Qed.
Print Assumptions C14_file_flags.
Example ex_vacant : let h := snd (dump empty_file root ex_data "x") in
  vacant h root ["a"; "n"; "m"]%string /\ is_path "/" "/a//n/m" ["a"; "n"; "m"]%string /\ Forall plain ["a"; "n"; "m"]%string.
Proof.
  split; [|split].
  - eapply va_old; [reflexivity|reflexivity|]. eapply va_new; reflexivity.
  - apply is_path_segments. reflexivity.
  - repeat constructor; discriminate.
Qed.
(** Finding: with f_flag "w" the old file is gone even when the data is rejected by the scan. *)
Theorem C14_truncate_before_scan_refuted : forall h, exists f', 
  dump_to (fun _ => Some h) "p" (DLeaf LOther) None "w" "x" "x" true = (Err TypeError, f') /\ f' "p"%string = Some empty_file.
Proof. intros h. eexists. split; reflexivity. Qed.
Print Assumptions C14_truncate_before_scan_refuted.

(** ** C15: group-like objects. *)
Theorem C15_object_roundtrip : forall fs o, instance (HObj fs) o -> exists items,
  to_h5_data (HObj fs) o = Ok (DMap items) /\
  forall h g flag, valid_flag flag = true -> file_ok h -> links_of h g = Some [] ->
    exists h' n, dump h g (DMap items) flag = (Ok tt, h') /\
      exists o', same_obj o o' /\ forall fuel, n <= fuel -> bind (load fuel h' g) (from_h5_data (HObj fs)) = Ok o'.
Proof.
  intros fs o Hi. destruct (h5_data_roundtrip _ _ Hi) as (d & Ed & (items & -> & Hd) & Hfr). exists items. split; [assumption|].
  intros h g flag Hf Hok Hl. destruct (dump_roundtrip flag items h g [] Hf Hok Hd Hl (fun _ _ => eq_refl)) as (h' & E & _ & _ & _ & _ & Hr).
  destruct (Hr eq_refl) as (its & Hla & Hfu). exists h', (depth (LMap its)). split; [assumption|].
  destruct (Hfr _ Hla) as (o' & Eo & So). exists o'. split; [exact So|]. intros fuel Hle. rewrite (Hfu _ Hle). exact Eo.
Qed.
Print Assumptions C15_object_roundtrip.
(** The first declared field that the object lacks is an AttributeError; the first declared field that the file lacks is a KeyError. *)
Theorem C15_missing_field : forall pre k t post vals,
  (forall k' t', In (k', t') pre -> exists v d, od_get String.eqb vals k' = Some v /\ to_h5_data t' v = Ok d) -> od_get String.eqb vals k = None ->
  to_h5_data (HObj (pre ++ (k, t) :: post)) (OObj vals) = Err AttributeError.
Proof.
  intros pre k t post vals H N. change (rmap DMap (to_fields vals (pre ++ (k, t) :: post)) = Err AttributeError).
  assert (F : to_fields vals (pre ++ (k, t) :: post) = Err AttributeError); [|rewrite F; reflexivity]. induction pre as [|[k0 t0] pre IH].
  - cbn [app to_fields]. rewrite N. reflexivity.
  - cbn [app to_fields]. destruct (H k0 t0 (or_introl eq_refl)) as (v & d & E & Ed). rewrite E. rewrite Ed. cbn [bind]. fold (to_fields vals).
    rewrite IH; [reflexivity|]. intros k' t' I. apply H. right. exact I.
Qed.
Print Assumptions C15_missing_field.
Theorem C15_missing_data : forall pre k t post its, NoDup (map fst pre) -> ~ In k (map fst pre) ->
  (forall k' t', In (k', t') pre -> exists x o, od_get String.eqb its k' = Some x /\ from_h5_data t' x = Ok o) -> od_get String.eqb its k = None ->
  from_h5_data (HObj (pre ++ (k, t) :: post)) (LMap its) = Err KeyError.
Proof.
  intros pre k t post its ND NI H N. change (rmap OObj (from_fields (pre ++ (k, t) :: post) its) = Err KeyError).
  assert (F : from_fields (pre ++ (k, t) :: post) its = Err KeyError); [|rewrite F; reflexivity]. revert its H N. induction pre as [|[k0 t0] pre IH]; intros its H N.
  - cbn [app from_fields]. rewrite N. reflexivity.
  - cbn [app from_fields]. destruct (H k0 t0 (or_introl eq_refl)) as (x & o & E & Eo). rewrite E, Eo. cbn [bind]. fold from_fields. cbn [map fst] in ND, NI. inversion ND; subst.
    rewrite IH; [reflexivity|assumption|cbn in NI; tauto| |].
    + intros k' t' I. rewrite (od_get_del_other _ String.eqb_spec); [apply H; right; exact I|]. intros ->. apply (in_map fst) in I. contradiction.
    + rewrite (od_get_del_other _ String.eqb_spec); [exact N|]. intros ->. apply NI. left. reflexivity.
Qed.
Print Assumptions C15_missing_data.
(** A string is declared and something else is stored (an array, a number, a group), or a nested object is declared and a dataset is stored: AttributeError. *)
Theorem C15_wrong_kind :
  (forall x o, from_h5_data HStr x = Ok o -> exists s, o = OStr s /\ x = LVal {| dt := TStr; shp := []; dat := [EStr s] |}) /\
  (forall x, (forall s, x <> LVal {| dt := TStr; shp := []; dat := [EStr s] |}) -> from_h5_data HStr x = Err AttributeError) /\
  (forall fs d, from_h5_data (HObj fs) (LVal d) = Err AttributeError).
Proof.
  assert (K : forall x, (exists s, x = LVal {| dt := TStr; shp := []; dat := [EStr s] |}) \/ from_h5_data HStr x = Err AttributeError).
  { intros [its|[t sh l]]; cbn [from_h5_data]; [now right|]. destruct t; try (right; reflexivity). destruct sh; [|right; reflexivity].
    destruct l as [|e [|e' l]]; try (right; reflexivity). 2: destruct e; right; reflexivity. destruct e; try (right; reflexivity). left. eauto. }
  split; [|split].
  - intros x o H. destruct (K x) as [(s & ->)|E]; [|congruence]. cbn in H. injection H as <-. eauto.
  - intros x H. destruct (K x) as [(s & ->)|E]; [exfalso; now apply (H s)|assumption].
  - reflexivity.
Qed.
Print Assumptions C15_wrong_kind.
Example ex_instance : instance (HObj [("x", HArr); ("sub", HObj [("name", HStr)])]%string)
  (OObj [("x", OArr one); ("sub", OObj [("name", OStr "n")])]%string).
Proof.
  repeat constructor; simpl; try (intuition discriminate).
  all: try (intros [E|[]]; discriminate).
  all: destruct H as [<-|H]; try discriminate; try (destruct H as [<-|H]; [|destruct H]); try discriminate; try reflexivity; destruct H.
Qed.

(** ** C16: managers. *)
Theorem C16_attr_assign : forall h i k v,
  (attr_get h i k = Err KeyError -> attr_set h i k v = (Err KeyError, h)) /\
  (forall d, attr_get h i k = Ok d ->
     (forall e h', attr_set h i k v = (Err e, h') -> h' = h) /\
     (forall h', attr_set h i k v = (Ok tt, h') -> exists src d', stored_as v = Some src /\
        attr_effect h h' i k d' /\ dt d' = dt d /\ shp d' = shp d /\
        Forall2 (fun e e' => conv (dt d) e = Some e') (dat src) (dat d'))).
Proof. exact attr_set_spec. Qed.
Print Assumptions C16_attr_assign.
(** When assignment to an existing attribute succeeds: the value is storable, has the stored shape (or both have one element), and its elements convert. *)
Theorem C16_attr_assign_when : forall h i k v d, attr_get h i k = Ok d ->
  (stored_as v = None -> attr_set h i k v = (Err TypeError, h)) /\
  (forall src, stored_as v = Some src ->
     ((shp src = shp d \/ prod (shp src) = 1 /\ prod (shp d) = 1) -> (forall e, In e (dat src) -> conv (dt d) e <> None) -> exists h', attr_set h i k v = (Ok tt, h')) /\
     (~ (shp src = shp d \/ prod (shp src) = 1 /\ prod (shp d) = 1) \/ (exists e, In e (dat src) /\ conv (dt d) e = None) -> attr_set h i k v = (Err TypeError, h))).
Proof.
  intros h i k v d G. unfold attr_set. unfold attr_get in G. destruct (sget (attrs_of h i) k) as [d0|]; [|discriminate]. injection G as ->. unfold attr_modify. split; [intros ->; reflexivity|].
  intros src ->. unfold raw_modify.
  assert (S : (shape_eqb (shp src) (shp d) || (Nat.eqb (prod (shp src)) 1 && Nat.eqb (prod (shp d)) 1))%bool = true <-> (shp src = shp d \/ prod (shp src) = 1 /\ prod (shp d) = 1)).
  { rewrite Bool.orb_true_iff, Bool.andb_true_iff, !Nat.eqb_eq. unfold shape_eqb. destruct (list_eq_dec Nat.eq_dec (shp src) (shp d)); intuition congruence. }
  assert (C : conv_all (dt d) (dat src) = None <-> exists e, In e (dat src) /\ conv (dt d) e = None).
  { generalize (dat src). intros l. induction l as [|e l IH]; [split; [discriminate|intros (e & [] & _)]|]. cbn [conv_all]. destruct (conv (dt d) e) as [e'|] eqn:E.
    - destruct (conv_all (dt d) l); split; intros H; try discriminate; [|exact (match proj1 IH eq_refl with ex_intro _ x (conj A B) => ex_intro _ x (conj (or_intror A) B) end)|reflexivity].
      destruct H as (x & [->|Hx] & B); [congruence|]. exfalso. assert (K : Some l0 = None) by (apply IH; exists x; tauto). discriminate K.
    - split; [intros _; exists e; cbn; tauto|reflexivity]. }
  destruct (shape_eqb _ _ || _)%bool.
  - assert (T := proj1 S eq_refl). destruct (conv_all (dt d) (dat src)) as [l|]; split.
    + eauto.
    + intros [H|H]; [contradiction|]. apply C in H. discriminate.
    + intros _ H. destruct (proj1 C eq_refl) as (e & A & B). exfalso. exact (H e A B).
    + reflexivity.
  - split; [intros H; apply S in H; discriminate|reflexivity].
Qed.
Print Assumptions C16_attr_assign_when.
Theorem C16_attr_create : forall h i k v flag, i < length h ->
  (valid_flag flag = false -> attr_create h i k v flag = (Err ValueError, h)) /\
  (forall e h', attr_create h i k v flag = (Err e, h') -> h' = h) /\
  (valid_flag flag = true -> attr_get h i k = Err KeyError -> forall d, stored_as v = Some d ->
     exists h', attr_create h i k v flag = (Ok tt, h') /\ attr_effect h h' i k d) /\
  (forall d, attr_get h i k = Ok d -> attr_create h i k v "x" = (Err ValueError, h)) /\
  (forall d, attr_get h i k = Ok d -> flag = "ac"%string \/ flag = "ca"%string -> attr_create h i k v flag = attr_set h i k v).
Proof. exact attr_create_spec. Qed.
Print Assumptions C16_attr_create.
Theorem C16_attr_create_empty : forall h i k sh t flag, i < length h ->
  (valid_flag flag = false -> attr_create_empty h i k sh t flag = (Err ValueError, h)) /\
  (forall d, attr_get h i k = Ok d -> snd (attr_create_empty h i k sh t flag) = h /\
     fst (attr_create_empty h i k sh t "x") = Err ValueError /\ fst (attr_create_empty h i k sh t "ac") = Ok tt) /\
  (attr_get h i k = Err KeyError -> valid_flag flag = true -> exists h' d, attr_create_empty h i k sh t flag = (Ok tt, h') /\
     attr_effect h h' i k d /\ dt d = t /\ shp d = sh /\ dat d = repeat (match t with TInt _ _ => EInt 0 | TFlt => EFlt 0 | TStr => EStr EmptyString end) (prod sh)).
Proof. exact attr_create_empty_spec. Qed.
Print Assumptions C16_attr_create_empty.
Theorem C16_attr_history : forall i l h, i < length h -> attr_rel (map aop_key l) i h (aruns h i l).
Proof. exact aruns_rel. Qed.
Print Assumptions C16_attr_history.
Theorem C16_attr_keys : forall h i k, In k (attr_keys h i) <-> exists d, attr_get h i k = Ok d.
Proof. exact attr_keys_spec. Qed.
Print Assumptions C16_attr_keys.
Theorem C16_dataset_create_new : forall h g k ls v d flag, valid_flag flag = true -> plain k -> links_of h g = Some ls ->
  od_get String.eqb ls k = None -> stored_as v = Some d ->
  exists i h', ds_create h g k v flag = (Ok i, h') /\ ds_get h' g k = Ok d /\ extends h h' /\
    (forall j, j < length h -> j <> g -> nth_error h' j = nth_error h j).
Proof. exact ds_create_new. Qed.
Print Assumptions C16_dataset_create_new.
Theorem C16_dataset_create_empty_keeps : forall h g k sh t flag r h', ds_create_empty h g k sh t flag = (r, h') -> extends h h'.
Proof. exact ds_create_empty_extends. Qed.
Print Assumptions C16_dataset_create_empty_keeps.
Theorem C16_dataset_create_empty : forall h g k sh t flag,
  (valid_flag flag = false -> ds_create_empty h g k sh t flag = (Err ValueError, h)) /\
  (valid_flag flag = true -> forall d i, raw_find h g k = Some i -> dset_of h i = Some d ->
     ds_create_empty h g k sh t flag = if String.eqb flag "x" then (Err ValueError, h) else (Ok i, h)) /\
  (valid_flag flag = true -> forall ls, plain k -> links_of h g = Some ls -> od_get String.eqb ls k = None ->
     exists i h', ds_create_empty h g k sh t flag = (Ok i, h') /\
       ds_get h' g k = Ok {| dt := t; shp := sh; dat := repeat (match t with TInt _ _ => EInt 0 | TFlt => EFlt 0 | TStr => EStr EmptyString end) (prod sh) |} /\
       (forall j, j < length h -> j <> g -> nth_error h' j = nth_error h j)).
Proof.
  intros h g k sh t flag. split; [intros Hv; unfold ds_create_empty; rewrite Hv; reflexivity|]. split.
  - intros Hv d i Hr Hd. unfold ds_create_empty, ds_contains, is_dset, raw_get. rewrite Hv, Hr, Hd. reflexivity.
  - intros Hv ls Hp Hl Hn. set (d := {| dt := t; shp := sh; dat := repeat (match t with TInt _ _ => EInt 0 | TFlt => EFlt 0 | TStr => EStr EmptyString end) (prod sh) |}).
    destruct (ds_create_new h g k ls (LArr d) d flag Hv Hp Hl Hn eq_refl) as (i & h' & E & G & _ & O). exists i, h'. split; [|split; [exact G|exact O]].
    rewrite <- E. unfold ds_create_empty, ds_create, ds_contains. rewrite Hv. cbn [negb]. rewrite (plain_find _ _ _ _ Hp Hl), Hn. reflexivity.
Qed.
Print Assumptions C16_dataset_create_empty.
Theorem C16_dataset_keys : forall h g ls, file_ok h -> links_of h g = Some ls ->
  (forall k l, In (k, l) ls -> exists i, raw_get h g k = Ok i) ->
  exists ks, ds_keys h g = Ok ks /\ StronglySorted name_lt ks /\
    forall k, In k ks <-> In k (map fst ls) /\ exists d, ds_get h g k = Ok d.
Proof. exact ds_keys_spec. Qed.
Print Assumptions C16_dataset_keys.
Example ex_dataset_keys : ds_keys (snd (dump empty_file root ex_data "x")) root = Ok ["b"]%string.
Proof. reflexivity. Qed.
Example ex_attr_history : attr_get (aruns empty_file root [ACreate "k" (LArr one) "x"; ACreate "k" (LArr one) "x";
    ASet "k" (LArr {| dt := TFlt; shp := []; dat := [EFlt (7 # 2)] |}); ASet "z" (LArr one)]) root "k"
  = Ok {| dt := TInt true 64; shp := []; dat := [EInt 3] |}.
Proof. reflexivity. Qed.

(** ** C17: the listing.  [room] levels below the group are shown; with max_depth <= depth there is no limit. *)
Theorem C17_listing : forall h ds gr md t ms, t = FG ms -> forall fuel g depth room, unfolds h g t -> fheight t <= fuel ->
  (Z.of_nat (depth + S room) = md \/ (md <= Z.of_nat depth)%Z /\ fheight t <= room) ->
  what fuel h g ds gr md depth = Ok (listing ds gr room depth t).
Proof. exact what_spec. Qed.
Print Assumptions C17_listing.
(** Without switches every member of the group is listed once, in order, the last one (only) with the end
    marker. *)
Theorem C17_all_members_last_marked : forall room depth ms,
  map ln_name (level depth (listing true true (S room) depth (FG ms))) = map fst ms /\
  map ln_last (level depth (listing true true (S room) depth (FG ms))) = 
    match ms with [] => [] | _ => repeat false (length ms - 1) ++ [true] end.
Proof. exact level_listing. Qed.
Print Assumptions C17_all_members_last_marked.
Example ex_unfolds : unfolds (snd (dump empty_file root ex_data "x")) root
   (FG [("a", FG [("x", FD)]); ("b", FD); ("e", FG [])])%string.
Proof.
  eapply un_group; [reflexivity|]. repeat constructor; eexists; (split; [reflexivity|]).
  - eapply un_group; [reflexivity|]. repeat constructor; eexists; (split; [reflexivity|]). eapply un_dset; reflexivity.
  - eapply un_dset; reflexivity.
  - eapply un_group; [reflexivity|]. constructor.
Qed.
Example ex_listing : what 10 (snd (dump empty_file root ex_data "x")) root true true 2 0 =
  Ok [{| ln_depth := 0; ln_last := false; ln_name := "a"; ln_group := true |};
      {| ln_depth := 0; ln_last := false; ln_name := "b"; ln_group := false |};
      {| ln_depth := 0; ln_last := true; ln_name := "e"; ln_group := true |}].
Proof. reflexivity. Qed.
(** Finding: hiding groups leaves the last drawn line without the end marker. *)
Theorem C17_end_marker_refuted : what 10 (snd (dump empty_file root ex_data "x")) root true false 16 0 =
  Ok [{| ln_depth := 0; ln_last := false; ln_name := "b"; ln_group := false |}].
Proof. reflexivity. Qed.
Print Assumptions C17_end_marker_refuted.
(** Finding: max_depth=0 does not limit the depth. *)
Theorem C17_max_depth_zero_refuted : forall md, (md <= 0)%Z ->
  what 10 (snd (dump empty_file root ex_data "x")) root true true md 0 =
  Ok (listing true true 9 0 (FG [("a", FG [("x", FD)]); ("b", FD); ("e", FG [])])%string).
Proof. intros md Hmd. eapply what_spec; [reflexivity|exact ex_unfolds|simpl; lia|right; simpl; lia]. Qed.
Print Assumptions C17_max_depth_zero_refuted.

(** ** C18: links. *)
Theorem C18_links_extend : forall h g k l flag r h', create_link h g k l flag = (r, h') -> extends h h'.
Proof. exact create_link_extends. Qed.
Print Assumptions C18_links_extend.
Theorem C18_link_flags : forall h g k l flag ls, plain k -> links_of h g = Some ls ->
  (valid_flag flag = false -> create_link h g k l flag = (Err ValueError, h)) /\
  (valid_flag flag = true -> od_get String.eqb ls k = None -> exists h', create_link h g k l flag = (Ok tt, h') /\
     links_of h' g = Some (ins ls k l) /\ (forall j, j <> g -> nth_error h' j = nth_error h j)) /\
  (raw_in h g k = true -> create_link h g k l "x" = (Err ValueError, h) /\
     create_link h g k l "ac" = (Ok tt, h) /\ create_link h g k l "ca" = (Ok tt, h)) /\
  (* finding: a member that is a dangling link cannot be re-created *)
  (raw_in h g k = false -> od_get String.eqb ls k <> None -> forall flag, create_link h g k l flag = (Err ValueError, h)).
Proof. exact create_link_spec. Qed.
Print Assumptions C18_link_flags.
Example ex_soft : let h := snd (create_soft_link (snd (dump empty_file root ex_data "x")) root "l" "a/x" "x") in
  ds_get h root "l" = ds_get h root "a/x" /\ ds_get h root "l" = Ok {| dt := TStr; shp := []; dat := [EStr "hi"] |}.
Proof. split; reflexivity. Qed.
Example C18_dangling_refuted : let h := snd (create_soft_link empty_file root "l" "nowhere" "x") in
  raw_in h root "l" = false /\ create_soft_link h root "l" "nowhere" "ac" = (Err ValueError, h).
Proof. split; reflexivity. Qed.

(** ** C19: key selection ([load_selected] is the managers' load; [get] reads one key). *)
Theorem C19_load_selected : forall V (get : string -> result V) own m keys,
  let ks := match keys with None => own | Some l => l end in
  let sel := filter (fun k => match m with None => true | Some f => f k end) ks in
  (forall r, load_selected get own m keys = Ok r ->
     NoDup (map fst r) /\ (forall k v, In (k, v) r <-> In k sel /\ get k = Ok v) /\ (NoDup sel -> map fst r = sel)) /\
  ((exists r, load_selected get own m keys = Ok r) <-> forall k, In k sel -> exists v, get k = Ok v) /\
  (forall e, load_selected get own m keys = Err e -> exists k, In k sel /\ get k = Err e).
Proof. exact @load_selected_spec. Qed.
Print Assumptions C19_load_selected.
Example ex_selected : ds_load (snd (dump empty_file root ex_data "x")) root (Some (fun k => String.eqb k "b")) None = Ok [("b", one)]%string.
Proof. reflexivity. Qed.
