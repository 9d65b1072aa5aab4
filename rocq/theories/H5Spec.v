(** Specification vocabulary for HDF5 files. *)
From Coq Require Import Sorted Permutation QArith.
From Verif Require Import Base Str H5Model.
Local Open Scope list_scope. Local Open Scope nat_scope.

(** A name that addresses a direct member. *)
Definition plain (k : string) : Prop := k <> ""%string /\ k <> "."%string /\ has_char "/" k = false.

(** A nested mapping with str keys that are plain names, no two equal in the same mapping, whose leaves can be
    stored. *)
Inductive dumpable : data -> Prop :=
| dumpable_map items :
    NoDup (map fst items) ->
    (forall k v, In (k, v) items -> exists s, k = KStr s /\ plain s) ->
    (forall k v, In (k, v) items -> (exists l d, v = DLeaf l /\ stored_as l = Some d) \/
                                    (exists its, v = DMap its /\ dumpable v)) ->
    dumpable (DMap items).

(** All keys, at every depth, are str and plain names. *)
Inductive plain_keys : data -> Prop :=
| pk_leaf l : plain_keys (DLeaf l)
| pk_map items : (forall k v, In (k, v) items -> (exists s, k = KStr s /\ plain s) /\ plain_keys v) ->
    plain_keys (DMap items).

(** The scan's notion of unsupported input (docstring of Group.dump). *)
Inductive unsupported : data -> Prop :=
| uns_top l : unsupported (DLeaf l)
| uns_key items v : In (KOther, v) items -> unsupported (DMap items)
| uns_leaf items k : In (k, DLeaf LOther) items -> unsupported (DMap items)
| uns_nested items k its : In (k, DMap its) items -> unsupported (DMap its) -> unsupported (DMap items).

(** Some leaf is an ndarray whose dtype HDF5 cannot store. *)
Inductive has_unstorable : data -> Prop :=
| hu_here items k : In (k, DLeaf LNoH5) items -> has_unstorable (DMap items)
| hu_in items k v : In (k, v) items -> has_unstorable v -> has_unstorable (DMap items).

Definition name_lt (a b : string) : Prop := String.ltb a b = true.

(** [loads_as d t]: [t] is the mapping [d] read back: same nesting, values as stored (str and bytes come
    back as bytes), members in name order. *)
Inductive loads_as : data -> ltree -> Prop :=
| la_leaf l d : stored_as l = Some d -> loads_as (DLeaf l) (LVal d)
| la_map items items' its :
    Permutation items items' ->
    StronglySorted name_lt (map fst its) ->
    Forall2 (fun kv kt => fst kv = KStr (fst kt) /\ loads_as (snd kv) (snd kt)) items' its ->
    loads_as (DMap items) (LMap its).

(** Nesting depth of what is loaded. *)
Fixpoint depth (t : ltree) : nat :=
  match t with
  | LVal _ => 0
  | LMap its => S (fold_right (fun kt n => Nat.max (depth (snd kt)) n) 0 its)
  end.

(** Well-formed files: the root is a group, hard links point to objects, members in strict name order. *)
Definition file_ok (h : file) : Prop :=
  links_of h root <> None /\
  forall g ls, links_of h g = Some ls ->
    StronglySorted name_lt (map fst ls) /\ forall k i, In (k, Hard i) ls -> i < length h.

(** [evolves ow h h']: every object of [h] is still there with the same attributes; groups keep all their
    links; datasets keep dtype and shape, and also their data unless [ow]. *)
Definition obj_evolves (ow : bool) (o o' : obj) : Prop :=
  atts o' = atts o /\
  match bdy o, bdy o' with
  | BGroup ls, BGroup ls' => forall k l, od_get String.eqb ls k = Some l -> od_get String.eqb ls' k = Some l
  | BDset d, BDset d' => if ow then dt d' = dt d /\ shp d' = shp d else d' = d
  | _, _ => False
  end.
Definition evolves (ow : bool) (h h' : file) : Prop :=
  forall i o, nth_error h i = Some o -> exists o', nth_error h' i = Some o' /\ obj_evolves ow o o'.
(** Nothing that existed is modified or removed. *)
Definition extends := evolves false.
(** Nothing is removed; dataset values may change. *)
Definition grows := evolves true.

(** The paths of the leaves of a mapping, as lists of keys. *)
Inductive leaf_path : data -> list string -> Prop :=
| lp_leaf items k l : In (KStr k, DLeaf l) items -> leaf_path (DMap items) [k]
| lp_map items k v p : In (KStr k, v) items -> leaf_path v p -> leaf_path (DMap items) (k :: p).
(** Following keys one after the other. *)
Inductive follows (h : file) : nat -> list string -> nat -> Prop :=
| fo_nil g : follows h g [] g
| fo_cons g k i p j : raw_get h g k = Ok i -> follows h i p j -> follows h g (k :: p) j.

(** An element fits a dtype exactly. *)
Definition fits (t : dtype) (e : elem) : Prop :=
  match t, e with
  | TInt sg b, EInt z => (int_lo sg b <= z <= int_hi sg b)%Z
  | TFlt, EFlt _ => True
  | TStr, EStr _ => True
  | _, _ => False
  end.

(** Row-major position of a multi-index, and the value there. *)
Fixpoint ravel (shape ix : list nat) : nat :=
  match shape, ix with
  | _ :: sh, i :: ix' => i * prod sh + ravel sh ix'
  | _, _ => 0
  end.
Definition in_range (shape ix : list nat) : Prop := Forall2 lt ix shape.
Definition elem_at (d : dset) (ix : list nat) : option elem := nth_error (dat d) (ravel (shp d) ix).
Definition dset_ok (d : dset) : Prop := length (dat d) = prod (shp d) /\ Forall (fits (dt d)) (dat d).
(** numpy's broadcasting of an index (shapes aligned on the right). *)
Fixpoint bidx (src ix : list nat) : list nat :=
  match src, ix with
  | s :: src', i :: ix' => (if Nat.eqb s 1 then 0 else i) :: bidx src' ix'
  | _, _ => []
  end.
Definition broadcasts (src dst : list nat) : Prop := Forall2 (fun s n => s = n \/ s = 1) src dst.

(** [o] is an instance of the class described by [t]: one value per declared field, in declaration order,
    under distinct plain names. *)
Inductive instance : hty -> hobj -> Prop :=
| in_arr d : instance HArr (OArr d)
| in_str s : instance HStr (OStr s)
| in_tab cols : NoDup (map fst cols) -> (forall k, In k (map fst cols) -> plain k) ->
    (forall k c, In (k, c) cols -> exists d, c = CArr d) -> instance HTab (OTab cols)
| in_obj fs vals : NoDup (map fst fs) -> (forall k, In k (map fst fs) -> plain k) ->
    Forall2 (fun f v => fst f = fst v /\ instance (snd f) (snd v)) fs vals -> instance (HObj fs) (OObj vals).

(** [o'] is [o] except that the columns of the tables in it are in name order. *)
Inductive same_obj : hobj -> hobj -> Prop :=
| so_arr d : same_obj (OArr d) (OArr d)
| so_str s : same_obj (OStr s) (OStr s)
| so_tab cols cols' : Permutation cols cols' -> StronglySorted name_lt (map fst cols') -> same_obj (OTab cols) (OTab cols')
| so_obj vals vals' : Forall2 (fun v v' => fst v = fst v' /\ same_obj (snd v) (snd v')) vals vals' -> same_obj (OObj vals) (OObj vals').
(** All tables in it have their columns in name order (in particular, there is no table in it). *)
Inductive name_ordered : hobj -> Prop :=
| no_arr d : name_ordered (OArr d)
| no_str s : name_ordered (OStr s)
| no_tab cols : StronglySorted name_lt (map fst cols) -> name_ordered (OTab cols)
| no_obj vals : (forall k v, In (k, v) vals -> name_ordered v) -> name_ordered (OObj vals).

(** A path none of whose remaining components exists: existing parents are groups reached by hard links. *)
Inductive vacant (h : file) : nat -> list string -> Prop :=
| va_new g ls s rest : links_of h g = Some ls -> od_get String.eqb ls s = None -> vacant h g (s :: rest)
| va_old g ls s i rest : links_of h g = Some ls -> od_get String.eqb ls s = Some (Hard i) ->
    vacant h i rest -> vacant h g (s :: rest).

(** A file unfolded as a tree of members. *)
Inductive ftree := FD | FG (members : list (string * ftree)).
Inductive unfolds (h : file) : nat -> ftree -> Prop :=
| un_dset i d : dset_of h i = Some d -> unfolds h i FD
| un_group i ls ms : links_of h i = Some ls ->
    Forall2 (fun l m => fst l = fst m /\ exists j, raw_get h i (fst l) = Ok j /\ unfolds h j (snd m)) ls ms ->
    unfolds h i (FG ms).
Fixpoint fheight (t : ftree) : nat :=
  match t with FD => 0 | FG ms => S (fold_right (fun m n => Nat.max (fheight (snd m)) n) 0 ms) end.

(** The expected listing: members in order, each group followed by its own members, [room] levels deep.  A
    line carries the end marker iff it is the last member of its group. *)
Fixpoint listing (ds gr : bool) (room : nat) (depth : nat) (t : ftree) {struct t} : list line :=
  match t, room with
  | FG ms, S room' =>
      (fix go (ms : list (string * ftree)) : list line :=
         match ms with
         | [] => []
         | (k, m) :: ms' =>
             let last := match ms' with [] => true | _ => false end in
             match m with
             | FD => if ds then [{| ln_depth := depth; ln_last := last; ln_name := k; ln_group := false |}] else []
             | FG _ => if gr then {| ln_depth := depth; ln_last := last; ln_name := k; ln_group := true |}
                                  :: listing ds gr room' (S depth) m
                       else []
             end ++ go ms'
         end) ms
  | _, _ => []
  end.
(** The lines of one level. *)
Definition level (depth : nat) (ls : list line) : list line :=
  filter (fun l => Nat.eqb (ln_depth l) depth) ls.

(** Reading the object [i] gives [t] (with enough recursion depth). *)
Definition reads (h : file) (i : nat) (t : ltree) : Prop :=
  match t with
  | LVal d => dset_of h i = Some d
  | LMap _ => dset_of h i = None /\ forall fuel, depth t <= fuel -> load fuel h i = Ok t
  end.

(** The effect of an attribute operation: attribute [k] of object [i] becomes [d'], nothing else changes. *)
Definition attr_effect (h h' : file) (i : nat) (k : string) (d' : dset) : Prop :=
  attr_get h' i k = Ok d' /\ (forall k2, k2 <> k -> attr_get h' i k2 = attr_get h i k2) /\
  (forall j k2, j <> i -> attr_get h' j k2 = attr_get h j k2) /\
  (forall j, option_map bdy (nth_error h' j) = option_map bdy (nth_error h j)).

(** Of the old objects only the group [gp] changed, and there only under [name]. *)
Definition one_link (h h' : file) (gp : nat) (name : string) : Prop :=
  (forall j, j < length h -> j <> gp -> nth_error h' j = nth_error h j) /\
  (forall ls, links_of h gp = Some ls -> exists ls', links_of h' gp = Some ls' /\ forall k, k <> name -> sget ls' k = sget ls k) /\
  attrs_of h' gp = attrs_of h gp.

(** The groups along a chain of keys. *)
Inductive groups (h : file) : nat -> list string -> nat -> Prop :=
| gr_nil g : groups h g [] g
| gr_cons g k i p j : raw_get h g k = Ok i -> is_group h i = true -> groups h i p j -> groups h g (k :: p) j.

(** histories of attribute operations on one object *)
Inductive aop := ASet (k : string) (v : leaf) | ACreate (k : string) (v : leaf) (flag : string)
  | AEmpty (k : string) (sh : list nat) (t : dtype) (flag : string).
Definition arun1 (h : file) (i : nat) (o : aop) : result unit * file :=
  match o with ASet k v => attr_set h i k v | ACreate k v f => attr_create h i k v f | AEmpty k sh t f => attr_create_empty h i k sh t f end.
Definition aruns (h : file) (i : nat) (l : list aop) : file := fold_left (fun h o => snd (arun1 h i o)) l h.
Definition aop_key (o : aop) := match o with ASet k _ => k | ACreate k _ _ => k | AEmpty k _ _ _ => k end.

(** Attributes of object [i] that existed keep existing with the same dtype and shape, only [names] and only
    attributes of [i] may differ. *)
Definition attr_rel (names : list string) (i : nat) (h h' : file) : Prop :=
  (forall k d, attr_get h i k = Ok d -> exists d', attr_get h' i k = Ok d' /\ dt d' = dt d /\ shp d' = shp d) /\
  (forall k, ~ In k names -> attr_get h' i k = attr_get h i k) /\
  (forall j k, j <> i -> attr_get h' j k = attr_get h j k) /\
  (forall j, option_map bdy (nth_error h' j) = option_map bdy (nth_error h j)).
