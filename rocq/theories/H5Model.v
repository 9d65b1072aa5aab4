(** Model of /repo/src/pyhipp/io/h5 (named_objs.py, utils.py, abc.py) over an HDF5 file.

    A file is a store of objects; group members are links (hard, soft, external), kept in name order (the
    order in which h5py iterates).  Object 0 is the root group.  The h5py / HDF5 calls used by the code are the
    functions with prefix [raw_]; they are written from the documented behaviour of h5py 3 and are trusted.
    Simplifications: float elements are exact rationals (no rounding to float32/float64); array data are
    given as ndarrays, so an overwrite uses HDF5's conversion (saturating ints, truncating floats);
    variable-length strings hold no NUL; external links never resolve (the other file is not modelled);
    pyhipp creates no hard links itself. *)
From Coq Require Import QArith.
From Verif Require Import Base Str.
Local Open Scope list_scope. Local Open Scope nat_scope.

(** The element types of the datasets and attributes that io/h5/named_objs.py:49-85 and io/h5/named_objs.py:161-209 create: integers of a given width, floats, variable-length strings. ** Datasets *)
Inductive dtype := TInt (signed : bool) (bits : positive) | TFlt | TStr.
(** One element of a dataset (io/h5/named_objs.py:129-145). Floats are rationals: no NaN, no infinity. *)
Inductive elem := EInt (z : Z) | EFlt (q : Q) | EStr (s : string).
(** The array a dataset or an attribute holds (io/h5/named_objs.py:271-303: dtype, shape, values), row-major. *)
Record dset := { dt : dtype; shp : list nat; dat : list elem }.

(** Number of elements of a shape (numpy; io/h5/named_objs.py:285-295). *)
Definition prod (l : list nat) : nat := fold_right Nat.mul 1 l.
(** Smallest integer of a type (HDF5; used when io/h5/named_objs.py:138-145 writes into an existing dataset). *)
Definition int_lo (sg : bool) (b : positive) : Z := if sg then (- 2 ^ (Zpos b - 1))%Z else 0%Z.
(** Largest integer of a type (HDF5; io/h5/named_objs.py:138-145). *)
Definition int_hi (sg : bool) (b : positive) : Z := if sg then (2 ^ (Zpos b - 1) - 1)%Z else (2 ^ (Zpos b) - 1)%Z.
(** HDF5 conversion of an out-of-range integer: clipped to the type (io/h5/named_objs.py:138-145). *)
Definition sat (sg : bool) (b : positive) (z : Z) : Z := Z.max (int_lo sg b) (Z.min (int_hi sg b) z).
(** HDF5 conversion of a float to an integer: towards zero (io/h5/named_objs.py:138-145). *)
Definition truncate (q : Q) : Z := Z.quot (Qnum q) (Zpos (Qden q)).

(** io/h5/named_objs.py:138-145, 25-32 (the h5py write): HDF5 element conversion on write; [None]: no conversion path. *)
Definition conv (t : dtype) (e : elem) : option elem :=
  match t, e with
  | TInt sg b, EInt z => Some (EInt (sat sg b z))
  | TInt sg b, EFlt q => Some (EInt (sat sg b (truncate q)))
  | TFlt, EInt z => Some (EFlt (inject_Z z))
  | TFlt, EFlt q => Some (EFlt q)
  | TStr, EStr s => Some (EStr s)
  | _, _ => None
  end.
(** The same for all elements; one that cannot be converted refuses the write (io/h5/named_objs.py:138-145). *)
Fixpoint conv_all (t : dtype) (l : list elem) : option (list elem) :=
  match l with
  | [] => Some []
  | e :: l' => match conv t e, conv_all t l' with Some e', Some r => Some (e' :: r) | _, _ => None end
  end.
(** The fill value of io/h5/named_objs.py:67-85, 185-209 [create_empty]. *)
Definition zero_of (t : dtype) : elem :=
  match t with TInt _ _ => EInt 0 | TFlt => EFlt 0 | TStr => EStr EmptyString end.

(** io/h5/named_objs.py:145 (h5py broadcasting of [dset[...] = val]): Broadcasting of row-major data from shape [src] to shape [dst] (same rank). *)
Fixpoint chunks (n sz : nat) (l : list elem) : list (list elem) :=
  match n with 0 => [] | S n' => firstn sz l :: chunks n' sz (skipn sz l) end.
(** All or nothing over a list of elements (helper of the h5py write, io/h5/named_objs.py:145). *)
Fixpoint omap_all {A B} (f : A -> option B) (l : list A) : option (list B) :=
  match l with
  | [] => Some []
  | a :: l' => match f a, omap_all f l' with Some b, Some r => Some (b :: r) | _, _ => None end
  end.
(** h5py broadcasting of row-major data to a shape of the same rank (io/h5/named_objs.py:145). *)
Fixpoint bc (src dst : list nat) (l : list elem) : option (list elem) :=
  match src, dst with
  | [], [] => Some l
  | s :: src', n :: dst' =>
      if Nat.eqb s n then option_map (@List.concat elem) (omap_all (bc src' dst') (chunks s (prod src') l))
      else if Nat.eqb s 1 then option_map (fun r => List.concat (repeat r n)) (bc src' dst' l)
      else None
  | _, _ => None
  end.
(** io/h5/named_objs.py:145 (h5py): Shapes are aligned on the right: a shorter source gets leading ones, leading ones of a longer source
    are dropped. *)
Fixpoint drop_ones (k : nat) (l : list nat) : option (list nat) :=
  match k, l with
  | 0, _ => Some l
  | S k', 1 :: l' => drop_ones k' l'
  | S _, _ => None
  end.
(** The source shape brought to the rank of the destination (h5py, io/h5/named_objs.py:145). *)
Definition align (src dst : list nat) : option (list nat) :=
  drop_ones (length src - length dst) (repeat 1 (length dst - length src) ++ src).
(** h5py broadcasting in [dset[...] = val] (io/h5/named_objs.py:145). *)
Definition bcast (src dst : list nat) (l : list elem) : option (list elem) :=
  match align src dst with Some s => bc s dst l | None => None end.

(** io/h5/named_objs.py:138-145, 178-179, 282-283: h5py [dset[...] = value]: nothing happens on an empty dataset. *)
Definition raw_write (d src : dset) : result dset :=
  if Nat.eqb (prod (shp d)) 0 then Ok d
  else match bcast (shp src) (shp d) (dat src) with
       | None => Err TypeError
       | Some l => match conv_all (dt d) l with
                   | None => Err TypeError
                   | Some l' => Ok {| dt := dt d; shp := shp d; dat := l' |}
                   end
       end.
(** io/h5/named_objs.py:25-32, 60-62 (equality of shapes): h5py [attrs.modify(key, value)] on an existing attribute. *)
Definition shape_eqb (a b : list nat) : bool := if list_eq_dec Nat.eq_dec a b then true else false.
(** io/h5/named_objs.py:25-32 [attrs.modify(key, val)] of h5py: the stored type stays; another number of elements is refused. *)
Definition raw_modify (d src : dset) : result dset :=
  if shape_eqb (shp src) (shp d) || (Nat.eqb (prod (shp src)) 1 && Nat.eqb (prod (shp d)) 1) then
    match conv_all (dt d) (dat src) with
    | None => Err TypeError
    | Some l' => Ok {| dt := dt d; shp := shp d; dat := l' |}
    end
  else Err TypeError.

(** What a name in a group refers to: an object, or a soft or external link (io/h5/named_objs.py:342-362). ** Files *)
Inductive link := Hard (id : nat) | Soft (path : string) | Ext (fname path : string).
(** A group or a dataset (io/h5/named_objs.py:271-303, 306-476). *)
Inductive body := BGroup (links : list (string * link)) | BDset (d : dset).
(** An HDF5 object with its attributes (io/h5/named_objs.py:250-268 NamedObj). *)
Record obj := { bdy : body; atts : list (string * dset) }.
(** An HDF5 file: its objects, by number (io/h5/named_objs.py:479-516 File). *)
Definition file := list obj.
(** The root group (io/h5/named_objs.py:515-516). *)
Definition root := 0.
(** A newly created file (io/h5/named_objs.py:494-516). *)
Definition empty_file : file := [{| bdy := BGroup []; atts := [] |}].

Notation sget := (od_get String.eqb).
(** io/h5/named_objs.py:438-447 (h5py iterates in name order): Insertion of a new name in name order. *)
Fixpoint ins {V} (l : list (string * V)) (k : string) (v : V) : list (string * V) :=
  match l with
  | [] => [(k, v)]
  | (k', v') :: l' => if String.ltb k k' then (k, v) :: l else (k', v') :: ins l' k v
  end.

(** The members of a group (io/h5/named_objs.py:438-447). *)
Definition links_of (h : file) (g : nat) : option (list (string * link)) :=
  match nth_error h g with Some {| bdy := BGroup ls |} => Some ls | _ => None end.
(** The contents of a dataset (io/h5/named_objs.py:271-283). *)
Definition dset_of (h : file) (i : nat) : option dset :=
  match nth_error h i with Some {| bdy := BDset d |} => Some d | _ => None end.
(** The attributes of an object (io/h5/named_objs.py:262-264). *)
Definition attrs_of (h : file) (i : nat) : list (string * dset) :=
  match nth_error h i with Some o => atts o | None => [] end.
(** Writing an object in place (io/h5/named_objs.py:145, 283). *)
Definition set_body (h : file) (i : nat) (b : body) : file :=
  match nth_error h i with Some o => upd_nth h i {| bdy := b; atts := atts o |} | None => h end.
(** Writing the attributes of an object in place (io/h5/named_objs.py:25-32). *)
Definition set_attrs (h : file) (i : nat) (a : list (string * dset)) : file :=
  match nth_error h i with Some o => upd_nth h i {| bdy := bdy o; atts := a |} | None => h end.

(** io/h5/named_objs.py:456-476 (paths as h5py takes them): Path names: empty components and "." are no-ops; a leading slash starts at the root. *)
Definition segs (p : string) : list string :=
  filter (fun s => negb (String.eqb s "."%string)) (nonempty_segments "/"%char p).
(** A path starting at the root (io/h5/named_objs.py:456-476). *)
Definition is_abs (p : string) : bool :=
  match p with String c _ => Ascii.eqb c "/"%char | EmptyString => false end.
(** Where a path starts (io/h5/named_objs.py:456-476). *)
Definition start (g : nat) (p : string) : nat := if is_abs p then root else g.

(** io/h5/named_objs.py:456-476 (the h5py lookup): HDF5 path traversal; [nl] soft links may still be followed (HDF5's default limit is 16). *)
Fixpoint resolve (nl : nat) (h : file) (g : nat) (ss : list string) {struct nl} : option nat :=
  (fix walk (g : nat) (ss : list string) {struct ss} : option nat :=
     match ss with
     | [] => Some g
     | s :: rest =>
         match links_of h g with
         | None => None
         | Some ls =>
             match sget ls s with
             | None => None
             | Some (Hard i) => walk i rest
             | Some (Soft p) =>
                 match nl with
                 | 0 => None
                 | S nl' => resolve nl' h (start g p) (segs p ++ rest)
                 end
             | Some (Ext _ _) => None
             end
         end
     end) g ss.
(** HDF5 follows at most 16 soft links (io/h5/named_objs.py:342-351). *)
Definition nlinks := 16.

(** io/h5/named_objs.py:129-150, 456-476: [raw[key]] and [key in raw]; the empty name is never valid. *)
Definition raw_find (h : file) (g : nat) (key : string) : option nat :=
  if String.eqb key EmptyString then None
  else match resolve nlinks h (start g key) (segs key) with
       | Some i => if Nat.ltb i (length h) then Some i else None
       | None => None
       end.
(** [raw[key]] (io/h5/named_objs.py:131, 460): KeyError if missing. *)
Definition raw_get (h : file) (g : nat) (key : string) : result nat :=
  match raw_find h g key with Some i => Ok i | None => Err KeyError end.
(** [key in raw] (io/h5/named_objs.py:147-150, 472-473). *)
Definition raw_in (h : file) (g : nat) (key : string) : bool :=
  match raw_find h g key with Some _ => true | None => false end.
(** isinstance(_, h5py.Group) (io/h5/named_objs.py:395, 461-470). *)
Definition is_group (h : file) (i : nat) : bool := match links_of h i with Some _ => true | None => false end.
(** isinstance(_, h5py.Dataset) (io/h5/named_objs.py:148-150, 241-247). *)
Definition is_dset (h : file) (i : nat) : bool := match dset_of h i with Some _ => true | None => false end.

(** io/h5/named_objs.py:329, 176 (h5py create_group, create_dataset): Adding a new object under a new name of group [g]. *)
Definition add_obj (h : file) (g : nat) (s : string) (b : body) : result (nat * file) :=
  match links_of h g with
  | None => Err ValueError
  | Some ls => match sget ls s with
               | Some _ => Err ValueError          (* name already exists *)
               | None => Ok (length h, set_body h g (BGroup (ins ls s (Hard (length h))))
                                         ++ [{| bdy := b; atts := [] |}])
               end
  end.
(** [raw[key] = SoftLink/ExternalLink] (io/h5/named_objs.py:351, 362): an existing name is refused (ValueError). *)
Definition add_link (h : file) (g : nat) (s : string) (l : link) : result file :=
  match links_of h g with
  | None => Err ValueError
  | Some ls => match sget ls s with
               | Some _ => Err ValueError
               | None => Ok (set_body h g (BGroup (ins ls s l)))
               end
  end.
(** io/h5/named_objs.py:329, 176 (h5py creates intermediate groups): Intermediate groups are opened, or created when missing. *)
Fixpoint mk_parents (h : file) (g : nat) (ss : list string) : result nat * file :=
  match ss with
  | [] => (Ok g, h)
  | s :: rest =>
      match links_of h g with
      | None => (Err ValueError, h)
      | Some ls =>
          match sget ls s with
          | Some _ => match resolve nlinks h g [s] with
                      | Some i => if is_group h i then mk_parents h i rest else (Err ValueError, h)
                      | None => (Err ValueError, h)
                      end
          | None => match add_obj h g s (BGroup []) with
                    | Ok (i, h') => mk_parents h' i rest
                    | Err e => (Err e, h)
                    end
          end
      end
  end.
(** raw.create_group / raw.create_dataset (io/h5/named_objs.py:329, 176) at a path: an existing name is a ValueError; no body: a type h5py cannot store (TypeError). *)
Definition raw_create (h : file) (g : nat) (key : string) (b : option body) : result nat * file :=
  match rev (segs key) with
  | [] => (Err ValueError, h)
  | s :: ps =>
      match mk_parents h (start g key) (rev ps) with
      | (Err e, h1) => (Err e, h1)
      | (Ok g1, h1) =>
          match b with
          | None => (Err TypeError, h1)            (* the dtype has no HDF5 equivalent *)
          | Some b => match add_obj h1 g1 s b with
                      | Ok (i, h2) => (Ok i, h2)
                      | Err e => (Err e, h1)
                      end
          end
      end
  end.
(** [raw[path] = link] (io/h5/named_objs.py:342-362). *)
Definition raw_create_link (h : file) (g : nat) (key : string) (l : link) : result unit * file :=
  match rev (segs key) with
  | [] => (Err ValueError, h)
  | s :: ps =>
      match mk_parents h (start g key) (rev ps) with
      | (Err e, h1) => (Err e, h1)
      | (Ok g1, h1) => match add_link h1 g1 s l with
                       | Ok h2 => (Ok tt, h2)
                       | Err e => (Err e, h1)
                       end
      end
  end.

(** What can be given as a value to io/h5/named_objs.py:161-183, 364-390 (utils.py:31-34). ** Values given to / returned by the API *)
Inductive leaf :=
| LStr (s : string)               (* str *)
| LBytes (s : string)             (* bytes *)
| LArr (d : dset)                 (* ndarray or numeric scalar (shape []) *)
| LNoH5                           (* ndarray with a dtype HDF5 cannot store, e.g. '<U3' or object *)
| LOther.                         (* anything else: list, None, ... *)
(** A key of the mapping given to io/h5/named_objs.py:364-390 (utils.py:26-28). *)
Inductive key := KStr (s : string) | KOther.
(** The mapping given to io/h5/named_objs.py:364-390. *)
Inductive data := DMap (items : list (key * data)) | DLeaf (l : leaf).

(** io/h5/named_objs.py:161-183: create_dataset(data=...): str and bytes become variable-length strings. *)
Definition stored_as (l : leaf) : option dset :=
  match l with
  | LStr s | LBytes s => Some {| dt := TStr; shp := []; dat := [EStr s] |}
  | LArr d => Some d
  | LNoH5 | LOther => None
  end.

(** The flags io/h5/named_objs.py:49-65, 161-183, 317-340 accept: 'x', 'ac', 'ca'; anything else is a ValueError. *)
Definition valid_flag (f : string) : bool :=
  (String.eqb f "x" || String.eqb f "ac" || String.eqb f "ca")%string.

(** named_objs.py:317-340 [Group.create_group]. *)
Definition create_group (h : file) (g : nat) (k : string) (flag : string) : result nat * file :=
  if negb (valid_flag flag) then (Err ValueError, h)
  else match raw_find h g k with
       | Some i => if String.eqb flag "x" then (Err ValueError, h)
                   else if is_group h i then (Ok i, h) else (Err ValueError, h)
       | None => raw_create h g k (Some (BGroup []))
       end.

(** named_objs.py:161-183 [DatasetManager.create]. *)
Definition ds_create (h : file) (g : nat) (k : string) (v : leaf) (flag : string) : result nat * file :=
  if negb (valid_flag flag) then (Err ValueError, h)
  else match raw_find h g k with
       | Some i => if String.eqb flag "x" then (Err ValueError, h)
                   else match dset_of h i with
                        | None => (Err ValueError, h)
                        | Some d => match stored_as v with
                                    | None => (Err TypeError, h)
                                    | Some src => match raw_write d src with
                                                  | Ok d' => (Ok i, set_body h i (BDset d'))
                                                  | Err e => (Err e, h)
                                                  end
                                    end
                        end
       | None => raw_create h g k (option_map BDset (stored_as v))
       end.

(** named_objs.py:185-209 [DatasetManager.create_empty]; 147-150 [__contains__]. *)
Definition ds_contains (h : file) (g : nat) (k : string) : bool :=
  match raw_find h g k with Some i => is_dset h i | None => false end.
(** io/h5/named_objs.py:185-209 [DatasetManager.create_empty]. *)
Definition ds_create_empty (h : file) (g : nat) (k : string) (sh : list nat) (t : dtype) (flag : string)
  : result nat * file :=
  if negb (valid_flag flag) then (Err ValueError, h)
  else if ds_contains h g k then
         if String.eqb flag "x" then (Err ValueError, h)
         else (raw_get h g k, h)
       else raw_create h g k (Some (BDset {| dt := t; shp := sh; dat := repeat (zero_of t) (prod sh) |})).

(** named_objs.py:129-145 [DatasetManager.__getitem__ / __setitem__]. *)
Definition ds_get (h : file) (g : nat) (k : string) : result dset :=
  match raw_find h g k with
  | None => Err KeyError
  | Some i => match dset_of h i with Some d => Ok d | None => Err KeyError end
  end.
(** io/h5/named_objs.py:138-145 [DatasetManager.__setitem__]. *)
Definition ds_set (h : file) (g : nat) (k : string) (v : leaf) : result unit * file :=
  match raw_find h g k with
  | None => (Err KeyError, h)
  | Some i => match dset_of h i with
              | None => (Err KeyError, h)
              | Some d => match stored_as v with
                          | None => (Err TypeError, h)
                          | Some src => match raw_write d src with
                                        | Ok d' => (Ok tt, set_body h i (BDset d'))
                                        | Err e => (Err e, h)
                                        end
                          end
              end
  end.
(** named_objs.py:238-247 [keys/items]: group members that are datasets.  A dangling member raises. *)
Definition ds_keys (h : file) (g : nat) : result (list string) :=
  match links_of h g with
  | None => Err ValueError
  | Some ls => rmap (fun l => map fst (filter (fun x => is_dset h (snd x)) l))
                    (mapM (fun x => rmap (pair (fst x)) (raw_get h g (fst x))) ls)
  end.

(** named_objs.py:342-362 [create_soft_link / create_external_link]. *)
Definition create_link (h : file) (g : nat) (k : string) (l : link) (flag : string) : result unit * file :=
  if negb (valid_flag flag) then (Err ValueError, h)
  else if raw_in h g k then if String.eqb flag "x" then (Err ValueError, h) else (Ok tt, h)
       else raw_create_link h g k l.
(** io/h5/named_objs.py:342-351 [Group.create_soft_link]. *)
Definition create_soft_link h g k path flag := create_link h g k (Soft path) flag.
(** io/h5/named_objs.py:353-362 [Group.create_external_link]. *)
Definition create_external_link h g k fname path flag := create_link h g k (Ext fname path) flag.

(** io/h5/utils.py:31-34 [is_supported_data]. *)
Definition leaf_supported (l : leaf) : bool := match l with LOther => false | _ => true end.
(** io/h5/utils.py:36-50 [is_data_dict_supported]. *)
Fixpoint dict_supported (d : data) : bool :=
  match d with
  | DLeaf _ => false
  | DMap items =>
      (fix go (items : list (key * data)) : bool :=
         match items with
         | [] => true
         | (k, v) :: items' =>
             match k with
             | KOther => false
             | KStr _ => match v with
                         | DMap _ => dict_supported v && go items'
                         | DLeaf l => leaf_supported l && go items'
                         end
             end
         end) items
  end.

(** named_objs.py:364-390 [Group.dump]. *)
Fixpoint dump (h : file) (g : nat) (d : data) (flag : string) {struct d} : result unit * file :=
  if dict_supported d then
    match d with
    | DLeaf _ => (Err TypeError, h)
    | DMap items =>
        (fix go (h : file) (items : list (key * data)) {struct items} : result unit * file :=
           match items with
           | [] => (Ok tt, h)
           | (KOther, _) :: _ => (Err TypeError, h)
           | (KStr k, v) :: items' =>
               match v with
               | DMap _ =>
                   match create_group h g k flag with
                   | (Err e, h1) => (Err e, h1)
                   | (Ok g1, h1) => match dump h1 g1 v flag with
                                    | (Err e, h2) => (Err e, h2)
                                    | (Ok _, h2) => go h2 items'
                                    end
                   end
               | DLeaf l =>
                   match ds_create h g k l flag with
                   | (Err e, h1) => (Err e, h1)
                   | (Ok _, h1) => go h1 items'
                   end
               end
           end) h items
    end
  else (Err TypeError, h).

(** io/h5/named_objs.py:392-405: What a load returns: DataDicts of values read with [()]. *)
Inductive ltree := LMap (items : list (string * ltree)) | LVal (d : dset).

(** named_objs.py:392-405 [Group.load]; [fuel] is the remaining recursion depth (RecursionError is written
    RuntimeError). *)
Fixpoint load (fuel : nat) (h : file) (g : nat) : result ltree :=
  match fuel with
  | 0 => Err RuntimeError
  | S fuel' =>
      match links_of h g with
      | None => Err TypeError
      | Some ls =>
          rmap LMap (mapM (fun x =>
            bind (raw_get h g (fst x)) (fun i =>
              match dset_of h i with
              | Some d => Ok (fst x, LVal d)
              | None => rmap (pair (fst x)) (load fuel' h i)
              end)) ls)
      end
  end.

(** ** Files on disk: named_objs.py:494-516 [File.__init__], 523-550 [load_from], 552-623 [dump_to]. *)
Definition fs := string -> option file.
(** How a file is open (io/h5/named_objs.py:494-516). *)
Inductive mode := RO | RW.
(** io/h5/named_objs.py:494-516 [File.__init__]: the flags r, a (append or create), w (truncate), x (new), and what h5py refuses. *)
Definition open_file (f : fs) (path flag : string) : result (file * mode) :=
  if String.eqb flag "r" then
    match f path with Some h => Ok (h, RO) | None => Err FileNotFoundError end
  else if String.eqb flag "a" then
    match f path with Some h => Ok (h, RW) | None => Err FileNotFoundError end
  else if String.eqb flag "x" then
    match f path with Some _ => Err FileExistsError | None => Ok (empty_file, RW) end
  else if String.eqb flag "ac" || String.eqb flag "ca" then
    match f path with Some h => Ok (h, RW) | None => Ok (empty_file, RW) end
  else if String.eqb flag "w" then Ok (empty_file, RW)
  else Err ValueError.

(** io/h5/named_objs.py:523-550 [File.load_from]. *)
Definition load_from (fuel : nat) (f : fs) (path : string) (k : option string) : result ltree :=
  bind (open_file f path "r") (fun '(h, _) =>
    bind (match k with None => Ok root | Some k => raw_get h root k end) (fun i =>
      match dset_of h i with
      | Some d => Ok (LVal d)
      | None => load fuel h i
      end)).

(** io/h5/named_objs.py:609-616: the groups on the way to the key. *)
Fixpoint parents (h : file) (g : nat) (ss : list string) (create : bool) : result nat * file :=
  match ss with
  | [] => (Ok g, h)
  | k :: ss' =>
      match (if create then create_group h g k "ac"
             else match raw_get h g k with
                  | Err e => (Err e, h)
                  | Ok i => if is_group h i then (Ok i, h) else (Err ValueError, h)
                  end) with
      | (Err e, h1) => (Err e, h1)
      | (Ok g1, h1) => parents h1 g1 ss' create
      end
  end.
(** io/h5/named_objs.py:552-623 [File.dump_to], inside the open file. *)
Definition dump_file (h : file) (d : data) (k : option string) (g_flag dump_flag : string) (create : bool)
  : result unit * file :=
  match k with
  | None => dump h root d dump_flag
  | Some k =>
      match rev (nonempty_segments "/"%char k) with
      | [] => dump h root d dump_flag
      | s :: ps =>
          match parents h root (rev ps) create with
          | (Err e, h1) => (Err e, h1)
          | (Ok g, h1) =>
              match d with
              | DMap _ => match create_group h1 g s g_flag with
                          | (Err e, h2) => (Err e, h2)
                          | (Ok g2, h2) => dump h2 g2 d dump_flag
                          end
              | DLeaf l => match ds_create h1 g s l dump_flag with
                           | (Err e, h2) => (Err e, h2)
                           | (Ok _, h2) => (Ok tt, h2)
                           end
              end
          end
      end
  end.
(** io/h5/named_objs.py:552-623 [File.dump_to]: A read-only file is left as it is; the writes h5py refuses are all reported as OSError here. *)
Definition dump_to (f : fs) (path : string) (d : data) (k : option string)
           (f_flag g_flag dump_flag : string) (create : bool) : result unit * fs :=
  match open_file f path f_flag with
  | Err e => (Err e, f)
  | Ok (h, RO) => (Err OSError, f)
  | Ok (h, RW) => let '(r, h') := dump_file h d k g_flag dump_flag create in
                  (r, fun p => if String.eqb p path then Some h' else f p)
  end.

(** ** Attributes: named_objs.py:11-116 [AttrManager]. *)
Definition attr_get (h : file) (i : nat) (k : string) : result dset :=
  match sget (attrs_of h i) k with Some d => Ok d | None => Err KeyError end.
(** io/h5/named_objs.py:25-32 and 62-64: writing to an existing attribute. *)
Definition attr_modify (h : file) (i : nat) (k : string) (d : dset) (v : leaf) : result unit * file :=
  match stored_as v with
  | None => (Err TypeError, h)
  | Some src => match raw_modify d src with
                | Ok d' => (Ok tt, set_attrs h i (od_set String.eqb (attrs_of h i) k d'))
                | Err e => (Err e, h)
                end
  end.
(** io/h5/named_objs.py:25-32 [AttrManager.__setitem__]. *)
Definition attr_set (h : file) (i : nat) (k : string) (v : leaf) : result unit * file :=
  match sget (attrs_of h i) k with
  | None => (Err KeyError, h)
  | Some d => attr_modify h i k d v
  end.
(** io/h5/named_objs.py:49-65 [AttrManager.create]. *)
Definition attr_create (h : file) (i : nat) (k : string) (v : leaf) (flag : string) : result unit * file :=
  if negb (valid_flag flag) then (Err ValueError, h)
  else match sget (attrs_of h i) k with
       | Some d => if String.eqb flag "x" then (Err ValueError, h) else attr_modify h i k d v
       | None => match stored_as v with
                 | None => (Err TypeError, h)
                 | Some d => (Ok tt, set_attrs h i (ins (attrs_of h i) k d))
                 end
       end.
(** io/h5/named_objs.py:67-85 [AttrManager.create_empty]. *)
Definition attr_create_empty (h : file) (i : nat) (k : string) (sh : list nat) (t : dtype) (flag : string)
  : result unit * file :=
  if negb (valid_flag flag) then (Err ValueError, h)
  else match sget (attrs_of h i) k with
       | Some d => if String.eqb flag "x" then (Err ValueError, h) else (Ok tt, h)
       | None => (Ok tt, set_attrs h i (ins (attrs_of h i) k
                            {| dt := t; shp := sh; dat := repeat (zero_of t) (prod sh) |}))
       end.
(** io/h5/named_objs.py:102-104 [AttrManager.dump]: one attribute after the other. *)
Fixpoint attr_dump (h : file) (i : nat) (items : list (string * leaf)) (flag : string) : result unit * file :=
  match items with
  | [] => (Ok tt, h)
  | (k, v) :: items' => match attr_create h i k v flag with
                        | (Ok _, h1) => attr_dump h1 i items' flag
                        | (Err e, h1) => (Err e, h1)
                        end
  end.
(** io/h5/named_objs.py:87-88, 115-116 [AttrManager.keys]. *)
Definition attr_keys (h : file) (i : nat) : list string := map fst (attrs_of h i).

(** ** Key selection: utils.py:18-24, 85-86; named_objs.py:98-100, 222-224.  [m] is the compiled regular
    expression's [match] (trusted), [None] when no pattern is given. *)
Definition matched (m : option (string -> bool)) (keys : list string) : list string :=
  match m with None => keys | Some f => filter f keys end.
(** io/h5/named_objs.py:98-100, 222-224: The dict comprehension over the selected keys followed by DataDict(...). *)
Definition load_selected {V} (get : string -> result V) (own : list string)
           (m : option (string -> bool)) (keys : option (list string)) : result (list (string * V)) :=
  let ks := match keys with None => own | Some l => l end in
  rmap (od_update String.eqb []) (mapM (fun k => rmap (pair k) (get k)) (matched m ks)).
(** io/h5/named_objs.py:98-100 [AttrManager.load]. *)
Definition attr_load h i m keys := load_selected (attr_get h i) (attr_keys h i) m keys.
(** io/h5/named_objs.py:222-224 [DatasetManager.load]. *)
Definition ds_load h g m keys :=
  bind (match keys with None => ds_keys h g | Some l => Ok l end) (fun ks =>
    load_selected (ds_get h g) ks m (Some ks)).

(** ** Listing: named_objs.py:407-436 [Group.what].  Lines of the tree; attribute text is left out.  A line
    is its depth, whether it carries the end marker, the member name, and whether it is a group. *)
Record line := { ln_depth : nat; ln_last : bool; ln_name : string; ln_group : bool }.
(** io/h5/named_objs.py:407-436 [Group.what], recursively. *)
Fixpoint what (fuel : nat) (h : file) (g : nat) (dset_ group_ : bool) (max_depth : Z) (depth : nat)
  : result (list line) :=
  match fuel with
  | 0 => Err RuntimeError
  | S fuel' =>
      if Z.eqb (Z.of_nat (S depth)) max_depth then Ok []
      else match links_of h g with
           | None => Err TypeError
           | Some ls =>
               (fix go (todo : list (string * link)) (i : nat) : result (list line) :=
                  match todo with
                  | [] => Ok []
                  | (k, _) :: todo' =>
                      bind (raw_get h g k) (fun o =>
                        match dset_of h o with
                        | Some _ =>
                            if dset_ then rmap (cons {| ln_depth := depth; ln_last := Nat.eqb i (length ls - 1);
                                                        ln_name := k; ln_group := false |}) (go todo' (S i))
                            else go todo' (S i)
                        | None =>
                            if group_ then
                              bind (what fuel' h o dset_ group_ max_depth (S depth)) (fun sub =>
                                rmap (fun r => {| ln_depth := depth; ln_last := Nat.eqb i (length ls - 1);
                                                  ln_name := k; ln_group := true |} :: sub ++ r) (go todo' (S i)))
                            else go todo' (S i)
                        end)
                  end) ls 0
           end
  end.

(** ** Group-like objects: abc.py:7-63.  A class is described by its [h5_data_typedict]; array-valued fields
    are returned as loaded, [str] fields are decoded, nested group-like fields are rebuilt recursively
    ([cls( **init_kw)] is the record of the field values; [getattr] reads them). *)
Inductive hty := HArr | HStr | HTab | HObj (fields : list (string * hty)).
(** core/containers/data_table.py:53-56: a column of a table that was read from a file: an array, or (out of a subgroup) whatever numpy makes of a
    mapping, which is left out. *)
Inductive column := CArr (d : dset) | COdd.
(** io/h5/abc.py:11-15, 44-51: an object of such a class, field by field; a DataTable is its columns in order. *)
Inductive hobj := OArr (d : dset) | OStr (s : string) | OTab (cols : list (string * column)) | OObj (fields : list (string * hobj)).
(** core/containers/data_table.py:167-168, 178-179: [to_dict(copy=False)].  Simplified: writing a column that is no array of the modelled types is not
    modelled (TypeError stands for it). *)
Definition table_to_h5 (cols : list (string * column)) : result data :=
  rmap DMap (mapM (fun c => match snd c with CArr d => Ok (KStr (fst c), DLeaf (LArr d)) | COdd => Err TypeError end) cols).
(** core/containers/data_table.py:171-176, 46-56: [DataTable(data=..., copy=False)]: not a mapping: AssertionError. *)
Definition table_from_h5 (x : ltree) : result hobj :=
  match x with
  | LVal _ => Err AssertionError
  | LMap items => Ok (OTab (od_update String.eqb [] (map (fun it => (fst it, match snd it with LVal d => CArr d | LMap _ => COdd end)) items)))
  end.

(** abc.py:11-15, 44-51: the dict comprehension over the keys of the typedict.  Simplified: an object where the class declares an array or a text is
    not modelled (TypeError stands for it). *)
Fixpoint to_h5_data (t : hty) (o : hobj) : result data :=
  match t, o with
  | HObj fs, OObj vals =>
      rmap DMap
        ((fix go (fs : list (string * hty)) : result (list (key * data)) :=
            match fs with
            | [] => Ok []
            | (k, t1) :: fs' =>
                match sget vals k with
                | None => Err AttributeError
                | Some v => bind (to_h5_data t1 v) (fun d => rmap (cons (KStr k, d)) (go fs'))
                end
            end) fs)
  | _, OStr s => Ok (DLeaf (LStr s))
  | _, OArr d => Ok (DLeaf (LArr d))
  | _, OTab cols => table_to_h5 cols
  | _, OObj _ => Err TypeError
  end.

(** abc.py:17-23, 53-63; [data.pop(k)] removes the entry.  Simplified: a group found where the class declares an array (the code hands over the
    dict) is not modelled (TypeError stands for it). *)
Fixpoint from_h5_data (t : hty) (x : ltree) : result hobj :=
  match t with
  | HArr => match x with LVal d => Ok (OArr d) | LMap _ => Err TypeError end
  | HStr => match x with
            | LVal {| dt := TStr; shp := []; dat := [EStr s] |} => Ok (OStr s)
            | _ => Err AttributeError
            end
  | HTab => table_from_h5 x
  | HObj fs =>
      match x with
      | LVal _ => Err AttributeError
      | LMap items =>
          rmap OObj
            ((fix go (fs : list (string * hty)) (items : list (string * ltree)) : result (list (string * hobj)) :=
                match fs with
                | [] => Ok []
                | (k, t1) :: fs' =>
                    match sget items k with
                    | None => Err KeyError
                    | Some v => bind (from_h5_data t1 v) (fun o =>
                                  rmap (cons (k, o)) (go fs' (od_del String.eqb items k)))
                    end
                end) fs items)
      end
  end.
