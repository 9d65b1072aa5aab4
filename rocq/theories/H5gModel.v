(** Model of the file-level entry points of /repo/src/pyhipp/io/h5/abc.py (GroupLike), of io/h5/shortcuts.py (txt_to_h5) and of the
    remaining item access of io/h5/named_objs.py (Group.__getitem__, __delitem__, DatasetManager.__getattr__, what), over the files of
    H5Model.  A class with an [h5_data_typedict] is built by a constructor that takes exactly the declared fields as keywords (as a
    dataclass does).  numpy.loadtxt is outside the model: the text file is given as its columns. *)
From Verif Require Import Base Str H5Model.
Local Open Scope list_scope. Local Open Scope nat_scope.

(** io/h5/named_objs.py:456-470 [File.__getitem__] at the root followed by use as a group: a missing path is a KeyError, and a Dataset
    has neither [dump] nor [load] (AttributeError). *)
Definition get_group (h : file) (group : string) : result nat :=
  bind (raw_get h root group) (fun g => if is_group h g then Ok g else Err AttributeError).

(** io/h5/abc.py:25-27 [to_h5_group]. *)
Definition obj_to_group (h : file) (g : nat) (t : hty) (o : hobj) (flag : string) : result unit * file :=
  match to_h5_data t o with
  | Err e => (Err e, h)
  | Ok d => dump h g d flag
  end.

(** io/h5/abc.py:29-31 [to_h5_file]: the file is opened (and so created or truncated) before the group is looked up; leaving the
    with block keeps what has been written.  A file opened read-only refuses to be written (OSError here). *)
Definition obj_to_file (f : fs) (path : string) (t : hty) (o : hobj) (group f_flag flag : string) : result unit * fs :=
  match open_file f path f_flag with
  | Err e => (Err e, f)
  | Ok (h, m) =>
      match get_group h group, m with
      | Err e, RO => (Err e, f)
      | Err e, RW => (Err e, fun p => if String.eqb p path then Some h else f p)
      | Ok _, RO => (Err OSError, f)
      | Ok g, RW => let '(r, h') := obj_to_group h g t o flag in
                    (r, fun p => if String.eqb p path then Some h' else f p)
      end
  end.

(** io/h5/abc.py:17-23 [_from_h5_data] with keywords: every declared field is read from the data first, then the keywords
    override; a keyword that is no field is refused by the constructor (TypeError). *)
Definition override (kw : list (string * hobj)) (kv : string * hobj) : string * hobj :=
  (fst kv, match od_get String.eqb kw (fst kv) with Some v => v | None => snd kv end).
(** io/h5/abc.py:18-23: the constructor call. *)
Definition construct (fs : list (string * hty)) (kw vals : list (string * hobj)) : result hobj :=
  if forallb (fun k => existsb (String.eqb k) (map fst fs)) (map fst kw) then Ok (OObj (map (override kw) vals)) else Err TypeError.
(** io/h5/abc.py:33-36 [from_h5_group]: load, rebuild, construct. *)
Definition obj_from_group (fuel : nat) (h : file) (g : nat) (fs : list (string * hty)) (kw : list (string * hobj)) : result hobj :=
  bind (load fuel h g) (fun x => bind (from_h5_data (HObj fs) x) (fun o =>
    match o with OObj vals => construct fs kw vals | _ => Err TypeError end)).
(** io/h5/abc.py:38-42 [from_h5_file]. *)
Definition obj_from_file (fuel : nat) (f : fs) (path : string) (fs0 : list (string * hty)) (group : string) (kw : list (string * hobj))
  : result hobj :=
  bind (open_file f path "r") (fun '(h, _) => bind (get_group h group) (fun g => obj_from_group fuel h g fs0 kw)).

(** io/h5/shortcuts.py:22-24: the columns one after the other. *)
Fixpoint columns_to_group (h : file) (g : nat) (cols : list (string * dset)) (d_flag : string) : result unit * file :=
  match cols with
  | [] => (Ok tt, h)
  | (k, d) :: cols' => match ds_create h g k (LArr d) d_flag with
                       | (Err e, h1) => (Err e, h1)
                       | (Ok _, h1) => columns_to_group h1 g cols' d_flag
                       end
  end.
(** io/h5/shortcuts.py:9-21 [txt_to_h5] with a file name: the recursive call passes no [d_flag], so its default 'ac' is used. *)
Definition txt_to_h5_file (f : fs) (cols : list (string * dset)) (path d_flag f_flag : string) : result unit * fs :=
  match open_file f path f_flag with
  | Err e => (Err e, f)
  | Ok (_, RO) => (Err OSError, f)
  | Ok (h, RW) => let '(r, h') := columns_to_group h root cols "ac" in
                  (r, fun p => if String.eqb p path then Some h' else f p)
  end.

(** io/h5/named_objs.py:475-476 [Group.__delitem__] -> h5py: the link itself is removed, whatever it points to; the parents on the
    path are resolved; a missing name is a KeyError, and so is the group itself. *)
Definition group_del (h : file) (g : nat) (key : string) : result unit * file :=
  match rev (segs key) with
  | [] => (Err KeyError, h)
  | s :: ps =>
      match resolve nlinks h (start g key) (rev ps) with
      | None => (Err KeyError, h)
      | Some g1 =>
          match links_of h g1 with
          | None => (Err KeyError, h)
          | Some ls => match od_get String.eqb ls s with
                       | None => (Err KeyError, h)
                       | Some _ => (Ok tt, set_body h g1 (BGroup (od_del String.eqb ls s)))
                       end
          end
      end
  end.

(** io/h5/named_objs.py:456-459 [Group.__getitem__], 129-136 [DatasetManager.__getitem__] with a sequence of keys. *)
Definition group_get_many (h : file) (g : nat) (ks : list string) : result (list nat) := mapM (raw_get h g) ks.
(** io/h5/named_objs.py:129-136 with a sequence of keys: the values. *)
Definition ds_get_many (h : file) (g : nat) (ks : list string) : result (list dset) := mapM (ds_get h g) ks.
(** io/h5/named_objs.py:152-156 [DatasetManager.__getattr__] for a name that is no attribute of the class. *)
Definition ds_getattr (h : file) (g : nat) (k : string) : result dset :=
  match ds_get h g k with Err KeyError => Err AttributeError | r => r end.
(** io/h5/named_objs.py:233-236 [DatasetManager.what]: [len(self)] of a class without [__len__]. *)
Definition ds_what (h : file) (g : nat) : result string := Err TypeError.
