(** Model of the rest of /repo/src/pyhipp/io/h5: the views and the dump of DatasetManager (named_objs.py:211-231) and the life of a File handle
    (named_objs.py:494-517, 625-640).  Tables in files are in H5Model ([table_to_h5], [table_from_h5]). *)
From Verif Require Import Base Str H5Model.
Local Open Scope list_scope. Local Open Scope nat_scope.

(** named_objs.py:241-247 [__items] (the members that are datasets, in the order of the names; a dangling member raises) and 218-220 [items].
    Simplified: the generator is consumed to its end. *)
Definition ds_items (h : file) (g : nat) : result (list (string * dset)) :=
  match links_of h g with
  | None => Err ValueError
  | Some ls =>
      rmap (fun l => flat_map (fun x => match dset_of h (snd x) with Some d => [(fst x, d)] | None => [] end) l)
           (mapM (fun x => rmap (pair (fst x)) (raw_get h g (fst x))) ls)
  end.
(** named_objs.py:214-216 [values]. *)
Definition ds_values (h : file) (g : nat) : result (list dset) := rmap (map snd) (ds_items h g).
(** named_objs.py:226-228 [DatasetManager.dump]: one [create] after another; the first failure ends it. *)
Fixpoint ds_dump (h : file) (g : nat) (items : list (string * leaf)) (flag : string) : result unit * file :=
  match items with
  | [] => (Ok tt, h)
  | (k, v) :: rest =>
      match ds_create h g k v flag with
      | (Ok _, h') => ds_dump h' g rest flag
      | (Err e, h') => (Err e, h')
      end
  end.

(** ** File handles.  named_objs.py:494-517: what [_raw] is: None, or an h5py.File that is open or closed. *)
Inductive handle := NoRaw | Raw (is_open : bool).
(** named_objs.py:506-517: File(path, flag); without a path there is no raw file; the flag is checked first, a failed open gives no object. *)
Definition new_handle (f : fs) (path : option string) (flag : string) : result handle :=
  if negb (existsb (String.eqb flag) ["r"; "a"; "x"; "ac"; "ca"; "w"]%string) then Err ValueError
  else match path with None => Ok NoRaw | Some p => rmap (fun _ => Raw true) (open_file f p flag) end.
(** named_objs.py:625-629 [from_raw]: any handle of the user's, open or closed, or None. *)
Definition from_raw (raw : handle) : handle := raw.
(** named_objs.py:631-633 [close]; closing a closed h5py.File does nothing. *)
Definition close (x : handle) : handle := match x with NoRaw => NoRaw | Raw _ => Raw false end.
(** named_objs.py:638-640 [__exit__]: what it returns decides whether an exception of the block is swallowed: None, so never. *)
Definition exit_ (x : handle) : handle * bool := (close x, false).
(** What any read or write through a handle needs (named_objs.py:373-405, 222-228): None has no members (TypeError), a closed file raises ValueError. *)
Definition use (x : handle) : result unit := match x with NoRaw => Err TypeError | Raw true => Ok tt | Raw false => Err ValueError end.
(** named_objs.py:635-640: [with File(...) as f: body]: the outcome of the whole statement and the handle after it.  The block may itself close
    the handle, may raise, or may use the handle; it is any function of the handle. *)
Definition with_block {A} (x : handle) (body : handle -> result A * handle) : result A * handle :=
  let '(r, x1) := body x in (r, fst (exit_ x1)).
