(** Model of /repo/src/pyhipp/core/containers/data_dict.py (class DataDict).

    Containers live on a heap, because DataDicts share children and may be cyclic.
    Simplifications: dictionary keys are strings (other hashable keys can enter a DataDict through its
    constructor but can then not be read through [], since [ '/' not in key ] raises TypeError, which is
    what [KOther] models); values that are neither DataDict, dict, tuple nor str are opaque ([VNum]) and
    not subscriptable (numpy arrays, which raise IndexError for a str subscript, are folded into
    TypeError). *)
From Verif Require Import Base Str.
Open Scope string_scope.

(** The identity of a Python object (data_dict.py, throughout). *)
Definition loc := nat.

(** What a DataDict stores (data_dict.py:56-86). *)
Inductive value :=
| VRef (l : loc)             (* a dict or a DataDict *)
| VStr (s : string)
| VNum (z : Z)
| VTup (vs : list value).

(** A heap object: a built-in dict, or a DataDict, whose only attribute [_dict] (data_dict.py:28)
    refers to a built-in dict.  [get_dict] (168-169) hands out that reference. *)
Inductive obj :=
| Dict (e : list (string * value))
| DD (d : loc).

(** All dicts and DataDicts of the program (data_dict.py:22-28). *)
Definition heap := list obj.

(** data_dict.py:30-54, 56-86, 88-112: A subscript: str, tuple of subscripts, or anything else. *)
Inductive key :=
| KStr (s : string)
| KTup (ks : list key)
| KOther.

(** The separator of data_dict.py:45, 174-176. *)
Definition slash : ascii := "/"%char.

(** data_dict.py:174-176 [__split_key] *)
Definition split_key (s : string) : list string := nonempty_segments slash s.

(** data_dict.py:28, 46, 77: The built-in dict that holds the entries of [v]: [v] itself or [v._dict]. *)
Definition dict_of (h : heap) (v : value) : option loc :=
  match v with
  | VRef l => match nth_error h l with
              | Some (Dict _) => Some l
              | Some (DD d) => Some d
              | None => None
              end
  | _ => None
  end.

(** data_dict.py:114-133, the entries of the dict at a location. *)
Definition entries (h : heap) (d : loc) : list (string * value) :=
  match nth_error h d with Some (Dict e) => e | _ => [] end.

(** data_dict.py:77, 103, 139, an in-place change of a dict. *)
Definition set_entries (h : heap) (d : loc) (e : list (string * value)) : heap :=
  upd_nth h d (Dict e).

(** [v[k]] for a single, slash-free name (data_dict.py:46, 51-53, 84-85, 110-111). *)
Definition subscript (h : heap) (v : value) (k : string) : result value :=
  match dict_of h v with
  | None => Err TypeError
  | Some d => match od_get String.eqb (entries h d) k with
              | Some w => Ok w
              | None => Err KeyError
              end
  end.

(** The loops [for k in keys: v = v[k]] (data_dict.py:52-53, 84-85, 110-111). *)
Fixpoint walk (h : heap) (v : value) (ks : list string) : result value :=
  match ks with
  | [] => Ok v
  | k :: ks' => bind (subscript h v k) (fun w => walk h w ks')
  end.

(** data_dict.py:30-54 [__getitem__]; [self] is the value [VRef l]. *)
Fixpoint getitem (h : heap) (self : value) (k : key) : result value :=
  match k with
  | KTup ks =>
      (* 42-43 tuple(self[_key] for _key in key) *)
      rmap VTup ((fix go (ks : list key) : result (list value) :=
                    match ks with
                    | [] => Ok []
                    | k1 :: ks' => bind (getitem h self k1)
                                     (fun w => bind (go ks') (fun ws => Ok (w :: ws)))
                    end) ks)
  | KOther => Err TypeError                                  (* 45: '/' not in key *)
  | KStr s =>
      if has_char slash s then
        match split_key s with
        | [] => Err AssertionError                           (* 49 *)
        | k0 :: ks => bind (subscript h self k0) (fun v => walk h v ks)   (* 51-54 *)
        end
      else subscript h self s                                (* 45-46 *)
  end.

(** [v[k] = w] for a slash-free name: in-place store into the dict behind [v] (data_dict.py:77, 86). *)
Definition store (h : heap) (v : value) (k : string) (w : value) : result unit * heap :=
  match dict_of h v with
  | None => (Err TypeError, h)
  | Some d => (Ok tt, set_entries h d (od_set String.eqb (entries h d) k w))
  end.

(** [del v[k]] for a slash-free name (data_dict.py:103, 112). *)
Definition remove (h : heap) (v : value) (k : string) : result unit * heap :=
  match dict_of h v with
  | None => (Err TypeError, h)
  | Some d => if od_mem String.eqb (entries h d) k
              then (Ok tt, set_entries h d (od_del String.eqb (entries h d) k))
              else (Err KeyError, h)
  end.

(** data_dict.py:68-71: What [len(val)] and [zip(key, val)] see (68, 71): the items of a tuple, the keys of a mapping,
    the characters of a str; other objects have no len() (TypeError). *)
Definition val_items (h : heap) (v : value) : option (list value) :=
  match v with
  | VTup vs => Some vs
  | VStr s => Some (map (fun c => VStr (String c "")) (list_ascii_of_string s))
  | VRef _ => match dict_of h v with
              | Some d => Some (map (fun kv => VStr (fst kv)) (entries h d))
              | None => None
              end
  | VNum _ => None
  end.

(** data_dict.py:80-85, 106-111: Path preparation shared by __setitem__ and __delitem__ (80-85, 106-111): the container that holds
    the last segment and that segment. *)
Definition split_last (ks : list string) : option (list string * string) :=
  match rev ks with
  | [] => None
  | k :: r => Some (rev r, k)
  end.

(** data_dict.py:56-86 [__setitem__]. *)
Fixpoint setitem (h : heap) (self : value) (k : key) (w : value) {struct k} : result unit * heap :=
  match k with
  | KTup ks =>
      match val_items h w with
      | None => (Err TypeError, h)                            (* 68: len(val) *)
      | Some ws =>
          if Nat.eqb (List.length ks) (List.length ws) then   (* 68-70 *)
            (fix go (h : heap) (ks : list key) (ws : list value) : result unit * heap :=
               match ks, ws with
               | k1 :: ks', w1 :: ws' =>
                   match setitem h self k1 w1 with            (* 71-72 *)
                   | (Ok _, h') => go h' ks' ws'
                   | (Err e, h') => (Err e, h')
                   end
               | _, _ => (Ok tt, h)
               end) h ks ws
          else (Err AssertionError, h)
      end
  | KOther => (Err TypeError, h)                              (* 76 *)
  | KStr s =>
      if has_char slash s then
        match split_last (split_key s) with
        | None => (Err AssertionError, h)                     (* 81 *)
        | Some (pre, last) =>
            match walk h self pre with                        (* 83-85 *)
            | Err e => (Err e, h)
            | Ok v => store h v last w                        (* 86 *)
            end
        end
      else store h self s w                                   (* 76-78 *)
  end.

(** data_dict.py:88-112 [__delitem__]. *)
Fixpoint delitem (h : heap) (self : value) (k : key) {struct k} : result unit * heap :=
  match k with
  | KTup ks =>
      (fix go (h : heap) (ks : list key) : result unit * heap :=
         match ks with
         | [] => (Ok tt, h)
         | k1 :: ks' =>
             match delitem h self k1 with                     (* 98-99 *)
             | (Ok _, h') => go h' ks'
             | (Err e, h') => (Err e, h')
             end
         end) h ks
  | KOther => (Err TypeError, h)
  | KStr s =>
      if has_char slash s then
        match split_last (split_key s) with
        | None => (Err AssertionError, h)                     (* 107 *)
        | Some (pre, last) =>
            match walk h self pre with                        (* 109-111 *)
            | Err e => (Err e, h)
            | Ok v => remove h v last                         (* 112 *)
            end
        end
      else remove h self s                                    (* 102-104 *)
  end.

(** data_dict.py:122-124 [__contains__] (a str key), 114-118 [__iter__], [__len__]. *)
Definition contains (h : heap) (self : value) (k : string) : bool :=
  match dict_of h self with Some d => od_mem String.eqb (entries h d) k | None => false end.
(** data_dict.py:114-115 [__iter__], 126-127 [keys]. *)
Definition keys_of (h : heap) (self : value) : list string :=
  match dict_of h self with Some d => od_keys (entries h d) | None => [] end.

(** data_dict.py:22-28 [__init__]: a fresh dict with the items of the given mapping. *)
Definition new (h : heap) (init : option value) : result value * heap :=
  let mk e := (Ok (VRef (S (List.length h))), h ++ [Dict e; DD (List.length h)])%list in
  match init with
  | None => mk []
  | Some v => match dict_of h v with
              | None => (Err AssertionError, h)               (* 27 *)
              | Some d => mk (od_update String.eqb [] (entries h d))   (* 28 *)
              end
  end.

(** data_dict.py:171-172 [copy]: DataDict(self._dict). *)
Definition copy (h : heap) (self : value) : result value * heap := new h (Some self).

(** data_dict.py:135-139 [update]. *)
Definition update (h : heap) (self other : value) : result unit * heap :=
  match dict_of h other with
  | None => (Err AssertionError, h)                           (* 137 *)
  | Some o => match dict_of h self with
              | None => (Err TypeError, h)
              | Some d => (Ok tt, set_entries h d
                             (od_update String.eqb (entries h d) (entries h o)))   (* 139 *)
              end
  end.

(** data_dict.py:146-151 [__ior__]: update, returns self. *)
Definition ior (h : heap) (self other : value) : result value * heap :=
  match update h self other with
  | (Ok _, h') => (Ok self, h')
  | (Err e, h') => (Err e, h')
  end.

(** data_dict.py:153-157 [__or__]. *)
Definition or_ (h : heap) (self other : value) : result value * heap :=
  match copy h self with
  | (Ok out, h') => ior h' out other
  | (Err e, h') => (Err e, h')
  end.

(** data_dict.py:141-142 [clear]. *)
Definition clear (h : heap) (self : value) : result unit * heap :=
  match dict_of h self with
  | Some d => (Ok tt, set_entries h d [])
  | None => (Err TypeError, h)
  end.

(** data_dict.py:10 (class DataDict(MutableMapping)): Mixin methods inherited from collections.abc.MutableMapping (not overridden by DataDict):
    get: [try: self[key] except KeyError: default]; pop: read then delete; setdefault; popitem takes
    the first key (as the mixin does) and deletes it through [self[...]]. *)
Definition mget (h : heap) (self : value) (k : key) (default : value) : result value :=
  match getitem h self k with
  | Err KeyError => Ok default
  | r => r
  end.
(** data_dict.py:10, MutableMapping.pop. *)
Definition pop (h : heap) (self : value) (k : key) : result value * heap :=
  match getitem h self k with
  | Err e => (Err e, h)
  | Ok v => match delitem h self k with
            | (Ok _, h') => (Ok v, h')
            | (Err e, h') => (Err e, h')
            end
  end.
(** data_dict.py:10, MutableMapping.setdefault. *)
Definition setdefault (h : heap) (self : value) (k : key) (default : value) : result value * heap :=
  match getitem h self k with
  | Err KeyError => match setitem h self k default with
                    | (Ok _, h') => (Ok default, h')
                    | (Err e, h') => (Err e, h')
                    end
  | r => (r, h)
  end.
(** data_dict.py:10, MutableMapping.popitem. *)
Definition popitem (h : heap) (self : value) : result (string * value) * heap :=
  match keys_of h self with
  | [] => (Err KeyError, h)
  | k :: _ => match pop h self (KStr k) with
              | (Ok v, h') => (Ok (k, v), h')
              | (Err e, h') => (Err e, h')
              end
  end.

(** A program using DataDicts: the public mutating operations in any order.  [OGetDict] hands out
    [get_dict()] (data_dict.py:168-169). *)
Inductive op :=
| OpNewDict (e : list (string * value))      (* a dict literal made by the caller *)
| OpNew (init : option value)
| OpSet (self : value) (k : key) (w : value)
| OpDel (self : value) (k : key)
| OpUpdate (self other : value)
| OpIor (self other : value)
| OpOr (self other : value)
| OpCopy (self : value)
| OpClear (self : value)
| OpPop (self : value) (k : key)
| OpSetDefault (self : value) (k : key) (w : value)
| OpPopItem (self : value).

(** data_dict.py:22-172, one public operation. *)
Definition step (h : heap) (o : op) : heap :=
  match o with
  | OpNewDict e => (h ++ [Dict (od_update String.eqb [] e)])%list
  | OpNew i => snd (new h i)
  | OpSet s k w => snd (setitem h s k w)
  | OpDel s k => snd (delitem h s k)
  | OpUpdate s o => snd (update h s o)
  | OpIor s o => snd (ior h s o)
  | OpOr s o => snd (or_ h s o)
  | OpCopy s => snd (copy h s)
  | OpClear s => snd (clear h s)
  | OpPop s k => snd (pop h s k)
  | OpSetDefault s k w => snd (setdefault h s k w)
  | OpPopItem s => snd (popitem h s)
  end.

(** data_dict.py:22-172, a whole history. *)
Definition run (ops : list op) : heap := fold_left step ops [].
