(** Model of /repo/src/pyhipp/core/containers/data_table.py (class DataTable) over a store of numpy
    buffers.

    A numpy array is a view: a buffer and the positions of its rows in it, so sharing is explicit.
    Simplifications: a column is a sequence of rows and a row is one opaque element (so M-D columns are
    covered as long as the trailing shapes agree); [np.array(v, copy=c)] is given ndarrays (a list or a
    scalar would always be copied); column keys are strings. *)
From Verif Require Import Base.

(** One row of a column (data_table.py:27-56). *)
Definition row := Z.
(** data_table.py:55, an ndarray as a view: a buffer and the positions of its rows in it. *)
Record arr := { buf : nat; idx : list nat }.
(** data_table.py:55, the memory of all arrays. *)
Definition bufs := list (list row).

(** data_table.py:58-66, the contents of an array. *)
Definition rd (b : bufs) (a : arr) : list row :=
  map (fun i => nth i (nth (buf a) b []) 0%Z) (idx a).

(** What numpy guarantees of a view (data_table.py:55). *)
Definition arr_ok (b : bufs) (a : arr) : Prop :=
  buf a < length b /\ forall i, In i (idx a) -> i < length (nth (buf a) b []).

(** data_table.py:58-66 (a write through the array handed out): In-place element assignment [a[i] = x] (0 <= i < len(a)). *)
Definition wr (b : bufs) (a : arr) (i : nat) (x : row) : bufs :=
  match nth_error (idx a) i with
  | Some p => upd_nth b (buf a) (upd_nth (nth (buf a) b []) p x)
  | None => b
  end.

(** data_table.py:55, 77, 84: Allocation of a fresh contiguous array. *)
Definition alloc (b : bufs) (r : list row) : arr * bufs :=
  ({| buf := length b; idx := seq 0 (length r) |}, b ++ [r]).

(** [np.array(v, copy=copy)] (data_table.py:55, 77, 84, 130, 179). *)
Definition np_array (b : bufs) (cp : bool) (a : arr) : arr * bufs :=
  if cp then alloc b (rd b a) else (a, b).

(** ** Row selections: what [v[args]] does (data_table.py:241). *)
(** data_table.py:241, as above. *)
Inductive sel :=
| SSlice (start stop step : option Z)
| SIdx (l : list Z)
| SMask (l : list bool).

(** data_table.py:241: Python's slice.indices(n). *)
Definition clip (lo hi x : Z) : Z := Z.max lo (Z.min hi x).
(** data_table.py:241, slice.indices. *)
Definition slice_indices (n : Z) (start stop step : option Z) : result (Z * Z * Z) :=
  let st := match step with None => 1%Z | Some s => s end in
  if (st =? 0)%Z then Err ValueError
  else
    let norm x lo hi := clip lo hi (if (x <? 0)%Z then (x + n)%Z else x) in
    if (0 <? st)%Z then
      Ok (match start with None => 0%Z | Some x => norm x 0%Z n end,
          match stop with None => n | Some x => norm x 0%Z n end, st)
    else
      Ok (match start with None => (n - 1)%Z | Some x => norm x (-1)%Z (n - 1)%Z end,
          match stop with None => (-1)%Z | Some x => norm x (-1)%Z (n - 1)%Z end, st).

(** data_table.py:241: range(start, stop, step) *)
Definition py_range (start stop step : Z) : list Z :=
  let count := if (0 <? step)%Z then ((stop - start + step - 1) / step)%Z
               else ((start - stop - step - 1) / (- step))%Z in
  map (fun i => (start + Z.of_nat i * step)%Z) (seq 0 (Z.to_nat count)).

(** data_table.py:241, a negative index counts from the end. *)
Definition norm_index (n : nat) (i : Z) : result nat :=
  let z := if (i <? 0)%Z then (i + Z.of_nat n)%Z else i in
  if ((0 <=? z) && (z <? Z.of_nat n))%Z%bool then Ok (Z.to_nat z) else Err IndexError.

(** data_table.py:241, the positions a boolean mask selects. *)
Fixpoint true_positions (from : nat) (l : list bool) : list nat :=
  match l with
  | [] => []
  | b :: l' => if b then from :: true_positions (S from) l' else true_positions (S from) l'
  end.

(** data_table.py:235-242: The row numbers selected out of [n] rows. *)
Definition sel_rows (n : nat) (s : sel) : result (list nat) :=
  match s with
  | SSlice a o st =>
      bind (slice_indices (Z.of_nat n) a o st)
           (fun '(x, y, z) => Ok (map Z.to_nat (py_range x y z)))
  | SIdx l => mapM (norm_index n) l
  | SMask l => if Nat.eqb (length l) n then Ok (true_positions 0 l) else Err IndexError
  end.

(** data_table.py:241: [v[args]]: basic slicing gives a view, fancy indexing a fresh array. *)
Definition subarr (b : bufs) (a : arr) (s : sel) : result (arr * bufs) :=
  bind (sel_rows (length (idx a)) s) (fun ps =>
    match s with
    | SSlice _ _ _ => Ok ({| buf := buf a; idx := map (fun p => nth p (idx a) 0) ps |}, b)
    | _ => Ok (alloc b (map (fun p => nth p (rd b a) 0%Z) ps))
    end).

(** ** Tables *)
(** data_table.py:54. *)
Definition table := list (string * arr).       (* self._data, an OrderedDict (54) *)
Notation tget := (od_get String.eqb).
Notation tset := (od_set String.eqb).
Notation tupd := (od_update String.eqb).

(** The dict comprehension [{k: np.array(v, copy=copy) for k, v in data.items()}] (data_table.py:54-56, 129-131). *)
Fixpoint arrays_of (b : bufs) (cp : bool) (data : list (string * arr)) : list (string * arr) * bufs :=
  match data with
  | [] => ([], b)
  | (k, a) :: data' =>
      let '(a', b1) := np_array b cp a in
      let '(rest, b2) := arrays_of b1 cp data' in
      ((k, a') :: rest, b2)
  end.

(** data_table.py:46-56 [__init__]; [data] is the list of items of the given mapping. *)
Definition dt_new (b : bufs) (data : list (string * arr)) (cp : bool) : table * bufs :=
  let '(items, b') := arrays_of b cp data in (tupd [] items, b').

(** data_table.py:58-66 [__getitem__]: a reference to the stored array. *)
Definition dt_get (t : table) (k : string) : result arr :=
  match tget t k with Some a => Ok a | None => Err KeyError end.
(** data_table.py:63-64, a tuple of names. *)
Definition dt_get_tuple (t : table) (ks : list string) : result (list arr) := mapM (dt_get t) ks.

(** data_table.py:68-84 [__setitem__]: always copies. *)
Definition dt_set (b : bufs) (t : table) (k : string) (a : arr) : table * bufs :=
  let '(a', b') := np_array b true a in (tset t k a', b').
(** data_table.py:72-80, a tuple of names, one after the other. *)
Fixpoint dt_set_go (b : bufs) (t : table) (ks : list string) (vs : list arr) : table * bufs :=
  match ks, vs with
  | k :: ks', v :: vs' => let '(t', b') := dt_set b t k v in dt_set_go b' t' ks' vs'
  | _, _ => (t, b)
  end.
(** data_table.py:68-84, a tuple of names. *)
Definition dt_set_tuple (b : bufs) (t : table) (ks : list string) (vs : list arr)
  : result unit * (table * bufs) :=
  if Nat.eqb (length ks) (length vs) then (Ok tt, dt_set_go b t ks vs)
  else (Err AssertionError, (t, b)).

(** data_table.py:86-107 [__delitem__]. *)
Definition dt_del (t : table) (k : string) : result unit * table :=
  if od_mem String.eqb t k then (Ok tt, od_del String.eqb t k) else (Err KeyError, t).
(** data_table.py:86-107, a tuple of names. *)
Fixpoint dt_del_tuple (t : table) (ks : list string) : result unit * table :=
  match ks with
  | [] => (Ok tt, t)
  | k :: ks' => match dt_del t k with
                | (Ok _, t') => dt_del_tuple t' ks'
                | (Err e, t') => (Err e, t')
                end
  end.

(** data_table.py:109-126: iteration, len, in. *)
Definition dt_keys (t : table) : list string := od_keys t.
(** data_table.py:116-117 [__contains__]. *)
Definition dt_contains (t : table) (k : string) : bool := od_mem String.eqb t k.

(** data_table.py:128-131 [update]: all arrays are made first, then stored. *)
Definition dt_update (b : bufs) (t : table) (other : list (string * arr)) (cp : bool) : table * bufs :=
  let '(items, b') := arrays_of b cp other in (tupd t (tupd [] items), b').
(** data_table.py:147-153 [__ior__], 161-162 [copy], 155-159 [__or__], 133-134 [clear]. *)
Definition dt_ior b t other := dt_update b t other true.
(** data_table.py:161-162 [copy]. *)
Definition dt_copy (b : bufs) (t : table) : table * bufs := dt_new b t true.
(** data_table.py:155-159 [__or__]. *)
Definition dt_or (b : bufs) (t : table) (other : list (string * arr)) : table * bufs :=
  let '(out, b1) := dt_copy b t in dt_ior b1 out other.
(** data_table.py:133-134 [clear]. *)
Definition dt_clear (t : table) : table := [].

(** data_table.py:137-141 [__getattr__]: only consulted when ordinary attribute lookup fails, i.e. for
    names that are not attributes of the class ([cls]). *)
Inductive attr_result := AMethod (name : string) | ACol (a : arr) | AAttributeError.
(** data_table.py:137-141 [__getattr__]. *)
Definition dt_getattr (cls : list string) (t : table) (k : string) : attr_result :=
  if existsb (String.eqb k) cls then AMethod k
  else match dt_get t k with
       | Ok a => ACol a
       | Err _ => AAttributeError
       end.

(** data_table.py:178-179 [to_dict]. *)
Definition dt_to_dict (b : bufs) (t : table) (cp : bool) := dt_new b t cp.

(** data_table.py:190-233 [concat]: np.concatenate allocates, DataTable(...) copies again. *)
Fixpoint concat_cols (b : bufs) (ts : list table) (ks : list string) : result (list (string * arr) * bufs) :=
  match ks with
  | [] => Ok ([], b)
  | k :: ks' =>
      bind (mapM (fun t => dt_get t k) ts) (fun cols =>
        let '(a, b1) := alloc b (List.concat (map (rd b) cols)) in
        bind (concat_cols b1 ts ks') (fun '(rest, b2) => Ok ((k, a) :: rest, b2)))
  end.
(** data_table.py:190-233 [concat]. *)
Definition dt_concat (b : bufs) (t : table) (others : list table) : result (table * bufs) :=
  bind (concat_cols b (t :: others) (dt_keys t)) (fun '(items, b') => Ok (dt_new b' items true)).

(** data_table.py:235-242 [subset], 18-24 [iloc]. *)
Fixpoint sub_cols (b : bufs) (items : list (string * arr)) (s : sel) : result (list (string * arr) * bufs) :=
  match items with
  | [] => Ok ([], b)
  | (k, a) :: items' =>
      bind (subarr b a s) (fun '(a', b1) =>
        bind (sub_cols b1 items' s) (fun '(rest, b2) => Ok ((k, a') :: rest, b2)))
  end.
(** data_table.py:235-242 [subset]. *)
Definition dt_subset (b : bufs) (t : table) (s : sel) (cp : bool) : result (table * bufs) :=
  bind (sub_cols b t s) (fun '(items, b') => Ok (dt_new b' items cp)).

(** data_table.py:244-250 [subcol]: the dict comprehension keeps the first position of a repeated key. *)
Definition dt_subcol (b : bufs) (t : table) (ks : list string) (cp : bool) : result (table * bufs) :=
  bind (mapM (fun k => rmap (pair k) (dt_get t k)) ks) (fun items =>
    Ok (dt_new b (tupd [] items) cp)).

(** data_table.py:68-134: Histories on one table. *)
Inductive top :=
| TSet (k : string) (a : arr) | TSetTuple (ks : list string) (vs : list arr)
| TDel (k : string) | TDelTuple (ks : list string)
| TUpdate (other : list (string * arr)) (cp : bool) | TClear.
(** data_table.py:68-134, one operation. *)
Definition tstep (st : table * bufs) (o : top) : table * bufs :=
  let '(t, b) := st in
  match o with
  | TSet k a => dt_set b t k a
  | TSetTuple ks vs => snd (dt_set_tuple b t ks vs)
  | TDel k => (snd (dt_del t k), b)
  | TDelTuple ks => (snd (dt_del_tuple t ks), b)
  | TUpdate o cp => dt_update b t o cp
  | TClear => (dt_clear t, b)
  end.
