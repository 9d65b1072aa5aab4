(** Model of /repo/src/pyhipp/core/arrays/array.py.  An array is a shape and its elements in C order; elements are exact numbers
    (dtypes other than numbers with an order are outside the model).  np.sort/argsort pick some order among equal elements;
    the model takes the one of an insertion sort and the theorems do not depend on it.  numpy.AxisError is a ValueError. *)
From Coq Require Import QArith.
From Verif Require Import Base OrderSpec BinModel.
Local Open Scope list_scope. Local Open Scope nat_scope.

(** Number of elements of a shape (numpy; array.py:65-67). *)
Definition prod (l : list nat) : nat := fold_right Nat.mul 1 l.
(** core/arrays/array.py:10-25 [Array]: the numpy array behind it, row-major. *)
Record nd := { shape : list nat; data : list Q }.
(** What numpy guarantees of the array of array.py:25. *)
Definition nd_ok (a : nd) : Prop := length (data a) = prod (shape a).
(** array.py:57-59 [n_dims]. *)
Definition n_dims (a : nd) : nat := length (shape a).
(** array.py:65-67 [size]. *)
Definition size (a : nd) : nat := length (data a).
(** array.py:73-74 __len__ *)
Definition len (a : nd) : result nat := match shape a with [] => Err TypeError | n :: _ => Ok n end.

(** array.py:44-50: numpy's normalisation of an axis argument. *)
Definition norm_axis (ndim : nat) (z : Z) : result nat :=
  if Z.leb (- Z.of_nat ndim) z && Z.ltb z (Z.of_nat ndim) then Ok (Z.to_nat (if Z.ltb z 0 then Z.of_nat ndim + z else z)) else Err ValueError.
(** array.py:44-50: The lane along [axis] at outer position o and inner position j, and the flat position of its i-th element. *)
Definition outer (a : nd) (ax : nat) : nat := prod (firstn ax (shape a)).
(** array.py:44-50, the length of the axis. *)
Definition extent (a : nd) (ax : nat) : nat := nth ax (shape a) 0.
(** array.py:44-50, elements after the axis. *)
Definition inner (a : nd) (ax : nat) : nat := prod (skipn (S ax) (shape a)).
(** array.py:44-50, row-major position. *)
Definition flat_index (n inn o i j : nat) : nat := (o * n + i) * inn + j.
(** array.py:44-50, the elements along the axis. *)
Definition lane (a : nd) (ax o j : nat) : list Q :=
  map (fun i => nth (flat_index (extent a ax) (inner a ax) o i j) (data a) 0%Q) (seq 0 (extent a ax)).
(** array.py:44-50: A new array of the same shape whose lanes along [ax] are [f] of the lanes. *)
Definition per_lane (f : list Q -> list Q) (a : nd) (ax : nat) : nd :=
  let n := extent a ax in let inn := inner a ax in
  {| shape := shape a;
     data := map (fun p => nth ((p / inn) mod n) (f (lane a ax (p / inn / n) (p mod inn))) 0%Q) (seq 0 (size a)) |}.
(** array.py:45, np.sort of one lane. *)
Definition sort_q (l : list Q) : list Q := np_sort Qltb l.
(** array.py:50, argsort of one lane. *)
Definition argsort_q (l : list Q) : list Q :=
  map (fun p => inject_Z (Z.of_nat (snd p))) (np_sort (fun a b : Q * nat => Qltb (fst a) (fst b)) (combine l (seq 0 (length l)))).

(** array.py:44-46 sorted *)
Definition sorted (a : nd) (axis : option Z) : result nd :=
  match axis with
  | None => Ok {| shape := [size a]; data := sort_q (data a) |}
  | Some z => rmap (per_lane sort_q a) (norm_axis (n_dims a) z)
  end.
(** array.py:37-42 copied, flatten *)
Definition copied (a : nd) : nd := a.
(** array.py:40-42 [flatten]. *)
Definition flatten (a : nd) : nd := {| shape := [size a]; data := data a |}.

(** The classes (array.py:94-129) and their constructors, called with one positional array (the classmethods do so) or explicitly.
    Python's int(x) of an array needs exactly one element. *)
Inductive cls := CArray | CIntArray | CBoolArray | CShape | CFlatIndex | CIndex.
(** array.py:116, int() of an array: one element only. *)
Definition int_of (a : nd) : result Q := if Nat.eqb (size a) 1 then Ok (nth 0 (data a) 0%Q) else Err TypeError.
(** array.py:52, the size as an array. *)
Definition scalar_nd (z : Z) : nd := {| shape := []; data := [inject_Z z] |}.
(** array.py:110-118 FlatIndexArray(n_indexed, data): first builds the array, then converts n_indexed, then checks. *)
Definition flat_index_array (n_indexed : nd) (d : option nd) : result (Q * nd) :=
  match d with
  | None => Err TypeError
  | Some d => bind (int_of n_indexed) (fun n => if Nat.eqb (n_dims d) 1 then Ok (n, d) else Err AssertionError)
  end.
(** array.py:120-129 IndexArray(shape_indexed, data): [self.shape[-1]] needs a __getitem__ that Shape does not define. *)
Definition index_array (shape_indexed : nd) (d : option nd) : result (nd * nd) :=
  match d with
  | None => Err TypeError
  | Some d => if Nat.eqb (n_dims shape_indexed) 1 then
                if Nat.eqb (n_dims d) 2 then Err TypeError else Err AssertionError
              else Err AssertionError
  end.
(** array.py:15-25, 94-129: cls(array, copy=False) *)
Definition make (c : cls) (a : nd) : result nd :=
  match c with
  | CArray | CIntArray | CBoolArray => Ok a
  | CShape => if Nat.eqb (n_dims a) 1 then Ok a else Err AssertionError
  | CFlatIndex => rmap snd (flat_index_array a None)
  | CIndex => rmap snd (index_array a None)
  end.
(** array.py:48-55 argsort *)
Definition argsort (a : nd) (axis : option Z) : result nd :=
  match axis with
  | None => rmap snd (flat_index_array {| shape := [size a]; data := argsort_q (data a) |} (Some (scalar_nd (Z.of_nat (size a)))))
  | Some z => rmap (per_lane argsort_q a) (norm_axis (n_dims a) z)
  end.
(** array.py:27-35, 85-92 zeros, ones; the shape is one number or a sequence. *)
Inductive shape_arg := SNum (z : Z) | SSeq (l : list Z).
(** array.py:86-88. *)
Definition dims_of (s : shape_arg) : list Z := match s with SNum z => [z] | SSeq l => l end.
(** array.py:27-35 [zeros], [ones]. *)
Definition filled (c : cls) (s : shape_arg) (v : Q) : result nd :=
  if forallb (Z.leb 0) (dims_of s) then
    let sh := map Z.to_nat (dims_of s) in make c {| shape := sh; data := repeat v (prod sh) |}
  else Err ValueError.
(** array.py:27-29 [zeros]. *)
Definition zeros (c : cls) (s : shape_arg) : result nd := filled c s 0%Q.
(** array.py:32-35 [ones]. *)
Definition ones (c : cls) (s : shape_arg) : result nd := filled c s 1%Q.
