(** Model of the conversions of a table to one matrix and to lists, /repo/src/pyhipp/core/containers/data_table.py:181-188 (to_dict_of_list, col_stacked,
    row_stacked).  A column is a numpy array of any dimension given by its shape and its elements in row-major order; the element type is left out (an
    element is an integer), as is the promotion of columns of different types. *)
From Verif Require Import Base.
Local Open Scope list_scope. Local Open Scope nat_scope.

(** data_table.py:53-56: A numpy array. *)
Record nda := { shape : list nat; elems : list Z }.
(** data_table.py:181-188: Number of elements of a shape. *)
Definition size (s : list nat) : nat := fold_right Nat.mul 1 s.
(** data_table.py:181-188: numpy's invariant: as many elements as the shape says. *)
Definition nda_ok (a : nda) : Prop := length (elems a) = size (shape a).
(** A table, data_table.py:54: columns in order. *)
Definition mtable := list (string * nda).

(** data_table.py:184-185: numpy.column_stack makes 1-D arrays columns, (n,) -> (n, 1), and scalars (1, 1); numpy.row_stack (vstack) makes 1-D arrays rows, (n,) -> (1, n). *)
Definition as_column (a : nda) : nda := match shape a with [] => {| shape := [1; 1]; elems := elems a |} | [n] => {| shape := [n; 1]; elems := elems a |} | _ => a end.
(** data_table.py:187-188: numpy.atleast_2d, called by numpy.row_stack *)
Definition as_row (a : nda) : nda := match shape a with [] => {| shape := [1; 1]; elems := elems a |} | [n] => {| shape := [1; n]; elems := elems a |} | _ => a end.

(** data_table.py:184-188: [n] consecutive pieces of [w] elements. *)
Fixpoint chunks (n w : nat) (l : list Z) : list (list Z) := match n with 0 => [] | S n' => firstn w l :: chunks n' w (skipn w l) end.
(** data_table.py:184-188: The sub-arrays a[0], a[1], ... of an array, flattened. *)
Definition rows_of (a : nda) : list (list Z) := match shape a with [] => [] | n :: s => chunks n (size s) (elems a) end.
(** data_table.py:184-188: Same dimensions except axis 0 / except axis 1. *)
Definition list_eqb (a b : list nat) : bool := if list_eq_dec Nat.eq_dec a b then true else false.
(** data_table.py:187-188: numpy.concatenate(arrays, axis=0): all shapes equal but for the first dimension, else ValueError; no array at all: ValueError. *)
Definition concat0 (l : list nda) : result nda :=
  match l with
  | [] => Err ValueError
  | a :: _ => if forallb (fun b => Nat.eqb (length (shape b)) (length (shape a)) && list_eqb (tl (shape b)) (tl (shape a))) l
              then Ok {| shape := list_sum (map (fun b => hd 0 (shape b)) l) :: tl (shape a); elems := List.concat (map elems l) |} else Err ValueError
  end.
(** data_table.py:184-185: numpy.concatenate(arrays, axis=1), for arrays of at least two dimensions. *)
Definition concat1 (l : list nda) : result nda :=
  match l with
  | [] => Err ValueError
  | a :: _ => if forallb (fun b => Nat.eqb (length (shape b)) (length (shape a)) && (Nat.eqb (hd 0 (shape b)) (hd 0 (shape a)) && list_eqb (tl (tl (shape b))) (tl (tl (shape a))))) l
              then Ok {| shape := hd 0 (shape a) :: list_sum (map (fun b => hd 0 (tl (shape b))) l) :: tl (tl (shape a));
                         elems := List.concat (map (fun i => List.concat (map (fun b => nth i (rows_of b) []) l)) (seq 0 (hd 0 (shape a)))) |} else Err ValueError
  end.
(** data_table.py:184-185 col_stacked *)
Definition col_stacked (t : mtable) : result nda := concat1 (map (fun c => as_column (snd c)) t).
(** data_table.py:187-188 row_stacked *)
Definition row_stacked (t : mtable) : result nda := concat0 (map (fun c => as_row (snd c)) t).

(** data_table.py:181-182: Nested python lists. *)
Inductive pylist := PNum (x : Z) | PList (l : list pylist).
(** data_table.py:181-182: ndarray.tolist *)
Fixpoint tolist (s : list nat) (l : list Z) : pylist := match s with [] => PNum (hd 0%Z l) | n :: s' => PList (map (tolist s') (chunks n (size s') l)) end.
(** data_table.py:181-182 to_dict_of_list *)
Definition to_dict_of_list (t : mtable) : list (string * pylist) := map (fun c => (fst c, tolist (shape (snd c)) (elems (snd c)))) t.
(** numpy.array(nested list) (data_table.py:55): ragged lists are a ValueError; the list [[]] has shape (1, 0). *)
Fixpoint np_array (p : pylist) : result nda :=
  match p with
  | PNum x => Ok {| shape := []; elems := [x] |}
  | PList l =>
      bind ((fix go l := match l with [] => Ok [] | x :: l' => bind (np_array x) (fun a => bind (go l') (fun r => Ok (a :: r))) end) l) (fun l' =>
      match l' with
      | [] => Ok {| shape := [0]; elems := [] |}
      | a :: _ => if forallb (fun b => list_eqb (shape b) (shape a)) l' then Ok {| shape := length l' :: shape a; elems := List.concat (map elems l') |} else Err ValueError
      end)
  end.
(** data_table.py:53-56: a table built from a dictionary of lists. *)
Definition mtable_of_lists (d : list (string * pylist)) : result mtable := mapM (fun c => rmap (fun a => (fst c, a)) (np_array (snd c))) d.

(** ** Vocabulary *)
(** data_table.py:184-188: Element [i, j] of a two-dimensional array. *)
Definition entry (a : nda) (i j : nat) : option Z := match shape a with [n; m] => if (i <? n) && (j <? m) then nth_error (elems a) (i * m + j) else None | _ => None end.
(** data_table.py:181-182: The shape a list can remember: up to the first zero. *)
Fixpoint listed_shape (s : list nat) : list nat := match s with [] => [] | 0 :: _ => [0] | n :: s' => n :: listed_shape s' end.
