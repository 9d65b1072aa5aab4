(** Model of /repo/src/pyhipp/astro/cosmology/param.py (Param, ParamList) with HasValue from /repo/src/pyhipp/core/abc.py:119-126.

    Parameters are objects (mutable values), so they live in a store and lists hold references.  Arrays have at most one
    dimension; elements are rationals, arrays of integers truncate what is assigned to them, as numpy does. *)
From Coq Require Import QArith Qround.
From Verif Require Import Base.
Local Open Scope list_scope. Local Open Scope nat_scope.

(** core/abc.py:120-126, np.array(value): a number or a sequence, of ints or floats. *)
Inductive arr := Scalar (is_int : bool) (x : Q) | Vector (is_int : bool) (xs : list Q).
(** core/abc.py:125-126: Conversion of an assigned number to the element type: C truncation for integer arrays. *)
Definition trunc (x : Q) : Q := inject_Z (if Qle_bool 0 x then Qfloor x else Qceiling x).
(** core/abc.py:125-126, assignment into the array. *)
Definition cast (is_int : bool) (x : Q) : Q := if is_int then trunc x else x.
(** abc.py:125-126 set_value: [value[...] = v], with numpy's broadcasting. *)
Definition set_value (a v : arr) : result arr :=
  match a, v with
  | Scalar t _, Scalar _ x => Ok (Scalar t (cast t x))
  | Scalar t _, Vector _ [x] => Ok (Scalar t (cast t x))
  | Scalar _ _, Vector _ _ => Err ValueError
  | Vector t xs, Scalar _ x => Ok (Vector t (map (fun _ => cast t x) xs))
  | Vector t xs, Vector _ [x] => Ok (Vector t (map (fun _ => cast t x) xs))
  | Vector t xs, Vector _ ys => if Nat.eqb (length ys) (length xs) then Ok (Vector t (map (cast t) ys)) else Err ValueError
  end.

(** param.py:5-13 Param; abc.py:80-87 HasName: a missing name is the class name. *)
Record param := { p_name : string; p_value : arr }.
(** param.py:6-7. *)
Definition new_param (value : arr) (name : option string) : param :=
  {| p_name := match name with Some n => n | None => "Param"%string end; p_value := value |}.
(** All Param objects (param.py:5-13). *)
Definition pstore := list param.
(** A reference to one (param.py:15-50). *)
Definition pref := nat.

(** param.py:15-24 ParamList: the references and the name table. *)
Record plist := { refs : list pref; table : list (string * Z) }.
(** core/abc.py:80-87. *)
Definition name_of (h : pstore) (r : pref) : string := match nth_error h r with Some p => p_name p | None => EmptyString end.
(** param.py:16-23, enumerate. *)
Fixpoint number {A} (i : Z) (l : list A) : list (Z * A) := match l with [] => [] | a :: l' => (i, a) :: number (i + 1)%Z l' end.
(** param.py:16-23 [__init__]. *)
Definition new_plist (h : pstore) (rs : list pref) : plist :=
  {| refs := rs; table := od_update String.eqb [] (map (fun ir => (name_of h (snd ir), fst ir)) (number 0%Z rs)) |}.

(** param.py:25-32: A subscript: a Python int (or bool), any other hashable that is a str, or something else hashable (numpy integers included). *)
Inductive pkey := PInt (z : Z) | PStr (s : string) | POther.
(** param.py:25-32: Position in a list of length n that a Python index denotes. *)
Definition position (n : nat) (z : Z) : option nat :=
  if Z.leb 0 z then (if Z.ltb z (Z.of_nat n) then Some (Z.to_nat z) else None)
  else (if Z.leb 0 (Z.of_nat n + z) then Some (Z.to_nat (Z.of_nat n + z)) else None).
(** param.py:25-28, a list subscript. *)
Definition list_get (l : list pref) (z : Z) : result pref :=
  match position (length l) z with Some i => match nth_error l i with Some r => Ok r | None => Err IndexError end | None => Err IndexError end.
(** param.py:25-28 __getitem__ *)
Definition pget (pl : plist) (k : pkey) : result pref :=
  match k with
  | PInt z => list_get (refs pl) z
  | PStr s => match od_get String.eqb (table pl) s with Some z => list_get (refs pl) z | None => Err KeyError end
  | POther => Err KeyError
  end.
(** param.py:30-32 __setitem__; a str subscript raises TypeError in the list assignment, numpy integers ([PInt] here) work. *)
Definition pset (h : pstore) (pl : plist) (k : pkey) (r : pref) : result plist :=
  match k with
  | PInt z => match position (length (refs pl)) z with
              | Some i => Ok {| refs := upd_nth (refs pl) i r; table := od_set String.eqb (table pl) (name_of h r) z |}
              | None => Err IndexError
              end
  | _ => Err TypeError
  end.
(** param.py:34-39 __len__, values *)
Definition plen (pl : plist) : nat := length (refs pl).
(** param.py:37-39. *)
Definition value_of (h : pstore) (r : pref) : arr := match nth_error h r with Some p => p_value p | None => Scalar false 0%Q end.
(** param.py:37-39 [values]. *)
Definition pvalues (h : pstore) (pl : plist) : list arr := map (value_of h) (refs pl).
(** param.py:41-44: set_values: what it did to the store until it ended or raised. *)
Definition store_value (h : pstore) (r : pref) (v : arr) : result pstore :=
  match nth_error h r with
  | Some p => bind (set_value (p_value p) v) (fun a => Ok (upd_nth h r {| p_name := p_name p; p_value := a |}))
  | None => Err AttributeError
  end.
(** param.py:41-44, the loop. *)
Fixpoint set_each (h : pstore) (rs : list pref) (vs : list arr) : result unit * pstore :=
  match rs, vs with
  | [], _ => (Ok tt, h)
  | r :: rs', v :: vs' => match store_value h r v with Ok h' => set_each h' rs' vs' | Err e => (Err e, h) end
  | _ :: _, [] => (Err IndexError, h)
  end.
(** param.py:41-44. *)
Definition set_values (h : pstore) (pl : plist) (vs : list arr) : result unit * pstore :=
  if Nat.eqb (length vs) (plen pl) then set_each h (refs pl) vs else (Err AssertionError, h).
(** param.py:49-50: to_simple_repr: names and values in order. *)
Definition prepr (h : pstore) (pl : plist) : list (string * arr) := map (fun r => (name_of h r, value_of h r)) (refs pl).

(** param.py:16-32: A history: a constructor call and assignments that succeed or raise. *)
Definition pstep (h : pstore) (pl : plist) (op : pkey * pref) : plist := match pset h pl (fst op) (snd op) with Ok pl' => pl' | Err _ => pl end.
(** param.py:16-32, a history. *)
Definition phistory (h : pstore) (rs : list pref) (ops : list (pkey * pref)) : plist := fold_left (pstep h) ops (new_plist h rs).
