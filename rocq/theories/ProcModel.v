(** Model of /repo/src/pyhipp/core/dataproc/{iter,data_structs,mask,num,filter,frame}.py (except the trigonometric
    parts of frame.py and num.py, see FrameModel.v).  Integers are Z (no int64 overflow), reals are rationals plus
    the special values of BinSpec.num; arrays are one-dimensional lists. *)
From Coq Require Import QArith.
From Verif Require Import Base OrderSpec BinSpec DataTableModel.
Local Open Scope list_scope. Local Open Scope nat_scope.

(** ** iter.py *)
(** iter.py:9-15 Chunks.ranges_by_sizes, the yielded pairs. *)
Fixpoint ranges_from (b : Z) (sizes : list Z) : list (Z * Z) :=
  match sizes with [] => [] | s :: sizes' => (b, b + s)%Z :: ranges_from (b + s)%Z sizes' end.
(** iter.py:9-15. *)
Definition ranges_by_sizes := ranges_from 0%Z.
(** iter.py:17-27: Python's seq[b:e]. *)
Definition pyslice {A} (l : list A) (b e : Z) : list A :=
  let n := Z.of_nat (length l) in
  let norm i := Z.to_nat (Z.min n (Z.max 0 (if (i <? 0)%Z then i + n else i)))%Z in
  firstn (norm e - norm b) (skipn (norm b) l).
(** iter.py:17-27 Chunks.slices_by_sizes, the yielded values, one tuple component per sequence (for a single
    sequence the 1-tuple stands for the bare slice).  As a generator it raises at the first [next]. *)
Definition slices_by_sizes {A} (sizes : list Z) (seqs : list (list A)) : result (list (list (list A))) :=
  match seqs with
  | [] => Err AssertionError
  | _ => Ok (map (fun '(b, e) => map (fun s => pyslice s b e) seqs) (ranges_by_sizes sizes))
  end.

(** ** data_structs.py *)
(** data_structs.py:9-15 Dict.combine_dicts. *)
Definition combine_dicts {V} (ds : list (option (odict string V))) (items : odict string V) : odict string V :=
  od_update String.eqb (fold_left (fun out d => match d with Some d => od_update String.eqb out d | None => out end) ds []) items.
(** data_structs.py:51-62 Array.count_to_offset; 64-67 count_to_offset_pairs. *)
Fixpoint cumsum_from (acc : Z) (l : list Z) : list Z := match l with [] => [] | a :: l' => (acc + a)%Z :: cumsum_from (acc + a)%Z l' end.
(** data_structs.py:50-62. *)
Definition count_to_offset (count : list Z) (has_end : bool) : list Z :=
  let off := 0%Z :: cumsum_from 0%Z count in if has_end then off else removelast off.
(** data_structs.py:64-67. *)
Definition count_to_offset_pairs (count : list Z) : list (Z * Z) :=
  let off := count_to_offset count true in combine (removelast off) (tl off).
(** data_structs.py:24-47 Array.as_array: [None] stays None; the Boolean tells whether the result shares memory. *)
Definition as_array {A} (args : list (option A)) (copy : bool) : result (list (option (A * bool))) :=
  match args with [] => Err AssertionError | _ => Ok (map (option_map (fun a => (a, negb copy))) args) end.

(** ** mask.py *)
(** mask.py:5-10 Mask.put = np.putmask(x_dst, mask, x_src): numpy demands equal sizes of mask and destination, cycles
    through the values by position and does nothing when there is no value. *)
Definition mask_put {A} (dst src : list A) (mask : list bool) : result (list A) :=
  if negb (Nat.eqb (length mask) (length dst)) then Err ValueError
  else Ok (map (fun '(i, (d, m)) => if (m : bool) then nth (i mod length src) src d else d)
               (combine (seq 0 (length dst)) (combine dst mask))).
(** mask.py:12-23 Mask.zip = np.select; the default of np.select is 0.  All inputs have the length of the first mask
    (numpy's broadcasting of length-1 inputs is not modelled). *)
Fixpoint first_true {A} (i : nat) (masks : list (list bool)) (arrays : list (list A)) (default : A) : A :=
  match masks, arrays with
  | m :: masks', a :: arrays' => if nth i m false then nth i a default else first_true i masks' arrays' default
  | _, _ => default
  end.
(** mask.py:12-23. *)
Definition mask_zip (masks : list (list bool)) (arrays : list (list Q)) (default : option Q) : result (list Q) :=
  match masks with
  | [] => Err ValueError
  | m0 :: _ =>
      if negb (Nat.eqb (length masks) (length arrays)) then Err ValueError
      else if forallb (fun m => Nat.eqb (length m) (length m0)) masks && forallb (fun a => Nat.eqb (length a) (length m0)) arrays
      then Ok (map (fun i => first_true i masks arrays (match default with Some d => d | None => 0%Q end)) (seq 0 (length m0)))
      else Err ValueError
  end.
(** mask.py:25-29 bool_to_idx; 31-39 idx_to_bool. *)
Definition bool_to_idx (l : list bool) : list nat := true_positions 0 l.
(** mask.py:31-39, mask[idx] = True. *)
Fixpoint set_all (l : list bool) (is : list nat) : list bool := match is with [] => l | i :: is' => set_all (upd_nth l i true) is' end.
(** mask.py:31-39. *)
Definition idx_to_bool (n : nat) (idx : list Z) : result (list bool) :=
  rmap (set_all (repeat false n)) (mapM (norm_index n) idx).
(** mask.py:48-50 on_array; 52-63 on_arrays; 41-46 on_dict (values only; sharing is modelled in DataTableModel). *)
Definition on_array {A} (s : sel) (d : A) (a : list A) : result (list A) :=
  rmap (map (fun p => nth p a d)) (sel_rows (length a) s).
(** mask.py:52-63. *)
Definition on_arrays {A} (s : sel) (d : A) (l : list (list A)) : result (list (list A)) := mapM (on_array s d) l.
(** mask.py:41-46. *)
Definition on_dict {A} (s : sel) (d : A) (items : list (string * list A)) : result (list (string * list A)) :=
  mapM (fun kv => rmap (pair (fst kv)) (on_array s d (snd kv))) items.

(** ** num.py *)
(** num.py:4-42, filter.py:28-37: IEEE comparison: false when either side is NaN. *)
Definition nlt (a b : num) : bool :=
  match a, b with
  | NaN, _ => false | _, NaN => false
  | _, NInf => false | NInf, _ => true
  | PInf, _ => false | _, PInf => true
  | Fin p, Fin q => Qltb p q
  end.
(** num.py:4-42, filter.py:28-37: <=. *)
Definition nle (a b : num) : bool := match a, b with NaN, _ => false | _, NaN => false | _, _ => negb (nlt b a) end.
(** num.py:16-25 bound_scalar: Python's max(x, lo), min(x, hi). *)
Definition bound_scalar (lo hi : option num) (x : num) : num :=
  let x := match lo with Some lo => if nlt x lo then lo else x | None => x end in
  match hi with Some hi => if nlt hi x then hi else x | None => x end.
(** num.py:27-42 bound_array: the result and the caller's array afterwards. *)
Definition bound_array (lo hi : option num) (copy : bool) (x : list num) : list num * list num :=
  let x1 := match lo with Some lo => map (fun v => if nlt v lo then lo else v) x | None => x end in
  let x2 := match hi with Some hi => map (fun v => if nlt hi v then hi else v) x1 | None => x1 end in
  (x2, if copy then x else x2).
(** num.py:44-46 safe_div on scalars: the divisor. *)
Definition safe_divisor (lo y : num) : num := bound_scalar (Some lo) None y.

(** ** filter.py:21-36 Range *)
(** filter.py:21-36, as above. *)
Definition range_mask (min max : option num) (x : num) : bool :=
  (match min with Some m => nle m x | None => true end) && (match max with Some m => nlt x m | None => true end).
(** filter.py:21-37 with 7-16. *)
Definition range_filter (min max : option num) (x : list num) : list num :=
  map fst (filter snd (combine x (map (range_mask min max) x))).

(** ** frame.py:48-87 PeriodicBox, over any arithmetic: instantiated below with exact rationals and in ProcFloat.v
    with IEEE binary64. *)
(** frame.py:48-87, as above. *)
Definition combine_mask (m : list bool) (where_ : option (list bool)) : list bool :=
  match where_ with None => m | Some w => map (fun '(a, b) => a && b) (combine m w) end.
(** frame.py:49-76, x[mask] op= value. *)
Definition masked_map {A} (f : A -> A) (m : list bool) (x : list A) : list A :=
  map (fun '(v, b) => if (b : bool) then f v else v) (combine x m).
(** frame.py:48-87, the arithmetic used, so that it can be exact or rounded. *)
Record arith (T : Type) := { a_zero : T; a_add : T -> T -> T; a_sub : T -> T -> T; a_half : T -> T; a_opp : T -> T; a_lt : T -> T -> bool; a_le : T -> T -> bool }.
Arguments a_zero {T}. Arguments a_add {T}. Arguments a_sub {T}. Arguments a_half {T}. Arguments a_opp {T}. Arguments a_lt {T}. Arguments a_le {T}.
(** frame.py:48-87, exact arithmetic. *)
Definition arithQ : arith Q :=
  {| a_zero := 0%Q; a_add := Qplus; a_sub := Qminus; a_half := fun l => ((1 # 2) * l)%Q; a_opp := Qopp; a_lt := Qltb; a_le := Qle_bool |}.
(** frame.py:49-60 shift_in; the second component is the caller's array afterwards. *)
Definition shift_in {T} (A : arith T) (l_box : T) (where_ : option (list bool)) (copy : bool) (x : list T) : list T * list T :=
  let x1 := masked_map (fun v => a_add A v l_box) (combine_mask (map (fun v => a_lt A v (a_zero A)) x) where_) x in
  let x2 := masked_map (fun v => a_sub A v l_box) (combine_mask (map (fun v => a_le A l_box v) x1) where_) x1 in
  (x2, if copy then x else x2).
(** frame.py:62-76 shift_to: both masks are taken from the original difference.  [x_ref] has
    the length of [x] (a scalar reference is repeated). *)
Definition shift_to {T} (A : arith T) (x_ref : list T) (l_box : T) (where_ : option (list bool)) (copy : bool) (x : list T) : list T * list T :=
  let l_half := a_half A l_box in
  let dx := map (fun '(v, r) => a_sub A v r) (combine x x_ref) in
  let x1 := masked_map (fun v => a_add A v l_box) (combine_mask (map (fun d => a_lt A d (a_opp A l_half)) dx) where_) x in
  let x2 := masked_map (fun v => a_sub A v l_box) (combine_mask (map (fun d => a_le A l_half d) dx) where_) x1 in
  (x2, if copy then x else x2).
(** frame.py:78-83 test_bound. *)
Definition test_bound {T} (A : arith T) (l_box : T) (where_ : option (list bool)) (x : list T) : bool :=
  let x := match where_ with None => x | Some w => map fst (filter snd (combine x w)) end in
  forallb (fun v => a_le A (a_zero A) v && a_lt A v l_box) x.
