(** Model of /repo/src/pyhipp/stats/density_estimation.py: the histogram estimator.
    Coordinates are rationals, infinities or NaN; grid locations and weights are finite; arithmetic is exact (ReduModel.ndiv
    is numpy's division).  An n-dimensional array is a function of its multi-index together with the grid that gives its
    shape (C order and np.ravel_multi_index do not show). *)
From Coq Require Import QArith.
From Verif Require Import Base OrderSpec BinSpec BinModel ReduModel DensSpec.
Local Open Scope list_scope. Local Open Scope nat_scope.

(** density_estimation.py:13-19 _cvt_x_shape: number of columns and rows; a 1-D array is one column. *)
Definition points (x : arr num) : nat * list (list num) :=
  match x with A1 l => (1, map (fun a => [a]) l) | A2 c rows => (c, rows) end.
(** Equality of floats (numpy; density_estimation.py:34-41). *)
Definition num_eqb (a b : num) : bool :=
  match a, b with Fin p, Fin q => Qeq_bool p q | PInf, PInf => true | NInf, NInf => true | _, _ => false end.
(** density_estimation.py:34-41: np.histogramdd with explicit edges, one coordinate: the index in the array padded with the outliers; a sample on the
    last edge is moved into the last bin. *)
Definition bin_count (e : list Q) (x : num) : nat :=
  let n := searchsorted_right np_lt (map Fin e) x in if num_eqb x (Fin (last e 0%Q)) then n - 1 else n.
(** density_estimation.py:34-41: np.bincount of the flattened indices: add a weight at a multi-index. *)
Definition bump (h : list nat -> Q) (idx : list nat) (w : Q) : list nat -> Q :=
  fun j => if list_eq_dec Nat.eq_dec j idx then (h j + w)%Q else h j.
(** density_estimation.py:34-41, the whole sample. *)
Definition bincount (gs : list (list Q)) (s : list (list num * Q)) : list nat -> Q :=
  fold_left (fun h p => bump h (zipwith bin_count gs (fst p)) (snd p)) s (fun _ => 0%Q).
(** density_estimation.py:34-41: Division by the bin widths, one axis after the other. *)
Fixpoint over_widths (gs : list (list Q)) (idx : list nat) (v : num) : num :=
  match gs, idx with g :: gs', i :: idx' => over_widths gs' idx' (ndiv v (Fin (width g i))) | _, _ => v end.
(** density_estimation.py:34-41 np.histogramdd. *)
Definition histogramdd (gs : list (list Q)) (density : bool) (x : list (list num)) (w : option (list Q)) : result (list nat -> num) :=
  let ws := match w with Some w => w | None => repeat 1%Q (length x) end in
  if negb (Nat.eqb (length ws) (length x)) then Err ValueError
  else
    let h := bincount gs (combine x ws) in
    let core := fun idx => h (map S idx) in
    let s := Qsum (map core (cells gs)) in
    Ok (fun idx => if density then ndiv (over_widths gs idx (Fin (core idx))) (Fin s) else Fin (core idx)).

(** density_estimation.py:23-43 _Histogram.__init__ and fit: the fitted array. *)
Definition fit (gs : list (list Q)) (density : bool) (x : arr num) (w : option (list Q)) : result (list nat -> num) :=
  let '(c, rows) := points x in
  if Nat.eqb c (length gs) then histogramdd gs density rows w else Err AssertionError.
(** density_estimation.py:45-64 __call__, one query point, for as many coordinates as the grid has dimensions (GridMd.locate zips, so further
    coordinates are ignored; with fewer, numpy returns sub-arrays: not modelled).  An axis with a single location has no
    bins: the clipped index -1 is out of bounds. *)
Definition is_out (gs : list (list Q)) (x : list num) : bool :=
  existsb (fun b => b) (zipwith (fun id g => ((id <? 0) || (id >=? Z.of_nat (length g) - 1))%Z) (md_locate gs x) gs).
(** density_estimation.py:49-58. *)
Definition clipped_ids (gs : list (list Q)) (x : list num) : list Z :=
  zipwith (fun id g => zclip 0 (Z.of_nat (length (g : list Q)) - 2) id) (md_locate gs x) gs.
(** density_estimation.py:45-64, one point. *)
Definition eval1 (gs : list (list Q)) (h : list nat -> num) (fill : num) (x : list num) : result num :=
  if forallb (fun id => (0 <=? id)%Z) (clipped_ids gs x)
  then Ok (if is_out gs x then fill else h (map Z.to_nat (clipped_ids gs x)))
  else Err IndexError.
(** density_estimation.py:45-64 [__call__]. *)
Definition eval (gs : list (list Q)) (h : list nat -> num) (fill : num) (x : arr num) : result (list num) :=
  mapM (eval1 gs h fill) (snd (points x)).
(** density_estimation.py:185-231 DensityEstimationND.by_histogram, the 'h' entry; [locs] are what the GridMd is built from. *)
Definition by_histogram (locs : list (list Q)) (density : bool) (x : arr num) (w : option (list Q)) (x_pred : arr num) (fill : num) : result (list num) :=
  bind (gridmd locs) (fun gs => bind (fit gs density x w) (fun h => eval gs h fill x_pred)).
