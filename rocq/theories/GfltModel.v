(** core/dataproc/grid.py in IEEE double precision (Flocq binary64): Grid1d from explicit locations, from the two kinds of slices np.mgrid takes, and
    GridMd.from_data_range.  numpy's np.diff, np.mgrid (nd_grid.__getitem__), np.arange, np.linspace and np.quantile are modelled by what they compute. *)
From Coq Require Import ZArith Bool List.
Require Import Flocq.Core.Core Flocq.IEEE754.BinarySingleNaN.
From Verif Require Import Base ProcFloat MeshFloatModel FredModel FquaModel.
Import ListNotations. Local Open Scope list_scope.

(** grid.py:21-22 (np.diff(locs) >= 0.).all(). *)
Fixpoint f_rising (l : list b64) : bool :=
  match l with
  | a :: (b :: _) as l' => Bleb (of_Z64 0) (sub64 b a) && f_rising l'
  | _ => true
  end.
(** grid.py:20-24 Grid1d.__init__: the assertion on a one-dimensional array of doubles. *)
Definition f_grid1d (locs : list b64) : result (list b64) :=
  if Nat.leb 1 (length locs) && f_rising locs then Ok locs else Err AssertionError.
(** grid.py:33 0.5*(locs[:-1] + locs[1:]). *)
Definition f_middles (locs : list b64) : list b64 := map (fun p => mul64 half64 (add64 (fst p) (snd p))) (combine locs (tl locs)).
(** grid.py:31-34 Grid1d.centers. *)
Definition f_centers (locs : list b64) : result (list b64) := f_grid1d (f_middles locs).
(** grid.py:41-46 Grid1d.locate of one number: np.searchsorted(locs, x, side='right') - 1 on ascending locations; NaN sorts behind all numbers. *)
Definition f_grid_locate (locs : list b64) (x : b64) : Z :=
  (Z.of_nat (length (filter (fun a => Bleb a x || is_nan x) locs)) - 1)%Z.
(** grid.py:18-19 np.mgrid[start:stop:n*1j]: arange(n)*step + start with step = (stop - start)/(n - 1), or 1 for a single point. *)
Definition f_mgrid_step (start stop : b64) (n : nat) : b64 :=
  if Nat.eqb n 1 then of_Z64 1 else div64 (sub64 stop start) (of_Z64 (Z.of_nat n - 1)).
(** grid.py:18-19, the array. *)
Definition f_mgrid (start stop : b64) (n : nat) : list b64 :=
  map (fun k => add64 (mul64 (of_Z64 (Z.of_nat k)) (f_mgrid_step start stop n)) start) (seq 0 n).
(** grid.py:18-20 Grid1d(slice(start, stop, n*1j)). *)
Definition f_grid_slice (start stop : b64) (n : nat) : result (list b64) := f_grid1d (f_mgrid start stop n).
(** grid.py:18-19 np.mgrid[start:stop:step] = np.arange(start, stop, step): the number of elements, ceil((stop - start)/step) or none. *)
Definition f_arange_len (start stop step : b64) : nat := Z.to_nat (- ffloor (Bopp (div64 (sub64 stop start) step))).
(** grid.py:18-19 np.arange: start, start + step and from there start + i*delta, delta the difference of the first two. *)
Definition f_arange_at (start step : b64) (i : nat) : b64 :=
  match i with
  | O => start
  | 1%nat => add64 start step
  | _ => add64 start (mul64 (of_Z64 (Z.of_nat i)) (sub64 (add64 start step) start))
  end.
(** grid.py:18-19 np.arange, the array. *)
Definition f_arange (start stop step : b64) : list b64 := map (f_arange_at start step) (seq 0 (f_arange_len start stop step)).
(** grid.py:18-20 Grid1d(slice(start, stop, step)). *)
Definition f_grid_range (start stop step : b64) : result (list b64) := f_grid1d (f_arange start stop step).
(** grid.py:92-93 np.linspace(lo, hi, n), before its last element is set to hi. *)
Definition f_lin_at (lo hi : b64) (n : nat) (k : nat) : b64 :=
  let delta := sub64 hi lo in
  let y := of_Z64 (Z.of_nat k) in
  let div := of_Z64 (Z.of_nat n - 1) in
  let step := div64 delta div in
  add64 (if Nat.leb n 1 then mul64 y delta else if Beqb step (of_Z64 0) then mul64 (div64 y div) delta else mul64 y step) lo.
(** grid.py:92-93 np.linspace(lo, hi, n). *)
Definition f_linspace (lo hi : b64) (n : nat) : list b64 :=
  map (fun k => if Nat.leb 2 n && Nat.eqb k (n - 1) then hi else f_lin_at lo hi n k) (seq 0 n).
(** grid.py:91-93 GridMd.from_data_range, one axis: [s] are the samples, smallest first (see FquaModel). *)
Definition f_axis (p_lo p_hi : b64) (s : list b64) (n : nat) : result (list b64) :=
  bind (f_quantile s p_lo) (fun lo => bind (f_quantile s p_hi) (fun hi => Ok (f_linspace lo hi n))).
(** grid.py:78-84 GridMd.__init__ on arrays of doubles. *)
Definition f_gridmd (ls : list (list b64)) : result (list (list b64)) :=
  bind (mapM f_grid1d ls) (fun gs => match gs with [] => Err AssertionError | _ => Ok gs end).
(** grid.py:85-94 GridMd.from_data_range with the list of sizes (a scalar is repeated for every axis, grid.py:88-89); zip drops what has no partner. *)
Definition f_from_data_range (p_lo p_hi : b64) (data : list (list b64)) (n : list nat) : result (list (list b64)) :=
  bind (mapM (fun '(s, n) => f_axis p_lo p_hi s n) (combine data n)) f_gridmd.
