(** Model of /repo/src/pyhipp/stats/preprocessing.py (over the reals) and prob_dist.py (interpolation over the rationals). *)
From Coq Require Import QArith Reals.
From Verif Require Import Base OrderSpec BinModel InterpModel ReduModel.
Local Open Scope list_scope. Local Open Scope nat_scope.

(** ** Standardize *)
(** preprocessing.py:30-41, x.sum(). *)
Fixpoint Rsum (l : list R) : R := match l with [] => 0%R | a :: l' => (a + Rsum l')%R end.
(** preprocessing.py:30-41, x.mean(). *)
Definition rmean (l : list R) : R := (Rsum l / INR (length l))%R.
(** preprocessing.py:30-41: x.std: root of the mean square deviation. *)
Definition rstd (l : list R) : R := sqrt (rmean (map (fun a => ((a - rmean l) * (a - rmean l))%R) l)).
(** preprocessing.py:30-41: Column [j] of a table. *)
Definition col (rows : list (list R)) (j : nat) : list R := map (fun r => nth j r 0%R) rows.
(** preprocessing.py:25-41, the stored mean and standard deviation. *)
Record standardizer := { s_mean : list R; s_sd : list R }.
(** preprocessing.py:30-41 Standardize.__init__; [sd.clip(sd_lb, out=sd)] is the larger of both.  (A training table without rows
    gives NaN in Python and is not modelled: Err RuntimeError.) *)
Definition standardize_init (x_train : arr R) (sd_lb : R) : result standardizer :=
  match x_train with
  | A1 _ => Err AssertionError
  | A2 _ [] => Err RuntimeError
  | A2 c rows => Ok {| s_mean := map (fun j => rmean (col rows j)) (seq 0 c);
                       s_sd := map (fun j => Rmax (rstd (col rows j)) sd_lb) (seq 0 c) |}
  end.
(** preprocessing.py:43-47, element-wise arithmetic. *)
Definition zip3 (f : R -> R -> R -> R) (x m s : list R) : list R := map (fun '(x, (m, s)) => f x m s) (combine x (combine m s)).
(** preprocessing.py:43-44, 46-47, for one row; 14-16 __call__ on a table of rows (broadcasting over the last axis). *)
Definition forward (t : standardizer) (x : list R) : list R := zip3 (fun x m s => ((x - m) / s)%R) x (s_mean t) (s_sd t).
(** preprocessing.py:46-47. *)
Definition backward (t : standardizer) (x : list R) : list R := zip3 (fun x m s => (x * s + m)%R) x (s_mean t) (s_sd t).
(** preprocessing.py:14-16 [__call__], row by row. *)
Definition standardize_call (t : standardizer) (x : list (list R)) (back : bool) : list (list R) :=
  map (if (back : bool) then backward t else forward t) x.

(** ** ProbTransToNorm *)
(** prob_dist.py:11-26: scipy.interpolate.interp1d(xs, ys, kind='slinear') at [q]: piecewise linear, ValueError outside. *)
Definition interp1d (xs ys : list Q) (q : Q) : result Q :=
  match nth_error xs 0, nth_error xs (length xs - 1) with
  | Some x0, Some xn => if Qltb q x0 || Qltb xn q then Err ValueError else bisearch_interp xs ys q
  | _, _ => Err ValueError
  end.
(** prob_dist.py:11-26, np.diff. *)
Fixpoint diffs (l : list Q) : list Q := match l with a :: ((b :: _) as l') => (b - a)%Q :: diffs l' | _ => [] end.
(** prob_dist.py:11-26, the two interpolation tables. *)
Record ptrans := { p_xs : list Q; p_cum : list Q }.
(** prob_dist.py:11-26 __init__; the minimum of an empty array is a ValueError. *)
Definition ptrans_init (xs : list Q) : result ptrans :=
  let s := np_sort Qltb xs in
  match diffs s with
  | [] => Err ValueError
  | ds => if forallb (fun d => Qltb 0 d) ds
          then Ok {| p_xs := s; p_cum := map (fun i => (inject_Z (Z.of_nat i) / inject_Z (Z.of_nat (length xs - 1)))%Q) (seq 0 (length xs)) |}
          else Err AssertionError
  end.
(** prob_dist.py:28-32 forw and 34-38 back with with_norm=False. *)
Definition forw_p (t : ptrans) (x : Q) : result Q := interp1d (p_xs t) (p_cum t) x.
(** prob_dist.py:34-38. *)
Definition back_p (t : ptrans) (y : Q) : result Q := interp1d (p_cum t) (p_xs t) y.
(** prob_dist.py:28-32: With with_norm=True; [cdf] and [ppf] are scipy.stats.norm().cdf and .ppf, whatever they return. *)
Definition forw {Y} (ppf : Q -> Y) (t : ptrans) (x : Q) : result Y := rmap ppf (forw_p t x).
(** prob_dist.py:34-38. *)
Definition back {Y} (cdf : Y -> Q) (t : ptrans) (y : Y) : result Q := back_p t (cdf y).
