(** Standardize of /repo/src/pyhipp/stats/preprocessing.py in IEEE-754 binary64, round to nearest even (Flocq).  x.mean(0) and x.std(0) of numpy
    are the sum over n, and the root of the mean of the squared deviations from that mean, as in reduction.py (FredModel); [total] is the order in
    which numpy adds up a column (row after row for a C-ordered table, pairwise for a single column). *)
From Coq Require Import ZArith List.
Require Import Flocq.Core.Core Flocq.IEEE754.BinarySingleNaN.
From Verif Require Import Base ProcFloat FredModel.
Import ListNotations. Local Open Scope list_scope. Local Open Scope nat_scope.

(** preprocessing.py:30-41: column [j] of a table. *)
Definition fcol (rows : list (list b64)) (j : nat) : list b64 := map (fun r => nth j r zero64) rows.
(** preprocessing.py:38, sd.clip(sd_lb): the larger of both, NaN stays ([sd_lb] is a number). *)
Definition fclip (lb sd : b64) : b64 := if Bltb sd lb then lb else sd.
(** preprocessing.py:40-41, what is stored. *)
Record fstandardizer := { fs_mean : list b64; fs_sd : list b64 }.
(** preprocessing.py:30-41 Standardize.__init__ for a table with [c] columns; a table without rows has NaN for means and deviations. *)
Definition f_fit (total : list b64 -> b64) (lb : b64) (c : nat) (rows : list (list b64)) : fstandardizer :=
  {| fs_mean := map (fun j => f_mean total B754_nan (fcol rows j) None None) (seq 0 c);
     fs_sd := map (fun j => fclip lb (f_std total B754_nan (fcol rows j) None None)) (seq 0 c) |}.
(** preprocessing.py:43-47, elementwise arithmetic on a row. *)
Definition fzip3 (f : b64 -> b64 -> b64 -> b64) (x m s : list b64) : list b64 := map (fun '(x, (m, s)) => f x m s) (combine x (combine m s)).
(** preprocessing.py:43-44 _impl_forward. *)
Definition f_forward (t : fstandardizer) (x : list b64) : list b64 := fzip3 (fun x m s => div64 (sub64 x m) s) x (fs_mean t) (fs_sd t).
(** preprocessing.py:46-47 _impl_backward. *)
Definition f_backward (t : fstandardizer) (x : list b64) : list b64 := fzip3 (fun x m s => add64 (mul64 x s) m) x (fs_mean t) (fs_sd t).
