(** The reductions Sum, Mean and StdDev of /repo/src/pyhipp/stats/reduction.py on one-dimensional arrays in IEEE-754 binary64, round to nearest
    even (Flocq), as numpy executes them.  Two-dimensional arrays are reduced row by row (reduction.py:95-101; C48). *)
From Coq Require Import ZArith List.
Require Import Flocq.Core.Core Flocq.IEEE754.BinarySingleNaN.
From Verif Require Import Base ProcFloat.
Import ListNotations. Local Open Scope list_scope. Local Open Scope nat_scope.

(** ** x.sum(-1), reduction.py:126 (and weight.sum(), reduction.py:80): numpy's pairwise summation, numpy/core/src/umath/loops_utils.h.src *)
(** reduction.py:126: The number 0.0 the accumulation starts from. *)
Definition zero64 : b64 := of_Z64 0.
(** reduction.py:126: fewer than 8 numbers, one after the other: res = 0.; res += a[i]. *)
Definition add_up (start : b64) (l : list b64) : b64 := fold_left add64 l start.
(** reduction.py:126: r[j] += a[i + j] for j = 0, ..., 7. *)
Definition add_row (acc row : list b64) : list b64 := map (fun p => add64 (fst p) (snd p)) (combine acc row).
(** reduction.py:126: k rows of eight numbers are added to the accumulators; what is left. *)
Fixpoint add_rows (k : nat) (acc l : list b64) : list b64 * list b64 :=
  match k with O => (acc, l) | S k => add_rows k (add_row acc (firstn 8 l)) (skipn 8 l) end.
(** reduction.py:126: ((r[0] + r[1]) + (r[2] + r[3])) + ((r[4] + r[5]) + (r[6] + r[7])). *)
Definition add_eight (r : list b64) : b64 :=
  let a i := nth i r zero64 in
  add64 (add64 (add64 (a 0) (a 1)) (add64 (a 2) (a 3))) (add64 (add64 (a 4) (a 5)) (add64 (a 6) (a 7))).
(** reduction.py:126: 8 to 128 numbers in eight accumulators, the remaining n mod 8 one by one. *)
Definition add_block (l : list b64) : b64 :=
  let '(acc, rest) := add_rows (length l / 8 - 1) (firstn 8 l) (skipn 8 l) in add_up (add_eight acc) rest.
(** reduction.py:126: more numbers are split at n2 = n / 2, n2 -= n2 % 8. *)
Fixpoint pairwise (fuel : nat) (l : list b64) : b64 :=
  let n := length l in
  if n <? 8 then add_up zero64 l
  else if n <=? 128 then add_block l
  else match fuel with
       | O => zero64
       | S fuel => let n2 := n / 2 - (n / 2) mod 8 in add64 (pairwise fuel (firstn n2 l)) (pairwise fuel (skipn n2 l))
       end.
(** reduction.py:126: x.sum(-1) = 0.0 + pairwise sum. *)
Definition np_sum (l : list b64) : b64 := add64 zero64 (pairwise (length l) l).

(** ** The reductions, for any routine [total] that adds up an array *)
(** reduction.py:116-125: True and False as factors. *)
Definition of_bool64 (b : bool) : b64 := of_Z64 (if b then 1 else 0).
(** reduction.py:116-125: the elementwise product of two arrays. *)
Definition times (x w : list b64) : list b64 := map (fun p => mul64 (fst p) (snd p)) (combine x w).
(** reduction.py:114-127 Sum._impl. *)
Definition f_sum (total : list b64 -> b64) (x : list b64) (w : option (list b64)) (m : option (list bool)) : b64 :=
  total match w, m with
        | None, None => x
        | None, Some m => times x (map of_bool64 m)
        | Some w, None => times x w
        | Some w, Some m => times x (times w (map of_bool64 m))
        end.
(** reduction.py:101-105 Count._impl. *)
Definition f_count (x : list b64) (m : option (list bool)) : nat :=
  match m with None => length x | Some m => length (filter (fun b : bool => b) m) end.
(** reduction.py:136-150 Mean._impl: an empty selection gives [fill]. *)
Definition f_mean (total : list b64 -> b64) (fill : b64) (x : list b64) (w : option (list b64)) (m : option (list bool)) : b64 :=
  let n := f_count x m in
  if n <? 1 then fill
  else div64 (f_sum total x w m) match w with None => of_Z64 (Z.of_nat n) | Some w => f_sum total w None m end.
(** reduction.py:160-169 StdDev._impl: np.sqrt. *)
Definition sqrt64 (x : b64) : b64 := @Bsqrt 53 1024 p53 pe53 mode_NE x.
(** reduction.py:160-169 StdDev._impl. *)
Definition f_std (total : list b64 -> b64) (fill : b64) (x : list b64) (w : option (list b64)) (m : option (list bool)) : b64 :=
  let mu := f_mean total fill x w m in
  let dx := map (fun v => sub64 v mu) x in
  sqrt64 (f_mean total fill (times dx dx) w m).
