(** Vocabulary for C91. *)
From Coq Require Import Reals List Permutation.
Require Import Flocq.Core.Core Flocq.IEEE754.BinarySingleNaN.
From Verif Require Import Base ProcFloat FredModel FredSpec.
Import ListNotations. Local Open Scope R_scope.

(** [s] is [x] rearranged with the smallest first. *)
Definition smallest_first (x s : list b64) : Prop :=
  Permutation x s /\ forall i j, (i <= j < length s)%nat -> val (nth i s zero64) <= val (nth j s zero64).
(** Doubles of moderate size: differences do not overflow. *)
Definition moderate (x : list b64) : Prop := Forall (fun v => fin v = true /\ Rabs (val v) <= bpow radix2 1022) x.
(** What the theorems assume of the selected samples [x] and their arrangement [s]. *)
Definition sorted_sample (x s : list b64) : Prop := x <> [] /\ moderate x /\ (Z.of_nat (length x) <= 2 ^ 53)%Z /\ smallest_first x s.
(** The exact quantile of real numbers, smallest first: linear between the order statistics, the k-th (from 0) at k / (n - 1). *)
Definition exact_at (s : list R) (h : R) : R :=
  let i := Z.to_nat (Zfloor h) in nth i s 0 + (h - IZR (Zfloor h)) * (nth (S i) s (nth i s 0) - nth i s 0).
Definition exact_quantile (s : list R) (p : R) : R := exact_at s (INR (length s - 1) * p).
(** Neighbouring samples are at most [g] apart. *)
Definition gaps_at_most (g : R) (s : list R) : Prop := forall i, (S i < length s)%nat -> nth (S i) s 0 - nth i s 0 <= g.
(** An order in which the samples ascend. *)
Definition sorting (x : list b64) (order : list nat) : Prop :=
  Permutation order (seq 0 (length x)) /\
  forall i j, (i <= j < length order)%nat -> val (nth (nth i order 0%nat) x zero64) <= val (nth (nth j order 0%nat) x zero64).
(** The exact share of the weight carried by the first [k + 1] samples of an order. *)
Definition share (order : list nat) (w : list b64) (k : nat) : R :=
  Rsum (map (fun i => val (nth i w zero64)) (firstn (S k) order)) / Rsum (map val w).
(** Weights for which the theorems speak: finite, not negative, some positive, none positive but absurdly small, not too many. *)
Definition usable_weights (total : list b64 -> b64) (D : nat -> nat) (w : list b64) : Prop :=
  adds total D /\ Forall (fun a => fin a = true /\ 0 <= val a) w /\ 0 < Rsum (map val w) <= bpow radix2 1000 /\
  INR (length w + D (length w)) * eps <= / 8 /\ Forall (fun a => val a = 0 \/ bpow radix2 (-390) * Rsum (map val w) <= val a) w.
(** Samples for the weighted theorems: as many, finite, up to 2^400, magnitudes at most [M]. *)
Definition usable_samples (M : R) (x w : list b64) : Prop :=
  length x = length w /\ Forall (fun v => fin v = true /\ Rabs (val v) <= bpow radix2 400) x /\ Forall (fun v => Rabs (val v) <= M) x.
(** How far above the right-hand sample [b] of its cell (left-hand sample [a]) rounding can carry a weighted quantile. *)
Definition excess (M a b : R) : R := bpow radix2 (-49) * (b - a) + bpow radix2 (-53) * M + bpow radix2 (-1070).
