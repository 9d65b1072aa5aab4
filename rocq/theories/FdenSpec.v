(** Vocabulary of C100. *)
From Coq Require Import ZArith Reals List Bool.
Require Import Flocq.Core.Core Flocq.IEEE754.BinarySingleNaN.
From Verif Require Import Base ProcFloat FredModel FredSpec FknnModel FknnSpec FdenModel.
Import ListNotations. Local Open Scope R_scope.

(** [x] is finite and equals [X] up to at most [n] relative errors of 2^-52. *)
Definition close (n : nat) (x : b64) (X : R) : Prop := fin x = true /\ exists f, val x = X * f /\ / (1 + bpow radix2 (-52)) ^ n <= f <= (1 + bpow radix2 (-52)) ^ n.
(** Zero, or of a magnitude between 2^-k and 2^k. *)
Definition medium (k : Z) (X : R) : Prop := X = 0 \/ bpow radix2 (- k) <= X <= bpow radix2 k.
(** The volume of the ball. *)
Fixpoint volume (n : nat) (r : R) : R :=
  match n with O => 1 | S O => 2 * r | S (S k) => 2 * PI / INR n * r * r * volume k r end.
(** The weight of training point [i] among [n] (1 by default), and the sum of all. *)
Definition weight_at (w : option (list b64)) (i : nat) : R := match w with None => 1 | Some w => val (nth i w zero64) end.
Definition all_weight (n : nat) (w : option (list b64)) : R := Rsum (map (weight_at w) (seq 0 n)).
(** Training weights: as many as points, zero or between 2^-100 and 2^100, not all zero; none is no condition. *)
Definition weights_fit (n : nat) (w : option (list b64)) : Prop :=
  (1 <= n)%nat /\ (Z.of_nat n <= 2 ^ 53)%Z /\ forall w', w = Some w' -> length w' = n /\ Forall (fun v => fin v = true /\ medium 100 (val v)) w' /\ Exists (fun v => 0 < val v) w'.
(** The kernel at the distances met: zero or between 2^-100 and 2^100. *)
Definition kernel_fit (K : b64 -> b64) (nb : neighbours) : Prop := Forall (fun p => fin (K (fst p)) = true /\ medium 100 (val (K (fst p)))) nb.
(** A radius between 2^-k and 2^k with n (k + 3) <= 350. *)
Definition radius_fit (n : nat) (r : b64) : Prop := exists k, (0 <= k)%Z /\ (Z.of_nat n * (k + 3) <= 350)%Z /\ fin r = true /\ bpow radix2 (- k) <= val r <= bpow radix2 k.
(** The share of training point [i] in the total weight. *)
Definition share (n : nat) (w : option (list b64)) (i : nat) : R := weight_at w i / all_weight n w.
(** What the kernel multiplies a neighbour's share with: its value there relative to the average over the neighbours [nb]. *)
Definition boost (K : option (b64 -> b64)) (nb : neighbours) (p : b64 * nat) : R :=
  match K with None => 1 | Some K => val (K (fst p)) * (INR (length nb) / Rsum (map (fun q => val (K (fst q))) nb)) end.
(** The exact density: boosted shares of the neighbours over the volume. *)
Definition density (n_dims n : nat) (w : option (list b64)) (K : option (b64 -> b64)) (r : R) (nb : neighbours) : R :=
  Rsum (map (fun p => share n w (snd p) * boost K nb p) nb) / volume n_dims r.
