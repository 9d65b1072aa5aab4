(** Vocabulary of C92, on the real numbers that doubles stand for. *)
From Coq Require Import ZArith Reals List.
Require Import Flocq.Core.Core.
From Verif Require Import Base ProcFloat.
Import ListNotations. Local Open Scope R_scope.

(** Only finite numbers, none below an earlier one. *)
Definition ascending (l : list b64) : Prop :=
  Forall (fun v => fin v = true) l /\ forall i j a b, (i <= j)%nat -> nth_error l i = Some a -> nth_error l j = Some b -> val a <= val b.
(** No number larger than 2^k. *)
Definition at_most (k : Z) (l : list b64) : Prop := Forall (fun v => fin v = true /\ Rabs (val v) <= bpow radix2 k) l.
(** Point k of n points equally spaced from a to b. *)
Definition exact_point (a b : R) (n k : nat) : R := a + INR k * ((b - a) / INR (n - 1)).
