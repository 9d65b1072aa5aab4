(** Vocabulary for C90. *)
From Coq Require Import ZArith Reals List.
Require Import Flocq.Core.Core Flocq.IEEE754.BinarySingleNaN.
From Verif Require Import ProcFloat FredSpec.
Import ListNotations. Local Open Scope R_scope.

(** A table with [c] columns and at least one row, at most 2^53 rows, of finite numbers of at most 2^480. *)
Definition good_row (c : nat) (r : list b64) : Prop := length r = c /\ Forall (fun v => fin v = true /\ Rabs (val v) <= bpow radix2 480) r.
Definition good_table (c : nat) (rows : list (list b64)) : Prop := rows <> [] /\ (Z.of_nat (length rows) <= 2 ^ 53)%Z /\ Forall (good_row c) rows.
(** A floor for the deviations: a finite number between 2^-480 and 2^480. *)
Definition good_floor (lb : b64) : Prop := fin lb = true /\ bpow radix2 (-480) <= val lb <= bpow radix2 480.
(** The values of column [j]. *)
Definition values (rows : list (list b64)) (j : nat) : list R := map (fun r => val (nth j r (B754_zero false))) rows.
(** Entry [j] of a row. *)
Definition entry (r : list b64) (j : nat) : b64 := nth j r (B754_zero false).
