(** Vocabulary for C94. *)
From Coq Require Import Reals List.
Require Import Flocq.Core.Core Flocq.IEEE754.BinarySingleNaN.
From Verif Require Import ProcFloat FredSpec.
Import ListNotations. Local Open Scope R_scope.

(** The exact sum of the squares of the components. *)
Definition sq_sum (x : list b64) : R := Rsum (map (fun v => val v * val v) x).
(** The comparison a <= b of numbers none of which is NaN. *)
Definition le64 (a b : b64) : Prop := Bleb a b = true.
Definition isnan (a : b64) : Prop := is_nan a = true.
