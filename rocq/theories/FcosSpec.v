(** Vocabulary of C102. *)
From Coq Require Import ZArith Reals List Bool.
Require Import Flocq.Core.Core Flocq.IEEE754.BinarySingleNaN.
From Verif Require Import Base ProcFloat MeshFloatModel FredModel FdenModel FdenSpec.
Local Open Scope R_scope.

(** A matter density between 2^-20 and 1 (the critical density). *)
Definition matter (om : b64) : Prop := fin om = true /\ bpow radix2 (-20) <= val om <= 1.
(** A redshift with 2^-20 <= 1 + z <= 2^20. *)
Definition redshift (z : b64) : Prop := fin z = true /\ bpow radix2 (-20) <= val z + 1 <= bpow radix2 20.
(** A small hubble, or a length, between 2^-k and 2^k. *)
Definition sized (k : Z) (h : b64) : Prop := fin h = true /\ bpow radix2 (- k) <= val h <= bpow radix2 k.
(** The cosmology's formulas in exact arithmetic.  G in the units Mpc/h, Gyr/h, 10^10 Msun/h; H0 in 1/Gyr times h. *)
Definition exact_G (h : R) : R :=
  let l := 3085677581491367 * 10 ^ 7 / h in let t := 315576 * 10 ^ 11 / h in let m := 1988409870698051 * 10 ^ 15 * 10 ^ 10 / h in
  (66743 / 10 ^ 15) / (l ^ 3 / t ^ 2 / m).
Definition exact_H0 : R := 1022712165045695 / 10 ^ 16.
Definition exact_E2 (om z : R) : R := (1 - om) + om * (z + 1) ^ 3.
Definition exact_crit0 (h : R) : R := 3 * exact_H0 ^ 2 / (8 * PI * exact_G h).
(** A power function that is within four relative errors of 2^-52 of the exact one. *)
Definition pow_like (P : b64 -> b64 -> b64) : Prop :=
  forall x y, fin x = true -> fin y = true -> bpow radix2 (-400) <= val x <= bpow radix2 400 -> 0 <= val y <= 1 -> close 4 (P x y) (Rpower (val x) (val y)).
