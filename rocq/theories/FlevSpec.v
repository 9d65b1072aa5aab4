(** Vocabulary of C101. *)
From Coq Require Import ZArith Reals List Bool Permutation.
Require Import Flocq.Core.Core Flocq.IEEE754.BinarySingleNaN.
From Verif Require Import Base ProcFloat FredModel FredSpec FquaSpec FknnModel.
Import ListNotations. Local Open Scope R_scope.

(** The exact sum of the densities. *)
Definition mass (zs : list b64) : R := Rsum (map val zs).
(** The exact sum of those at or above a level, and of those strictly above. *)
Definition mass_from (L : b64) (zs : list b64) : R := Rsum (map (fun v => if Rle_bool (val L) (val v) then val v else 0) zs).
Definition mass_above (L : b64) (zs : list b64) : R := Rsum (map (fun v => if Rlt_bool (val L) (val v) then val v else 0) zs).
(** Densities: up to 2^48 finite numbers that are not negative, not all zero, adding up to at most 2^1000; [s] is the sorted list. *)
Definition densities (zs s : list b64) : Prop :=
  Forall (fun v => fin v = true /\ 0 <= val v) zs /\ 0 < mass zs <= bpow radix2 1000 /\ (Z.of_nat (length zs) <= 2 ^ 48)%Z /\ smallest_first zs s.
(** The bound on the error of a fraction of the mass. *)
Definition slack (zs : list b64) : R := (4 * INR (length zs) + 1) * eps.
