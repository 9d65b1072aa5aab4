(** Vocabulary of C97. *)
From Coq Require Import ZArith Reals List.
Require Import Flocq.Core.Core Flocq.IEEE754.BinarySingleNaN.
From Verif Require Import Base ProcFloat MeshFloatModel MeshFloatSpec TidModel.
Import ListNotations. Local Open Scope R_scope.

Definition val32 (x : b32) : R := B2R x.
Definition fin32 (x : b32) : bool := is_finite x.
(** Nearest float32 (ties to even) to a real number, unbounded above. *)
Notation rnd32 := (round radix2 (SpecFloat.fexp 24 128) ZnearestE).
(** The number of eigenvalues satisfying a test. *)
Definition how_many (P : b64 -> bool) (l : lam64) : Z := let '(a, b, c) := l in ((if P a then 1 else 0) + (if P b then 1 else 0) + (if P c then 1 else 0))%Z.
(** IEEE order between doubles, false on NaN. *)
Definition ordered (l : lam64) : Prop := let '(a, b, c) := l in Bleb a b = true /\ Bleb b c = true.
(** Boxes whose coordinates fit in float32: at most 2^22 cells per side, a side between 2^-100 and 2^100. *)
Definition fits32 (m : fmesh) : Prop := (0 < fm_n m <= 2 ^ 22)%Z /\ fin (fm_l m) = true /\ bpow radix2 (-100) <= val (fm_l m) <= bpow radix2 100.
(** Position of cell (i, j, k) in C order. *)
Definition key (n : Z) (q : Z * Z * Z) : Z := let '(i, j, k) := q in ((i * n + j) * n + k)%Z.
(** The finite eigenvalues above the threshold by more than what the rounding of both can hide. *)
Definition clearly_above (th v : b64) : bool :=
  Rlt_bool (val th + bpow radix2 (-24) * (Rabs (val v) + Rabs (val th)) + bpow radix2 (-149)) (val v).
(** All three finite and at most [M] in magnitude. *)
Definition lam_ok (M : R) (l : lam64) : Prop := all3 (fun v => fin v = true /\ Rabs (val v) <= M) l.
