(** Vocabulary of C96. *)
From Coq Require Import ZArith Reals List.
Require Import Flocq.Core.Core Flocq.IEEE754.BinarySingleNaN.
From Verif Require Import Base ProcFloat MeshFloatModel MeshFloatSpec.
Local Open Scope R_scope.

(** Linear interpolation (real numbers) at [t] between the values at the two whole numbers around it. *)
Definition lerp (f : Z -> R) (t : R) : R := (1 - (t - IZR (Zfloor t))) * f (Zfloor t) + (t - IZR (Zfloor t)) * f (Zfloor t + 1)%Z.
(** The value stored for cell (i0, i1, i2), the box being repeated in all directions. *)
Definition cell (n : Z) (d : list b64) (i0 i1 i2 : Z) : R := val (nth (Z.to_nat (((i0 mod n) * n + (i1 mod n)) * n + (i2 mod n))) d (B754_zero false)).
(** The exact trilinear interpolant of the field at a real position: linear interpolation along each axis in turn, cells of side [l]. *)
Definition trilinear (n : Z) (d : list b64) (l : R) (y0 y1 y2 : R) : R :=
  lerp (fun i0 => lerp (fun i1 => lerp (fun i2 => cell n d i0 i1 i2) (y2 / l)) (y1 / l)) (y0 / l).
(** A field of n^3 finite values of magnitude at most [M]. *)
Definition field_ok (m : fmesh) (d : list b64) (M : R) : Prop :=
  length d = Z.to_nat (fm_n m * fm_n m * fm_n m) /\ Forall (fun v => fin v = true /\ Rabs (val v) <= M) d.
(** Coordinates within 2^52 cells of the origin. *)
Definition point_ok (m : fmesh) (x : fvec) : Prop := all3 (fun v => fin v = true /\ Rabs (val v) <= bpow radix2 52 * val (f_grid m)) x.
(** [y] is [x] up to relative rounding: off by at most 2^-51 of |x| plus one cell. *)
Definition close_to (m : fmesh) (y : R) (x : b64) : Prop := Rabs (y - val x) <= bpow radix2 (-51) * (Rabs (val x) + val (f_grid m)).
