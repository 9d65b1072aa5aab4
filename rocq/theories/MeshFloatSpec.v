(** Vocabulary of C83: meshes and positions for which no operation overflows. *)
From Coq Require Import ZArith Reals.
Require Import Flocq.Core.Core.
From Coq Require Import List.
From Verif Require Import Base ProcFloat MeshFloatModel.
Local Open Scope R_scope.

(** At least one and at most 2^53 cells per side; a box side between 2^-900 and 2^900. *)
Definition usable (m : fmesh) : Prop :=
  (0 < fm_n m <= 2 ^ 53)%Z /\ fin (fm_l m) = true /\ bpow radix2 (-900) <= val (fm_l m) <= bpow radix2 900.
(** A finite coordinate within 2^60 cells of the origin (the int64 cast cannot overflow). *)
Definition reachable (m : fmesh) (v : b64) : Prop := fin v = true /\ Rabs (val v) <= bpow radix2 60 * val (f_grid m).
(** What holds of every coordinate of a position. *)
Definition all3 (P : b64 -> Prop) (x : fvec) : Prop := let '(x0, x1, x2) := x in P x0 /\ P x1 /\ P x2.
(** What holds of the two positions' coordinates, axis by axis, for some whole number of box sides on that axis. *)
Definition each_axis (P : b64 -> b64 -> Z -> Prop) (x y : fvec) : Prop :=
  let '(x0, x1, x2) := x in let '(y0, y1, y2) := y in exists k0 k1 k2, P x0 y0 k0 /\ P x1 y1 k1 /\ P x2 y2 k2.
(** The image of [y] moved by [k] box sides is at most [r] from [x] (real numbers, not floats). *)
Definition apart_at_most (m : fmesh) (r : R) (x y : b64) (k : Z) : Prop := Rabs (val y + IZR k * val (fm_l m) - val x) <= r.
(** Sum of real numbers. *)
Definition Rtotal (l : list R) : R := fold_right Rplus 0 l.
(** The eight corners, left (false) or right (true) along each axis, the last axis varying fastest. *)
Definition corners8 : list (bool * bool * bool) :=
  ((false, false, false) :: (false, false, true) :: (false, true, false) :: (false, true, true) ::
   (true, false, false) :: (true, false, true) :: (true, true, false) :: (true, true, true) :: nil)%list.
Definition side {A} (b : bool) (left right : A) : A := if b then right else left.
(** The weights of the particles: 1 when none are given. *)
Definition fparticles (xs : list fvec) (ws : option (list b64)) : list (fvec * b64) :=
  match ws with Some ws => List.combine xs ws | None => List.map (fun x => (x, of_Z64 1)) xs end.
(** What rounding can cost when the box is wrapped around: nothing for [k = 0]. *)
Definition margin (x y r : b64) (k : Z) : R := if (k =? 0)%Z then 0 else bpow radix2 (-50) * (Rabs (val x) + Rabs (val y) + val r).
(** Finite, nonnegative cell values. *)
Definition cells_ok (d : list b64) : Prop := Forall (fun v => fin v = true /\ 0 <= val v) d.
(** The total of an array, a real number. *)
Definition fsum (d : list b64) : R := Rtotal (List.map val d).
(** No cell became smaller. *)
Definition grown (d d' : list b64) : Prop := Forall2 (fun v v' => val v <= val v') d d'.
(** A particle within 2^52 cells of the origin with a weight between 2^-800 and 2^900. *)
Definition particle_ok (m : fmesh) (p : fvec * b64) : Prop :=
  all3 (fun v => fin v = true /\ Rabs (val v) <= bpow radix2 52 * val (f_grid m)) (fst p) /\ fin (snd p) = true /\ bpow radix2 (-800) <= val (snd p) <= bpow radix2 900.
