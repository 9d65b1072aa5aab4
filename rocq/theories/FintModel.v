(** FieldInterpolator of /repo/src/pyhipp/field/cubic_box/cosmic_web.py in IEEE-754 binary64, round to nearest even (Flocq), as numba executes it. *)
From Coq Require Import ZArith List.
Require Import Flocq.Core.Core Flocq.IEEE754.BinarySingleNaN.
From Verif Require Import Base MeshModel ProcFloat MeshFloatModel.
Import ListNotations. Local Open Scope list_scope.

(** cosmic_web.py:51: data[i0, i1, i2] of the flattened (C order) array; the default is never used (the indices are in range). *)
Definition f_at (n : Z) (d : list b64) (i0 i1 i2 : Z) : b64 := nth (Z.to_nat (flat n i0 i1 i2)) d (B754_zero false).
(** cosmic_web.py:51, data * w0 * w1 * w2, from the left. *)
Definition f_term (v w0 w1 w2 : b64) : b64 := mul64 (mul64 (mul64 v w0) w1) w2.
(** cosmic_web.py:47-58: the eight terms. *)
Definition f_terms (m : fmesh) (d : list b64) (x : fvec) : list b64 :=
  let '(x0, x1, x2) := x in let data := f_at (fm_n m) d in
  let '(i0_l, i0_r, w0_l, w0_r) := f_weights_at m x0 in
  let '(i1_l, i1_r, w1_l, w1_r) := f_weights_at m x1 in
  let '(i2_l, i2_r, w2_l, w2_r) := f_weights_at m x2 in
  [f_term (data i0_l i1_l i2_l) w0_l w1_l w2_l; f_term (data i0_l i1_l i2_r) w0_l w1_l w2_r;
   f_term (data i0_l i1_r i2_l) w0_l w1_r w2_l; f_term (data i0_l i1_r i2_r) w0_l w1_r w2_r;
   f_term (data i0_r i1_l i2_l) w0_r w1_l w2_l; f_term (data i0_r i1_l i2_r) w0_r w1_l w2_r;
   f_term (data i0_r i1_r i2_l) w0_r w1_r w2_l; f_term (data i0_r i1_r i2_r) w0_r w1_r w2_r].
(** cosmic_web.py:51-58 _value_at, one point: the terms added from the left. *)
Definition f_value_1 (m : fmesh) (d : list b64) (x : fvec) : b64 :=
  match f_terms m d x with t :: ts => fold_left add64 ts t | [] => B754_zero false end.
(** cosmic_web.py:32-59 value_at: all the points. *)
Definition f_value_at (m : fmesh) (d : list b64) (xs : list fvec) : list b64 := map (f_value_1 m d) xs.
(** cosmic_web.py:24-30 new_density_field_from_file: the stored contrast plus one. *)
Definition f_density (delta : list b64) : list b64 := map (fun v => add64 v (of_Z64 1)) delta.
