(** The meshes of MeshModel.v in IEEE-754 binary64, round to nearest even (Flocq), as numpy and numba execute them:
    /repo/src/pyhipp/field/neighbor/kd_mesh.py, /repo/src/pyhipp/field/cubic_box/{mesh,mass_assignment}.py.
    int64 does not overflow (the theorems bound the quotients by 2^60). *)
From Coq Require Import ZArith.
Require Import Flocq.Core.Core Flocq.IEEE754.BinarySingleNaN.
From Verif Require Import Base MeshModel ProcFloat.
Local Open Scope list_scope. Local Open Scope nat_scope.

(** np.int64(np.floor(x)) in mesh.py:36 and kd_mesh.py:31-35: the largest integer not above a finite x; 0 on infinities and
    NaN, where the cast is not defined. *)
Definition ffloor (x : b64) : Z :=
  match x with
  | B754_finite s m e _ => let z := cond_Zopp s (Zpos m) in if (0 <=? e)%Z then (z * 2 ^ e)%Z else (z / 2 ^ (- e))%Z
  | _ => 0%Z
  end.
(** mesh.py:7-20, kd_mesh.py:18-31: the mesh and its l_grid = l_box / n_grids. *)
Record fmesh := { fm_n : Z; fm_l : b64 }.
(** mesh.py:16, kd_mesh.py:30. *)
Definition f_grid (m : fmesh) : b64 := div64 (fm_l m) (of_Z64 (fm_n m)).
(** kd_mesh.py:31-35 x2xi_1, x2xi_3 on one coordinate. *)
Definition f_x2xi (m : fmesh) (x : b64) : Z := ffloor (div64 x (f_grid m)).
(** A position (a row of an (n, 3) float64 array). *)
Definition fvec : Type := (b64 * b64 * b64)%type.
(** kd_mesh.py:37-40 x2xi_f. *)
Definition f_x2xi_f (m : fmesh) (x : fvec) : Z :=
  let '(x0, x1, x2) := x in let n := fm_n m in flat n (f_x2xi m x0 mod n) (f_x2xi m x1 mod n) (f_x2xi m x2 mod n).
(** kd_mesh.py:42-47 argsort, the keys. *)
Definition f_keys (m : fmesh) (xs : list fvec) : list Z := map (f_x2xi_f m) xs.
(** kd_mesh.py:52-64. *)
Record fpe3 := { fp_mesh : fmesh; fp_xs : list fvec; fp_firsts : list nat }.
(** The zero vector, out-of-range default of [take]. *)
Definition fzero : fvec := (B754_zero false, B754_zero false, B754_zero false).
(** kd_mesh.py:101-118 _PE3_from_meshing_points, given the permutation returned by np.argsort. *)
Definition f_from_meshing_points (m : fmesh) (xs : list fvec) (args : list nat) : fpe3 :=
  {| fp_mesh := m; fp_xs := take fzero args xs; fp_firsts := 0 :: fill (cells (fm_n m)) (take 0%Z args (f_keys m xs)) 0 |}.
(** kd_mesh.py:83-98 __query_points_1, the flat indices of the cells visited. *)
Definition f_query_cells (m : fmesh) (x : fvec) (r : b64) : list Z :=
  let '(x0, x1, x2) := x in let n := fm_n m in
  let range v := zrange (f_x2xi m (sub64 v r)) (f_x2xi m (add64 v r) + 1) in
  flat_map (fun i0 => flat_map (fun i1 => map (fun i2 => flat n (i0 mod n) (i1 mod n) (i2 mod n)) (range x2)) (range x1)) (range x0).
(** kd_mesh.py:83-98: the arrays passed to q.on, in order. *)
Definition f_query_points_1 (p : fpe3) (x : fvec) (r : b64) : list (list fvec) :=
  map (fun i_f => slice (fp_xs p) (nth (Z.to_nat i_f) (fp_firsts p) 0) (nth (S (Z.to_nat i_f)) (fp_firsts p) 0)) (f_query_cells (fp_mesh p) x r).
(** The literal 0.5 of mesh.py:36. *)
Definition half64 : b64 := div64 (of_Z64 1) (of_Z64 2).
(** mesh.py:34-37 x_to_xi; 39-45 x_to_xi_nd on one coordinate. *)
Definition f_x_to_xi (m : fmesh) (x : b64) : Z := (ffloor (add64 (div64 x (f_grid m)) half64) mod fm_n m)%Z.
(** mass_assignment.py:51-64 weights_at; np.floor(x), a float, is [of_Z64] of the integer. *)
Definition f_weights_at (m : fmesh) (x : b64) : Z * Z * b64 * b64 :=
  let x := div64 x (f_grid m) in
  let x_l := of_Z64 (ffloor x) in
  let w_l := sub64 (of_Z64 1) (sub64 x x_l) in
  let w_r := sub64 (of_Z64 1) w_l in
  let i_l := ffloor x in
  let i_r := (i_l + 1)%Z in
  (i_l mod fm_n m, i_r mod fm_n m, w_l, w_r)%Z.
(** mass_assignment.py:99-106, w0 * w1 * w2 * weight, from the left. *)
Definition f_share (w0 w1 w2 weight : b64) : b64 := mul64 (mul64 (mul64 w0 w1) w2) weight.
(** mass_assignment.py:94-106: the eight cells and what is added to each. *)
Definition f_deposits (m : fmesh) (x : fvec) (weight : b64) : list (Z * b64) :=
  let '(x0, x1, x2) := x in let n := fm_n m in
  let '(i0_l, i0_r, w0_l, w0_r) := f_weights_at m x0 in
  let '(i1_l, i1_r, w1_l, w1_r) := f_weights_at m x1 in
  let '(i2_l, i2_r, w2_l, w2_r) := f_weights_at m x2 in
  [(flat n i0_l i1_l i2_l, f_share w0_l w1_l w2_l weight); (flat n i0_l i1_l i2_r, f_share w0_l w1_l w2_r weight);
   (flat n i0_l i1_r i2_l, f_share w0_l w1_r w2_l weight); (flat n i0_l i1_r i2_r, f_share w0_l w1_r w2_r weight);
   (flat n i0_r i1_l i2_l, f_share w0_r w1_l w2_l weight); (flat n i0_r i1_l i2_r, f_share w0_r w1_l w2_r weight);
   (flat n i0_r i1_r i2_l, f_share w0_r w1_r w2_l weight); (flat n i0_r i1_r i2_r, f_share w0_r w1_r w2_r weight)].
(** mass_assignment.py:99-106: d[i] += w on the flattened (C order) data. *)
Definition f_add_cell (d : list b64) (i : Z) (w : b64) : list b64 :=
  match nth_error d (Z.to_nat i) with Some v => upd_nth d (Z.to_nat i) (add64 v w) | None => d end.
(** mass_assignment.py:86-106 add_1. *)
Definition f_add_1 (m : fmesh) (d : list b64) (x : fvec) (weight : b64) : list b64 :=
  fold_left (fun d c => f_add_cell d (fst c) (snd c)) (f_deposits m x weight) d.
(** mass_assignment.py:108-119 _Linear.add: the particles one after another, with weight 1.0 when no weights are given. *)
Definition f_lin_add (m : fmesh) (d : list b64) (xs : list fvec) (weights : option (list b64)) : list b64 :=
  match weights with
  | Some ws => fold_left (fun d p => f_add_1 m d (fst p) (snd p)) (combine xs ws) d
  | None => fold_left (fun d x => f_add_1 m d x (of_Z64 1)) xs d
  end.
