(** Model of /repo/src/pyhipp/field/neighbor/kd_mesh.py and /repo/src/pyhipp/field/cubic_box/{mesh,field,
    mass_assignment,cosmic_web}.py.  Exact rational arithmetic instead of float64; int64 does not overflow. *)
From Coq Require Import QArith Qround Qabs Qminmax.
From Verif Require Import Base OrderSpec BinSpec MeshSpec ProcModel.
Local Open Scope list_scope. Local Open Scope nat_scope.

(** ** kd_mesh.py *)
(** kd_mesh.py:18-31, mesh.py:7-22: the mesh, with l_grid = l_box / n_grids. *)
Record mesh := { n_grids : Z; l_box : Q }.
(** kd_mesh.py:23-29, mesh.py:14-20. *)
Definition l_grid (m : mesh) : Q := (l_box m / inject_Z (n_grids m))%Q.
(** kd_mesh.py:31-32 x2xi_1, x2xi_3. *)
Definition x2xi (m : mesh) (x : Q) : Z := Qfloor (x / l_grid m).
(** kd_mesh.py:42 and :93, the flat index of a cell. *)
Definition flat (n i0 i1 i2 : Z) : Z := ((i0 * n + i1) * n + i2)%Z.
(** kd_mesh.py:39-42 x2xi_f. *)
Definition x2xi_f (m : mesh) (x : vec) : Z :=
  let '(x0, x1, x2) := x in let n := n_grids m in
  flat n (x2xi m x0 mod n) (x2xi m x1 mod n) (x2xi m x2 mod n).
(** kd_mesh.py:42-47 argsort, the keys; the order of equal keys is not fixed, so [args] is an input below. *)
Definition keys (m : mesh) (xs : list vec) : list Z := map (x2xi_f m) xs.
(** kd_mesh.py:101-118, xs[args]. *)
Definition take {A} (d : A) (args : list nat) (l : list A) : list A := map (fun i => nth i l d) args.
(** kd_mesh.py:107-114, the while loop from position e: [l] is xi_fs[e:]. *)
Fixpoint advance (i_f : Z) (l : list Z) (e : nat) : nat :=
  match l with [] => e | k :: l' => if (k >? i_f)%Z then e else advance i_f l' (S e) end.
(** kd_mesh.py:106-117, the for loop over cells [i_f ..]: the values stored in cell_firsts[i_f+1], ... *)
Fixpoint fill (cells : list Z) (xi : list Z) (b : nat) : list nat :=
  match cells with [] => [] | i_f :: cells' => let e := advance i_f (skipn b xi) b in e :: fill cells' xi e end.
(** kd_mesh.py:106-117, all cell numbers. *)
Definition cells (n : Z) : list Z := map Z.of_nat (seq 0 (Z.to_nat (n * n * n))).
(** kd_mesh.py:50-62. *)
Record pe3 := { p_mesh : mesh; p_xs : list vec; p_firsts : list nat }.
(** kd_mesh.py:97-118 _PE3_from_meshing_points, given the permutation returned by np.argsort. *)
Definition from_meshing_points (m : mesh) (xs : list vec) (args : list nat) : pe3 :=
  {| p_mesh := m; p_xs := take (0, 0, 0)%Q args xs;
     p_firsts := 0 :: fill (cells (n_grids m)) (take 0%Z args (keys m xs)) 0 |}.
(** kd_mesh.py:83-98, range(a, b). *)
Definition zrange (a b : Z) : list Z := map (fun i => (a + Z.of_nat i)%Z) (seq 0 (Z.to_nat (b - a))).
(** kd_mesh.py:64-81, xs[b:e]. *)
Definition slice {A} (l : list A) (b e : nat) : list A := firstn (e - b) (skipn b l).
(** kd_mesh.py:83-98 __query_points_1: the arrays passed to q.on, in order. *)
Definition query_cells (m : mesh) (x : vec) (r : Q) : list Z :=
  let '(x0, x1, x2) := x in let n := n_grids m in
  let range v := zrange (x2xi m (v - r)%Q) (x2xi m (v + r)%Q + 1) in
  flat_map (fun i0 => flat_map (fun i1 => map (fun i2 => flat n (i0 mod n) (i1 mod n) (i2 mod n)) (range x2)) (range x1)) (range x0).
(** kd_mesh.py:83-98. *)
Definition query_points_1 (p : pe3) (x : vec) (r : Q) : list (list vec) :=
  map (fun i_f => slice (p_xs p) (nth (Z.to_nat i_f) (p_firsts p) 0) (nth (S (Z.to_nat i_f)) (p_firsts p) 0)) (query_cells (p_mesh p) x r).
(** kd_mesh.py:64-81 query_points: all calls q.on(i, x_ngbs); [args] is the permutation of the query points. *)
Definition query_points (p : pe3) (xs : list vec) (rs : list Q) (args : list nat) : list (nat * list vec) :=
  flat_map (fun i => map (pair i) (query_points_1 p (nth i xs (0, 0, 0)%Q) (nth i rs 0%Q))) args.

(** ** cubic_box/mesh.py *)
(** mesh.py:34-37 x_to_xi; 39-45 x_to_xi_nd on one coordinate. *)
Definition x_to_xi (m : mesh) (x : Q) : Z := (Qfloor (x / l_grid m + (1 # 2)) mod n_grids m)%Z.
(** mesh.py:39-45. *)
Definition x_to_xi_3 (m : mesh) (x : vec) : ivec := let '(x0, x1, x2) := x in (x_to_xi m x0, x_to_xi m x1, x_to_xi m x2).
(** mesh.py:22-32 *)
Definition total_n_grids (m : mesh) : Z := (n_grids m ^ 3)%Z.
(** mesh.py:26-28. *)
Definition volume (m : mesh) : Q := (l_box m ^ 3)%Q.
(** mesh.py:30-32. *)
Definition cell_volume (m : mesh) : Q := (l_grid m ^ 3)%Q.

(** ** cubic_box/mass_assignment.py *)
(** mass_assignment.py:24-25 shape_at_xi, 27-29 shape_at_x. *)
Definition shape_at_xi (xi : Q) : Q := Qmax (1 - Qabs xi) 0.
(** mass_assignment.py:27-29. *)
Definition shape_at_x (m : mesh) (x : Q) : Q := shape_at_xi (x / l_grid m).
(** mass_assignment.py:51-64 weights_at. *)
Definition weights_at (m : mesh) (x : Q) : Z * Z * Q * Q :=
  let x := (x / l_grid m)%Q in
  let x_l := inject_Z (Qfloor x) in
  let w_l := (1 - (x - x_l))%Q in
  let w_r := (1 - w_l)%Q in
  let i_l := Qfloor x in
  let i_r := (i_l + 1)%Z in
  (i_l mod n_grids m, i_r mod n_grids m, w_l, w_r)%Z.
(** mass_assignment.py:88-106: d[i] += w on the flattened (C order) data. *)
Definition add_cell (d : list Q) (i : Z) (w : Q) : list Q :=
  match nth_error d (Z.to_nat i) with Some v => upd_nth d (Z.to_nat i) (v + w)%Q | None => d end.
(** The eight corners in the order of mass_assignment.py:99-106 (and cosmic_web.py:51-58). *)
Definition corners (m : mesh) (x : vec) : list (Z * Q) :=
  let '(x0, x1, x2) := x in let n := n_grids m in
  let '(i0_l, i0_r, w0_l, w0_r) := weights_at m x0 in
  let '(i1_l, i1_r, w1_l, w1_r) := weights_at m x1 in
  let '(i2_l, i2_r, w2_l, w2_r) := weights_at m x2 in
  [(flat n i0_l i1_l i2_l, w0_l * w1_l * w2_l); (flat n i0_l i1_l i2_r, w0_l * w1_l * w2_r);
   (flat n i0_l i1_r i2_l, w0_l * w1_r * w2_l); (flat n i0_l i1_r i2_r, w0_l * w1_r * w2_r);
   (flat n i0_r i1_l i2_l, w0_r * w1_l * w2_l); (flat n i0_r i1_l i2_r, w0_r * w1_l * w2_r);
   (flat n i0_r i1_r i2_l, w0_r * w1_r * w2_l); (flat n i0_r i1_r i2_r, w0_r * w1_r * w2_r)]%Q.
(** mass_assignment.py:88-106 add_1. *)
Definition add_1 (m : mesh) (d : list Q) (x : vec) (weight : Q) : list Q :=
  fold_left (fun d c => add_cell d (fst c) (snd c * weight)%Q) (corners m x) d.
(** mass_assignment.py:108-117 _Linear.add. *)
Definition lin_add (m : mesh) (d : list Q) (xs : list vec) (weights : option (list Q)) : list Q :=
  match weights with
  | Some ws => fold_left (fun d p => add_1 m d (fst p) (snd p)) (combine xs ws) d
  | None => fold_left (fun d x => add_1 m d x 1%Q) xs d
  end.
(** mass_assignment.py:122-129 DensityField.__init__. *)
Record dfield := { df_mesh : mesh; df_data : list Q }.
(** mass_assignment.py:122-129. *)
Definition df_new (l : Q) (n : Z) : dfield := {| df_mesh := {| n_grids := n; l_box := l |}; df_data := repeat 0%Q (Z.to_nat (n * n * n)) |}.
(** mass_assignment.py:131-138 DensityField.add. *)
Definition df_add (f : dfield) (xs : list vec) (weights : option (list Q)) : result dfield :=
  let ok := match weights with Some ws => Nat.eqb (length xs) (length ws) | None => true end in
  if ok then Ok {| df_mesh := df_mesh f; df_data := lin_add (df_mesh f) (df_data f) xs weights |} else Err AssertionError.
(** mass_assignment.py:153-164 join_dumps on the loaded dictionaries (data, l_box, n_grids), reading and writing HDF5
    being modelled in H5Model.v.  numpy adds arrays of equal shape (broadcasting of one-element arrays not modelled);
    with no input the variable [out] is unbound (UnboundLocalError). *)
Definition zip_add (a b : list Q) : list Q := map (fun p => (fst p + snd p)%Q) (combine a b).
(** mass_assignment.py:153-164. *)
Fixpoint join_rest (data : list Q) (rest : list dfield) : result (list Q) :=
  match rest with
  | [] => Ok data
  | f :: rest' => if Nat.eqb (length data) (length (df_data f)) then join_rest (zip_add data (df_data f)) rest' else Err ValueError
  end.
(** mass_assignment.py:153-164. *)
Definition join_dumps (fs : list dfield) : result dfield :=
  match fs with
  | [] => Err UnboundLocalError
  | f :: rest => rmap (fun d => {| df_mesh := df_mesh f; df_data := d |}) (join_rest (df_data f) rest)
  end.

(** ** cubic_box/cosmic_web.py *)
(** cosmic_web.py:41-59 _value_at, one point. *)
Definition value_at (m : mesh) (d : list Q) (x : vec) : Q :=
  Qsum (map (fun c => nth (Z.to_nat (fst c)) d 0 * snd c)%Q (corners m x)).
(** cosmic_web.py:62-74 web_types. *)
Definition web_types : list (string * Z) :=
  [("knot", 3); ("filament", 2); ("sheet", 1); ("void", 0); ("k", 3); ("f", 2); ("s", 1); ("v", 0)]%string%Z.
(** cosmic_web.py:79-92 TidalClassifier.__init__: [lam] is the (n,n,n,3) array of float32 values, flattened over cells;
    the comparisons are IEEE ones. *)
Record classifier := { c_mesh : mesh; c_lam : list (num * num * num); c_n : list Z; c_th : num }.
(** cosmic_web.py:80-92, a bool as a number. *)
Definition b2z (b : bool) : Z := if b then 1%Z else 0%Z.
(** cosmic_web.py:80-92. *)
Definition count_above (th : num) (l : num * num * num) : Z :=
  let '(a, b, c) := l in (b2z (nlt th a) + b2z (nlt th b) + b2z (nlt th c))%Z.
(** cosmic_web.py:80-92 [__init__]. *)
Definition new_classifier (lam : list (num * num * num)) (m : mesh) (th : num) : result classifier :=
  if negb (Z.of_nat (length lam) =? n_grids m * n_grids m * n_grids m)%Z then Err AssertionError
  else if negb (forallb (fun '(a, b, c) => nle a b) lam) then Err AssertionError
  else if negb (forallb (fun '(a, b, c) => nle b c) lam) then Err AssertionError
  else Ok {| c_mesh := m; c_lam := lam; c_n := map (count_above th) lam; c_th := th |}.
(** cosmic_web.py:115-123 _web_type_at, 125-133 _lam_at, one point. *)
Definition cell_of (m : mesh) (x : vec) : Z := let '(i0, i1, i2) := x_to_xi_3 m x in flat (n_grids m) i0 i1 i2.
(** cosmic_web.py:115-123. *)
Definition web_type_at (c : classifier) (x : vec) : Z := nth (Z.to_nat (cell_of (c_mesh c) x)) (c_n c) 0%Z.
(** cosmic_web.py:125-133. *)
Definition lam_at (c : classifier) (x : vec) : num * num * num := nth (Z.to_nat (cell_of (c_mesh c) x)) (c_lam c) (NaN, NaN, NaN).
(** cosmic_web.py:135-150 grid_points_of_web_type (exact instead of float32 coordinates), in C order. *)
Definition grid_index (n : Z) : list ivec :=
  let r := map Z.of_nat (seq 0 (Z.to_nat n)) in flat_map (fun i => flat_map (fun j => map (fun k => (i, j, k)) r) r) r.
(** cosmic_web.py:135-150. *)
Definition grid_points_of_web_type (c : classifier) (name : string) : result (list vec) :=
  match od_get String.eqb web_types name with
  | None => Err KeyError
  | Some t =>
      let h := l_grid (c_mesh c) in
      Ok (map (fun '(i, j, k, _) => (inject_Z i * h, inject_Z j * h, inject_Z k * h)%Q)
              (filter (fun p => (snd p =? t)%Z) (combine (grid_index (n_grids (c_mesh c))) (c_n c))))
  end.
(** cosmic_web.py:154-184 is_knot..., f_knot...: the fraction of cells of type [t]. *)
Definition fraction (c : classifier) (t : Z) : Q :=
  (inject_Z (Z.of_nat (length (filter (fun k => (k =? t)%Z) (c_n c)))) / inject_Z (Z.of_nat (length (c_n c))))%Q.

