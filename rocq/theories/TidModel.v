(** TidalClassifier of /repo/src/pyhipp/field/cubic_box/cosmic_web.py with its float32 arrays: IEEE-754 binary32 and binary64, round to nearest even (Flocq).
    The input eigenvalues and positions are doubles (positions may also be float32: widening is exact). *)
From Coq Require Import ZArith List String Bool.
Require Import Flocq.Core.Core Flocq.IEEE754.BinarySingleNaN.
From Verif Require Import Base MeshModel ProcFloat MeshFloatModel.
Import ListNotations. Local Open Scope list_scope.

(** numpy float32. *)
Definition b32 := binary_float 24 128.
Definition p24 : Prec_gt_0 24 := eq_refl.
Definition pe24 : Prec_lt_emax 24 128 := eq_refl.
(** cosmic_web.py:81 (np.array(lam, dtype=np.float32)) and 147 (assignment into a float32 array): C cast double to float. *)
Definition to32 (x : b64) : b32 :=
  match x with
  | B754_zero s => B754_zero s | B754_infinity s => B754_infinity s | B754_nan => B754_nan
  | B754_finite s m e _ => @binary_normalize 24 128 p24 pe24 mode_NE (cond_Zopp s (Zpos m)) e s
  end.
(** mesh.py:44 on a float32 array: x / l with a double l promotes x, exactly. *)
Definition to64 (x : b32) : b64 :=
  match x with
  | B754_zero s => B754_zero s | B754_infinity s => B754_infinity s | B754_nan => B754_nan
  | B754_finite s m e _ => @binary_normalize 53 1024 p53 pe53 mode_NE (cond_Zopp s (Zpos m)) e s
  end.
(** Three eigenvalues of a cell, as doubles and as stored. *)
Definition lam64 : Type := (b64 * b64 * b64)%type.
Definition lam32 : Type := (b32 * b32 * b32)%type.
(** cosmic_web.py:81 on one cell. *)
Definition store_lam (l : lam64) : lam32 := let '(a, b, c) := l in (to32 a, to32 b, to32 c).
(** cosmic_web.py:87 on one cell: lam > lam_th; a Python float threshold is cast to the array's float32 (numpy scalar promotion). *)
Definition t_count (th : b64) (l : lam32) : Z :=
  let '(a, b, c) := l in let t := to32 th in
  ((if Bltb t a then 1 else 0) + (if Bltb t b then 1 else 0) + (if Bltb t c then 1 else 0))%Z.
(** cosmic_web.py:89-92: the attributes. *)
Record tclass := { tc_mesh : fmesh; tc_lam : list lam32; tc_n : list Z; tc_th : b64 }.
(** cosmic_web.py:79-92 __init__; the (n,n,n,3) array flattened over cells. *)
Definition t_new (lam : list lam64) (m : fmesh) (th : b64) : result tclass :=
  let lam := map store_lam lam in
  if negb (Z.of_nat (length lam) =? fm_n m * fm_n m * fm_n m)%Z then Err AssertionError
  else if negb (forallb (fun '(a, b, c) => Bleb a b) lam) then Err AssertionError
  else if negb (forallb (fun '(a, b, c) => Bleb b c) lam) then Err AssertionError
  else Ok {| tc_mesh := m; tc_lam := lam; tc_n := map (t_count th) lam; tc_th := th |}.
(** cosmic_web.py:118-119, 127-128: mesh.x_to_xi_nd(x), as a flat index. *)
Definition t_cell (m : fmesh) (x : fvec) : Z :=
  let '(x0, x1, x2) := x in flat (fm_n m) (f_x_to_xi m x0) (f_x_to_xi m x1) (f_x_to_xi m x2).
(** cosmic_web.py:99-123 web_type_at. *)
Definition t_web_type_at (c : tclass) (xs : list fvec) : list Z := map (fun x => nth (Z.to_nat (t_cell (tc_mesh c) x)) (tc_n c) 0%Z) xs.
(** cosmic_web.py:107-133 lam_at. *)
Definition t_lam_at (c : tclass) (xs : list fvec) : list lam32 :=
  map (fun x => nth (Z.to_nat (t_cell (tc_mesh c) x)) (tc_lam c) (B754_nan, B754_nan, B754_nan)) xs.
(** cosmic_web.py:148: idx * h in doubles, stored as float32. *)
Definition t_coord (m : fmesh) (i : Z) : b32 := to32 (mul64 (of_Z64 i) (f_grid m)).
(** cosmic_web.py:135-150 grid_points_of_web_type; [grid_index] (MeshModel.v) is np.arange and meshgrid with indexing 'ij', in C order. *)
Definition t_grid_points (c : tclass) (name : string) : result (list (b32 * b32 * b32)) :=
  match od_get String.eqb web_types name with
  | None => Err KeyError
  | Some t =>
      Ok (map (fun '(i, j, k, _) => (t_coord (tc_mesh c) i, t_coord (tc_mesh c) j, t_coord (tc_mesh c) k))
              (filter (fun p => (snd p =? t)%Z) (combine (grid_index (fm_n (tc_mesh c))) (tc_n c))))
  end.
(** A float32 position used as a double one. *)
Definition widen (x : b32 * b32 * b32) : fvec := let '(a, b, c) := x in (to64 a, to64 b, to64 c).
(** cosmic_web.py:152-184 is_knot ... f_void: (n_lams == t).sum() / n_lams.size, integers divided in doubles. *)
Definition t_fraction (c : tclass) (t : Z) : b64 :=
  div64 (of_Z64 (Z.of_nat (length (filter (fun k => (k =? t)%Z) (tc_n c))))) (of_Z64 (Z.of_nat (length (tc_n c)))).
