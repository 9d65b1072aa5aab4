(** Model of how /repo/src/pyhipp/field/cubic_box reads and writes HDF5: DensityField.dump, join_dumps, load (mass_assignment.py), Field
    (field.py), FieldInterpolator and TidalClassifier from a group (cosmic_web.py), over the files of H5Model and the fields of
    MeshModel.  Floats are exact rationals, so a float dataset holds no NaN or infinity. *)
From Coq Require Import QArith.
From Verif Require Import Base Str OrderSpec BinSpec MeshSpec ProcModel MeshModel H5Model H5gModel.
Local Open Scope list_scope. Local Open Scope nat_scope.

(** mass_assignment.py:140-147: An n x n x n array of floats as a dataset. *)
Definition cube (n : Z) (d : list Q) : dset := {| dt := TFlt; shp := repeat (Z.to_nat n) 3; dat := map EFlt d |}.
(** mass_assignment.py:140-147: A Python or numpy float, a numpy int64, as scalar datasets. *)
Definition scalar_f (q : Q) : dset := {| dt := TFlt; shp := []; dat := [EFlt q] |}.
(** mass_assignment.py:140-147 (an integer). *)
Definition scalar_i (z : Z) : dset := {| dt := TInt true 64; shp := []; dat := [EInt z] |}.

(** field/cubic_box/mass_assignment.py:140-147 [DensityField.dump]. *)
Definition field_data (f : dfield) : data :=
  DMap [(KStr "data", DLeaf (LArr (cube (n_grids (df_mesh f)) (df_data f)))); (KStr "l_box", DLeaf (LArr (scalar_f (l_box (df_mesh f)))));
        (KStr "n_grids", DLeaf (LArr (scalar_i (n_grids (df_mesh f)))))]%string.
(** mass_assignment.py:140-147. *)
Definition field_dump (h : file) (g : nat) (f : dfield) (flag : string) : result unit * file := dump h g (field_data f) flag.

(** mass_assignment.py:167-170: The numbers a float dataset holds. *)
Definition floats (l : list elem) : option (list Q) := omap_all (fun e => match e with EFlt q => Some q | _ => None end) l.
(** mass_assignment.py:167-170: The same with integers converted. *)
Definition numbers (l : list elem) : option (list Q) :=
  omap_all (fun e => match e with EFlt q => Some q | EInt z => Some (inject_Z z) | EStr _ => None end) l.
(** A scalar used as a float, as an int (mesh.py:57-60 [Mesh.new]); anything else is refused by the compiled constructor. *)
Definition as_float (d : dset) : result Q :=
  match dat d, shp d with [EFlt q], [] => Ok q | [EInt z], [] => Ok (inject_Z z) | _, _ => Err TypeError end.
(** mesh.py:57-60, a scalar used as an int. *)
Definition as_int (d : dset) : result Z := match dat d, shp d with [EInt z], [] => Ok z | _, _ => Err TypeError end.
(** field/cubic_box/mesh.py:14-20: the division by zero of an empty mesh. *)
Definition mesh_new (n : Z) (l : Q) : result mesh := if (n =? 0)%Z then Err ZeroDivisionError else Ok {| n_grids := n; l_box := l |}.
(** field/cubic_box/field.py:16-34 [_Field.__init__]: a float array of three equal axes, as long as the mesh. *)
Definition field_new (d : dset) (m : mesh) : result dfield :=
  match shp d with
  | [n0; n1; n2] =>
      if Nat.eqb n0 n1 && Nat.eqb n1 n2 && (n_grids m =? Z.of_nat n0)%Z then
        match floats (dat d) with Some l => Ok {| df_mesh := m; df_data := l |} | None => Err TypeError end
      else Err AssertionError
  | _ => Err AssertionError
  end.
(** field.py:56-61 [Field.new_zeros]; 68-69 [copied] (the array is copied, the mesh is shared). *)
Definition field_zeros (m : mesh) : result dfield :=
  field_new (cube (n_grids m) (repeat 0%Q (Z.to_nat (n_grids m * n_grids m * n_grids m)))) m.
(** mass_assignment.py:167-170 [DensityField.load]; the three datasets are read in this order. *)
Definition field_load (h : file) (g : nat) : result dfield :=
  bind (ds_get h g "data") (fun d => bind (ds_get h g "l_box") (fun l => bind (ds_get h g "n_grids") (fun n =>
    bind (as_int n) (fun n => bind (as_float l) (fun l => bind (mesh_new n l) (field_new d)))))).

(** mass_assignment.py:159-164: numpy's in-place [a += b] for float arrays: the shape of [b] must broadcast to that of [a].  Simplified: arrays that are
    not of floats on both sides are all refused (numpy would convert an integer [b], and add integers to integers). *)
Definition add_into (a b : dset) : result dset :=
  match dt a, dt b with
  | TFlt, TFlt =>
      if Nat.ltb (length (shp a)) (length (shp b)) then Err ValueError
      else match bcast (shp b) (shp a) (dat b) with
           | None => Err ValueError
           | Some lb => match floats (dat a), floats lb with
                        | Some x, Some y => Ok {| dt := TFlt; shp := shp a; dat := map EFlt (zip_add x y) |}
                        | _, _ => Err TypeError
                        end
           end
  | _, _ => Err TypeError
  end.
(** mass_assignment.py:153-164: The loaded tree as the mapping that is dumped again. *)
Fixpoint as_data (t : ltree) : data :=
  match t with
  | LVal d => DLeaf (LArr d)
  | LMap its => DMap (map (fun kt => (KStr (fst kt), as_data (snd kt))) its)
  end.
(** mass_assignment.py:159-164: the later groups. *)
Fixpoint join_more (out : list (string * ltree)) (ins : list (file * nat)) : result (list (string * ltree)) :=
  match ins with
  | [] => Ok out
  | (h, g) :: ins' =>
      match od_get String.eqb out "data" with
      | None => Err KeyError
      | Some (LMap _) => Err TypeError
      | Some (LVal a) => bind (ds_get h g "data") (fun b => bind (add_into a b) (fun s =>
                           join_more (od_set String.eqb out "data" (LVal s)) ins'))
      end
  end.
(** mass_assignment.py:153-164 [join_dumps]: the whole first group is taken over, the others only contribute their data; with no
    group at all [out] is unbound.  [fuel] bounds the nesting depth of the first group. *)
Definition join_groups (fuel : nat) (ins : list (file * nat)) (h : file) (g : nat) (flag : string) : result unit * file :=
  match ins with
  | [] => (Err UnboundLocalError, h)
  | (h0, g0) :: rest =>
      match bind (load fuel h0 g0) (fun t => match t with LMap its => join_more its rest | LVal _ => Err TypeError end) with
      | Err e => (Err e, h)
      | Ok its => dump h g (as_data (LMap its)) flag
      end
  end.

(** field/cubic_box/cosmic_web.py:24-31 [FieldInterpolator.new_density_field_from_file], 14-22 __init__: the mesh and the density. *)
Definition interp_from_group (h : file) (g : nat) (key : string) : result dfield :=
  bind (ds_get h g key) (fun d => bind (ds_get h g "l_box") (fun l => bind (ds_get h g "n_grids") (fun n =>
    bind (match numbers (dat d) with Some x => Ok {| dt := TFlt; shp := shp d; dat := map EFlt (map (fun q => (q + 1)%Q) x) |} | None => Err TypeError end) (fun rho =>
      bind (as_int n) (fun n => bind (as_float l) (fun l => bind (mesh_new n l) (field_new rho))))))).
(** cosmic_web.py:33-39 [value_at]: one value per row. *)
Definition values_at (f : dfield) (xs : list vec) : list Q := map (value_at (df_mesh f) (df_data f)) xs.

(** cosmic_web.py:33-39: Consecutive triples. *)
Fixpoint triples (l : list Q) : list (num * num * num) :=
  match l with a :: b :: c :: l' => (Fin a, Fin b, Fin c) :: triples l' | _ => [] end.
(** cosmic_web.py:94-98 [TidalClassifier.new_from_file] and the shape test of 79-84. *)
Definition classifier_from_group (h : file) (g : nat) (th : num) : result classifier :=
  bind (ds_get h g "n_grids") (fun n => bind (ds_get h g "l_box") (fun l => bind (ds_get h g "lam") (fun lam =>
    bind (as_int n) (fun n => bind (as_float l) (fun l => bind (mesh_new n l) (fun m =>
      match numbers (dat lam) with
      | None => Err TypeError
      | Some x => if shape_eqb (shp lam) (repeat (Z.to_nat n) 3 ++ [3]) then new_classifier (triples x) m th else Err AssertionError
      end)))))).
