(** Model of /repo/src/pyhipp/group_theory/point_group.py.  All matrices of the module have entries 0, 1, -1, which float64
    represents and multiplies exactly (up to the sign of zero): they are integer matrices here; the vectors acted on are real. *)
From Coq Require Import Reals ZArith.
From Verif Require Import Base GroupSpec.
Local Open Scope list_scope. Local Open Scope nat_scope.

(** A matrix from its entries (point_group.py:11-31). *)
Definition tabulate {A} (n : nat) (f : nat -> nat -> A) : list (list A) := map (fun i => map (f i) (seq 0 n)) (seq 0 n).
(** point_group.py:8-15: An operation: n_dims and the n_dims x n_dims matrix. *)
Record op := { o_dim : nat; o_mat : mat }.
(** point_group.py:17-26: Op.create copies the constant into a fresh eye(n_dims); Op.group. *)
Definition op_group (n : nat) (mats : list mat) : list op := map (fun m => {| o_dim := n; o_mat := m |}) mats.
(** point_group.py:38-42: numpy's [@] on two square matrices. *)
Definition mat_mul (n : nat) (a b : mat) : mat := tabulate n (fun i j => zsum n (fun k => (entry a i k * entry b k j)%Z)).
(** point_group.py:38-42, op point_group.py: op. *)
Definition op_mul (a b : op) : result op :=
  if Nat.eqb (o_dim a) (o_dim b) then Ok {| o_dim := o_dim a; o_mat := mat_mul (o_dim a) (o_mat a) (o_mat b) |} else Err ValueError.
(** point_group.py:38-42: Op.combined (copied, gives the same matrix). *)
Fixpoint op_combined (a : op) (ops : list op) : result op :=
  match ops with [] => Ok a | b :: ops' => bind (op_mul a b) (fun c => op_combined c ops') end.
(** point_group.py:44-45: Op.__call__ on one vector: x @ mat.T; on an array of vectors, row by row. *)
Definition op_call (a : op) (x : list R) : result (list R) :=
  if Nat.eqb (length x) (o_dim a) then Ok (map (fun i => rsum (o_dim a) (fun k => (comp x k * IZR (entry (o_mat a) i k))%R)) (seq 0 (o_dim a))) else Err ValueError.
(** point_group.py:44-45, several vectors. *)
Definition op_call_rows (a : op) (xs : list (list R)) : result (list (list R)) := mapM (op_call a) xs.
(** point_group.py:72-84: Group.combined (copied): for op0 in g0, for op1 in g1, then recursively with the other groups. *)
Fixpoint group_combined (g0 : list op) (gs : list (list op)) : result (list op) :=
  match gs with
  | [] => Ok g0
  | g1 :: gs' => bind (mapM (fun p => op_combined (fst p) [snd p]) (list_prod g0 g1)) (fun g01 => group_combined g01 gs')
  end.
(** point_group.py:99-218, the constants. *)
Definition rotation_xy : list op := op_group 3
  [[[1; 0; 0]; [0; 1; 0]; [0; 0; 1]]; [[0; -1; 0]; [1; 0; 0]; [0; 0; 1]]; [[-1; 0; 0]; [0; -1; 0]; [0; 0; 1]]; [[0; 1; 0]; [-1; 0; 0]; [0; 0; 1]]]%Z.
(** point_group.py:126-162. *)
Definition rotation_other : list op := op_group 3
  [[[1; 0; 0]; [0; 1; 0]; [0; 0; 1]]; [[1; 0; 0]; [0; 0; 1]; [0; -1; 0]]; [[1; 0; 0]; [0; 0; -1]; [0; 1; 0]];
   [[1; 0; 0]; [0; -1; 0]; [0; 0; -1]]; [[0; 0; 1]; [0; 1; 0]; [-1; 0; 0]]; [[0; 0; -1]; [0; 1; 0]; [1; 0; 0]]]%Z.
(** point_group.py:164-180. *)
Definition reflection_x : list op := op_group 3 [[[1; 0; 0]; [0; 1; 0]; [0; 0; 1]]; [[-1; 0; 0]; [0; 1; 0]; [0; 0; 1]]]%Z.
(** point_group.py:182-203. *)
Definition rotation_2d : list op := op_group 2 [[[1; 0]; [0; 1]]; [[0; -1]; [1; 0]]; [[-1; 0]; [0; -1]]; [[0; 1]; [-1; 0]]]%Z.
(** point_group.py:205-219. *)
Definition reflection_2d : list op := op_group 2 [[[1; 0]; [0; 1]]; [[-1; 0]; [0; 1]]]%Z.
(** point_group.py:55-67 Group.create. *)
Definition group_create (name : string) : result (list op) :=
  if (String.eqb name "cubic" || String.eqb name "3d")%bool then group_combined rotation_other [rotation_xy; reflection_x]
  else if (String.eqb name "square" || String.eqb name "2d")%bool then group_combined rotation_2d [reflection_2d]
  else Err KeyError.
(** point_group.py:92-93 Group.__len__ reads the attribute [opts], which is never set (the attribute is called [ops]). *)
Definition group_len (g : list op) : result nat := Err AttributeError.
(** point_group.py:95-96 Group.__getitem__ with an integer: Python's list indexing. *)
Definition group_get (g : list op) (i : Z) : result op :=
  let n := Z.of_nat (length g) in
  let k := if (i <? 0)%Z then (i + n)%Z else i in
  if ((k <? 0) || (n <=? k))%Z%bool then Err IndexError else match nth_error g (Z.to_nat k) with Some o => Ok o | None => Err IndexError end.
