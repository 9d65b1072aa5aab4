(** Vocabulary for C54: integer matrices as lists of rows, and their action on real vectors. *)
From Coq Require Import Reals ZArith List.
Import ListNotations.
Local Open Scope list_scope. Local Open Scope nat_scope.

Definition mat := list (list Z).
Definition entry (m : mat) (i j : nat) : Z := nth j (nth i m []) 0%Z.
Definition is_square (n : nat) (m : mat) : Prop := length m = n /\ Forall (fun r => length r = n) m.
Fixpoint zsum (n : nat) (f : nat -> Z) : Z := match n with O => 0%Z | S n' => (zsum n' f + f n')%Z end.
Fixpoint rsum (n : nat) (f : nat -> R) : R := match n with O => 0%R | S n' => (rsum n' f + f n')%R end.
(** Orthogonal: the columns are orthonormal. *)
Definition orthogonal (n : nat) (m : mat) : Prop :=
  forall i j, i < n -> j < n -> zsum n (fun k => entry m k i * entry m k j)%Z = if Nat.eqb i j then 1%Z else 0%Z.
Definition comp (x : list R) (i : nat) : R := nth i x 0%R.
Definition dot (n : nat) (x y : list R) : R := rsum n (fun i => (comp x i * comp y i)%R).
