(** Which position of a parameter list a name denotes after a history, and which parameter stands at a position. *)
From Coq Require Import QArith.
From Verif Require Import Base.
Local Open Scope list_scope. Local Open Scope nat_scope.

Section Spec.
  (** [name]: the name of each parameter. An assignment puts a parameter at a position. *)
  Context {P : Type}.
  Variable name : P -> string.
  Definition assignment : Type := nat * P.

  (** The position most recently given to a parameter called [n]: by the last assignment of one, otherwise its last position
      in the constructor's list. *)
  Inductive bound (init : list P) (n : string) : list assignment -> nat -> Prop :=
  | bound_init i p : nth_error init i = Some p -> name p = n ->
      (forall j q, nth_error init j = Some q -> name q = n -> j <= i) -> bound init n [] i
  | bound_new h i p : name p = n -> bound init n (h ++ [(i, p)]) i
  | bound_old h i j p : bound init n h i -> name p <> n -> bound init n (h ++ [(j, p)]) i.

  (** The parameter at a position. *)
  Inductive stands (init : list P) (i : nat) : list assignment -> P -> Prop :=
  | stands_init p : nth_error init i = Some p -> stands init i [] p
  | stands_new h p : stands init i (h ++ [(i, p)]) p
  | stands_old h j p q : stands init i h p -> j <> i -> stands init i (h ++ [(j, q)]) p.

  (** Every assignment replaces a parameter by one of the same name. *)
  Inductive renames_nothing (init : list P) : list assignment -> Prop :=
  | rn_init : renames_nothing init []
  | rn_step h i p q : renames_nothing init h -> stands init i h q -> name p = name q -> renames_nothing init (h ++ [(i, p)]).
End Spec.
