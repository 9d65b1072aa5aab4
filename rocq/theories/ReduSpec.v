(** Vocabulary for reductions (C48-C50). *)
From Coq Require Import QArith.
From Verif Require Import Base OrderSpec BinSpec.
Local Open Scope list_scope. Local Open Scope nat_scope.

(** Same value (rationals up to representation). *)
Definition num_eq (a b : num) : Prop :=
  match a, b with Fin p, Fin q => (p == q)%Q | PInf, PInf => True | NInf, NInf => True | NaN, NaN => True | _, _ => False end.

(** The entries selected by an optional mask. *)
Fixpoint selected {A} (l : list A) (m : list bool) : list A :=
  match l, m with a :: l', b :: m' => if (b : bool) then a :: selected l' m' else selected l' m' | _, _ => [] end.
Definition sel {A} (m : option (list bool)) (l : list A) : list A := match m with None => l | Some m => selected l m end.

(** Sum of products. *)
Fixpoint dotp (x w : list Q) : Q := match x, w with a :: x', b :: w' => (a * b + dotp x' w')%Q | _, _ => 0%Q end.
(** Optional weights: 1 each when missing. *)
Definition weights_of (x : list Q) (w : option (list Q)) : list Q := match w with Some w => w | None => repeat 1%Q (length x) end.
(** Weights and mask are as long as the samples. *)
Definition fits {A B} (x : list A) (w : option (list B)) (m : option (list bool)) : Prop :=
  match w with Some w => length w = length x | None => True end /\ match m with Some m => length m = length x | None => True end.
(** Every row of the table has [c] entries. *)
Definition rect {A} (c : nat) (rows : list (list A)) : Prop := Forall (fun r => length r = c) rows.
(** The optional weights/mask of a table: as many rows, of the same width. *)
Definition fits2 {A B} (c : nat) (rows : list (list A)) (o : option (list (list B))) : Prop :=
  match o with Some ws => length ws = length rows /\ rect c ws | None => True end.
(** The selected weights (if any) are non-negative and do not add up to zero. *)
Definition good_weights (m : option (list bool)) (w : option (list Q)) : Prop :=
  match w with Some w => (forall a, In a (sel m w) -> (0 <= a)%Q) /\ (0 < Qsum (sel m w))%Q | None => True end.
(** Least and largest of the samples. *)
Definition bounds (x : list Q) (lo hi : Q) : Prop := In lo x /\ In hi x /\ forall a, In a x -> (lo <= a /\ a <= hi)%Q.

(** IEEE arithmetic on special values: sign of a number, infinite numbers, products that are NaN. *)
Definition sign_of (a : num) : option comparison := match a with NaN => None | Fin q => Some (q ?= 0)%Q | PInf => Some Gt | NInf => Some Lt end.
Definition infinite (a : num) : Prop := a = PInf \/ a = NInf.
Definition undefined_product (a b : num) : Prop := a = NaN \/ b = NaN \/ (infinite a /\ sign_of b = Some Eq) \/ (infinite b /\ sign_of a = Some Eq).
Definition infinite_product (positive : bool) (a b : num) : Prop := (infinite a \/ infinite b) /\ ~ undefined_product a b /\ (sign_of a = sign_of b <-> positive = true).
