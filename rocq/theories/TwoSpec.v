(** Vocabulary for densities on the plane (C72). *)
From Coq Require Import QArith.
From Verif Require Import Base OrderSpec BinSpec.
Local Open Scope list_scope. Local Open Scope nat_scope.

(** [x] lies in (edge i, edge (i+1)]. *)
Definition right_closed (e : list Q) (i : nat) (x : Q) : Prop :=
  exists a b, nth_error e i = Some a /\ nth_error e (S i) = Some b /\ (a < x)%Q /\ (x <= b)%Q.
(** [x] is not in (first edge, last edge]. *)
Definition outside (e : list Q) (x : Q) : Prop := (exists a, nth_error e 0 = Some a /\ (x <= a)%Q) \/ (exists b, nth_error e (length e - 1) = Some b /\ (b < x)%Q).
(** The cell [x] is in, or the first or last one if it is outside. *)
Definition nearest_cell (e : list Q) (i : nat) (x : Q) : Prop :=
  right_closed e i x \/ (i = 0 /\ exists a, nth_error e 0 = Some a /\ (x <= a)%Q) \/ (S (S i) = length e /\ exists b, nth_error e (S i) = Some b /\ (b < x)%Q).
(** The weight in a cell of the grid (half-open, the last ones closed), and in the whole rectangle. *)
Definition cell_weight (xe ye : list Q) (s : list ((Q * Q) * Q)) (i j : nat) : Q :=
  weight_where (fun p => in_window xe i (S i) (fst p) && in_window ye j (S j) (snd p)) s.
Definition box_weight (xe ye : list Q) (s : list ((Q * Q) * Q)) : Q :=
  weight_where (fun p => in_window xe 0 (length xe - 1) (fst p) && in_window ye 0 (length ye - 1) (snd p)) s.
(** The total of the values satisfying a test. *)
Definition mass_where (f : Q -> bool) (l : list Q) : Q := Qsum (filter f l).
