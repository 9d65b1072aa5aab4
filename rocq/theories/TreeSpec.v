(** Specification vocabulary for the periodic tree (C40), over the real numbers. *)
From Coq Require Import Reals List.
Import ListNotations.
Local Open Scope R_scope. Local Open Scope list_scope.
(** Euclidean distance of two coordinate lists. *)
Definition euclid (a b : list R) : R := sqrt (fold_right Rplus 0 (map (fun p => (fst p - snd p) * (fst p - snd p)) (combine a b))).
(** [x] moved by [k] whole periods along each axis. *)
Definition shifted (l : R) (x : list R) (k : list Z) : list R := map (fun p => fst p + IZR (snd p) * l) (combine x k).
Definition in_cube (l : R) (x : list R) : Prop := forall v, In v x -> 0 <= v < l.
(** [d] is the distance to the nearest periodic image. *)
Definition nearest_image (l : R) (a b : list R) (d : R) : Prop :=
  (forall k, length k = length b -> d <= euclid (shifted l b k) a) /\ exists k, length k = length b /\ d = euclid (shifted l b k) a.
