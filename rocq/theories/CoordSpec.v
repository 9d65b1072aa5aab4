(** Sexagesimal notation: a sign, whole units, minutes and seconds. *)
From Coq Require Import QArith.
Local Open Scope Q_scope.
(** [x] units are written [sign]d:m:s, with whole d and m, 0 <= m < 60, 0 <= s < 60; the sign applies to all three. *)
Definition sexagesimal (x : Q) (negative : bool) (d m : nat) (s : Q) : Prop :=
  (m < 60)%nat /\ 0 <= s < 60 /\
  x == (if negative then -(1) else 1) * (inject_Z (Z.of_nat d) + inject_Z (Z.of_nat m) / 60 + s / 3600).
