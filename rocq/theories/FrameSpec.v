(** Specification vocabulary for the real-number parts of core/dataproc (C34, C66). *)
From Coq Require Import Reals List.
Local Open Scope R_scope.
(** Scalar product of two vectors of equal length. *)
Definition dot (a b : list R) : R := fold_right Rplus 0 (map (fun p => fst p * snd p) (combine a b)).
(** Distance from the polar axis. *)
Definition rho (x1 x2 : R) : R := sqrt (x1 * x1 + x2 * x2).
