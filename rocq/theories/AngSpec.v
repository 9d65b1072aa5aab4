(** Vocabulary of C93. *)
From Coq Require Import ZArith Reals List.
Require Import Flocq.Core.Core.
From Verif Require Import Base Str ProcFloat AngModel.
Import ListNotations. Local Open Scope R_scope.

(** The angle meant, in the unit of the first field. *)
Definition angle (d m s : R) : R := d + m / 60 + s / 3600.
(** The sizes of the three contributions. *)
Definition angle_size (d m s : R) : R := Rabs d + Rabs m / 60 + Rabs s / 3600.
(** The three fields of an argument are the finite numbers d, m, s, none above 2^900: a sequence of them, or a text of three parts read as them. *)
Definition names (pyfloat : string -> result b64) (a : f_angle_arg) (d m s : b64) : Prop :=
  (a = FTup [d; m; s] \/ exists td tm ts, a = FStr (td ++ ":" ++ tm ++ ":" ++ ts)%string /\ has_char ":"%char td = false /\ has_char ":"%char tm = false /\ has_char ":"%char ts = false /\
     pyfloat td = Ok d /\ pyfloat tm = Ok m /\ pyfloat ts = Ok s) /\
  forall v, In v [d; m; s] -> fin v = true /\ Rabs (val v) <= bpow radix2 900.
