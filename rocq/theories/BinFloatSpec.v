(** Vocabulary of C84: bins for which no operation overflows, exact edges. *)
From Coq Require Import ZArith Reals.
Require Import Flocq.Core.Core.
From Verif Require Import Base ProcFloat BinFloatModel.
Local Open Scope R_scope.

(** At least one and at most 2^49 bins; finite bounds of at most 2^900, at least 2^-900 apart. *)
Definition fits (s : fbins) : Prop := (0 < fb_n s <= 2 ^ 49)%Z /\ fin (fb_b s) = true /\ fin (fb_e s) = true /\
  bpow radix2 (-900) <= val (fb_e s) - val (fb_b s) /\ Rabs (val (fb_b s)) <= bpow radix2 900 /\ Rabs (val (fb_e s)) <= bpow radix2 900.
(** A finite sample within 2^60 bin widths of the lower bound (the int64 cast cannot overflow). *)
Definition in_reach (s : fbins) (x : b64) : Prop := fin x = true /\ Rabs (val x - val (fb_b s)) <= bpow radix2 60 * val (f_step s).
(** The k-th edge in exact arithmetic: b + k (e - b) / n. *)
Definition exact_edge (s : fbins) (k : Z) : R := val (fb_b s) + IZR k * ((val (fb_e s) - val (fb_b s)) / IZR (fb_n s)).
