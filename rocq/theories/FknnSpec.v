(** Vocabulary of C98. *)
From Coq Require Import ZArith Reals List.
Require Import Flocq.Core.Core Flocq.IEEE754.BinarySingleNaN.
From Verif Require Import Base ProcFloat FredModel FredSpec FknnModel.
Import ListNotations. Local Open Scope R_scope.

(** Finite and not negative. *)
Definition nonneg (x : b64) : Prop := fin x = true /\ 0 <= val x.
(** All indices are those of one of [n] training points. *)
Definition within (n : nat) (nb : neighbours) : Prop := Forall (fun p => (snd p < n)%nat) nb.
(** The kernel gives finite weights that are not negative at the distances met; no kernel is no condition. *)
Definition kernel_ok (K : option (b64 -> b64)) (nb : neighbours) : Prop := forall k, K = Some k -> Forall (fun p => nonneg (k (fst p))) nb.
(** The neighbours taken into account: all, or those closer than [max_dx]. *)
Definition near (max_dx : option b64) (nb : neighbours) : neighbours := match max_dx with None => nb | Some r => filter (fun p => Bltb (fst p) r) nb end.
(** What is asked of the library's exp on the arguments met here (not positive, or minus infinity): within one rounding of the exact value. *)
Definition exp_like (E : b64 -> b64) : Prop :=
  (forall x, fin x = true -> val x <= 0 -> fin (E x) = true /\ 0 <= val (E x) <= 1 /\ Rabs (val (E x) - exp (val x)) <= bpow radix2 (-52) * exp (val x) + bpow radix2 (-1075)) /\
  (forall x, fin x = true -> val x = 0 -> val (E x) = 1) /\ fin (E (B754_infinity true)) = true /\ val (E (B754_infinity true)) = 0.
(** The weight of a neighbour: 1, its training weight, the kernel at its distance, or the rounded product of both. *)
Definition wt (w : option (list b64)) (K : option (b64 -> b64)) (p : b64 * nat) : R :=
  match w, K with
  | None, None => 1
  | Some w, None => val (nth (snd p) w zero64)
  | None, Some k => val (k (fst p))
  | Some w, Some k => rnd64 (val (nth (snd p) w zero64) * val (k (fst p)))
  end.
(** The exact sums over neighbours: of the weights, and of weight times value. *)
Definition weights (w : option (list b64)) (K : option (b64 -> b64)) (nb : neighbours) : R := Rsum (map (wt w K) nb).
Definition weighted (y : list b64) (w : option (list b64)) (K : option (b64 -> b64)) (nb : neighbours) : R := Rsum (map (fun p => val (nth (snd p) y zero64) * wt w K p) nb).
(** Training weights are finite and not negative, one for each of [n] points; none is no condition. *)
Definition weights_ok (n : nat) (w : option (list b64)) : Prop := forall w', w = Some w' -> Forall nonneg w' /\ length w' = n.
(** Kernel times training weight does not overflow. *)
Definition moderate (w : option (list b64)) (K : option (b64 -> b64)) (nb : neighbours) : Prop :=
  forall w' k, w = Some w' -> K = Some k -> Forall (fun p => val (nth (snd p) w' zero64) * val (k (fst p)) <= bpow radix2 1000) nb.
(** The neighbours with the mask set. *)
Definition marked (mask : list bool) (nb : neighbours) : neighbours := filter (fun p => nth (snd p) mask false) nb.
(** The exact sum of training weight (1 by default) times kernel (1 by default). *)
Definition total (weight : option (list b64)) (K : option (b64 -> b64)) (nb : neighbours) : R :=
  Rsum (map (fun p => (match weight with None => 1 | Some w => val (nth (snd p) w zero64) end) * (match K with None => 1 | Some k => val (k (fst p)) end)) nb).
(** Training weights and kernel are at most [c]. *)
Definition upto (c : R) (weight : option (list b64)) (K : option (b64 -> b64)) (nb : neighbours) : Prop :=
  (forall w, weight = Some w -> Forall (fun v => val v <= c) w) /\ (forall k, K = Some k -> Forall (fun p => val (k (fst p)) <= c) nb).
