(** Vocabulary for C89. *)
From Coq Require Import Reals List Permutation.
Require Import Flocq.Core.Core Flocq.IEEE754.BinarySingleNaN.
From Verif Require Import ProcFloat.
Import ListNotations. Local Open Scope R_scope.

(** [sums d l s]: [s] is got by adding the numbers of [l], in some order and grouping (and perhaps some zeros), with double-precision additions, no
    number taking part in more than [d] of them. *)
Inductive sums : nat -> list b64 -> b64 -> Prop :=
| sums_nothing z : fin z = true -> val z = 0 -> sums 0 [] z
| sums_one x : sums 0 [x] x
| sums_add d l s l' s' : sums d l s -> sums d l' s' -> sums (S d) (l ++ l') (add64 s s')
| sums_order d l l' s : sums d l s -> Permutation l l' -> sums d l' s
| sums_more d d' l s : sums d l s -> (d <= d')%nat -> sums d' l s.

(** Exact sums of the values and of their magnitudes. *)
Definition exact (l : list b64) : R := fold_right (fun x s => val x + s) 0 l.
Definition size (l : list b64) : R := fold_right (fun x s => Rabs (val x) + s) 0 l.
(** All numbers are finite (no NaN, no infinity). *)
Definition finite (l : list b64) : Prop := Forall (fun x => fin x = true) l.
(** The selected entries, all without a mask. *)
Definition chosen {A} (m : option (list bool)) (x : list A) : list A :=
  match m with None => x | Some m => map fst (filter (fun p => snd p) (combine x m)) end.
(** [2 ^ -52], the spacing of the doubles at 1. *)
Definition eps : R := bpow radix2 (-52).
(** An adding routine adds: for n numbers, no number takes part in more than [D n] additions. *)
Definition adds (total : list b64 -> b64) (D : nat -> nat) : Prop := forall l, sums (D (length l)) l (total l).
(** What each chosen entry contributes: its value, or value times weight; the exact total and the total magnitude of a list. *)
Definition contributions (x : list b64) (w : option (list b64)) (m : option (list bool)) : list R :=
  chosen m match w with None => map val x | Some w => map (fun p => val (fst p) * val (snd p)) (combine x w) end.
Definition Rsum (l : list R) : R := fold_right Rplus 0 l.
Definition Rsize (l : list R) : R := Rsum (map Rabs l).
(** Weights and mask have the shape of x; everything is finite (also what is masked out). *)
Definition well_formed (x : list b64) (w : option (list b64)) (m : option (list bool)) : Prop :=
  finite x /\ (forall w', w = Some w' -> finite w' /\ length w' = length x) /\ (forall m', m = Some m' -> length m' = length x).
(** numpy's routine: 26 + log2 (n / 56) additions at most (30 for a thousand numbers, 40 for a million). *)
Definition np_depth (n : nat) : nat := (26 + Nat.log2 (n / 56))%nat.
(** The exact mean and variance (dividing by n) of a list of real numbers. *)
Definition mean_of (c : list R) : R := Rsum c / INR (length c).
Definition variance_of (c : list R) : R := Rsum (map (fun v => (v - mean_of c) ^ 2) c) / INR (length c).
