(** Vocabulary of C99. *)
From Coq Require Import ZArith Reals List Bool.
Require Import Flocq.Core.Core Flocq.IEEE754.BinarySingleNaN.
From Verif Require Import Base ProcFloat.
Import ListNotations. Local Open Scope R_scope.

(** A call: samples and, perhaps, weights; it is proper with as many weights as samples. *)
Definition call : Type := list b64 * option (list b64).
Definition proper (c : call) : bool := match snd c with None => true | Some w => Nat.eqb (length w) (length (fst c)) end.
(** All samples of the proper calls with their weights (1 without weights), in order. *)
Definition samples (h : list call) : list (b64 * b64) :=
  flat_map (fun c => if proper c then combine (fst c) (match snd c with None => repeat (of_Z64 1) (length (fst c)) | Some w => w end) else []) h.
(** The weights of those that [loc] puts into bin [i], in order. *)
Definition into (loc : b64 -> Z) (i : nat) (s : list (b64 * b64)) : list b64 := map snd (filter (fun p => (loc (fst p) =? Z.of_nat i)%Z) s).
