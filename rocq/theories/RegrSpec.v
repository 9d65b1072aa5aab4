(** Vocabulary for neighbour regression (C64, C70). *)
From Coq Require Import QArith.
From Verif Require Import Base OrderSpec BinSpec.
Local Open Scope list_scope. Local Open Scope nat_scope.

(** Weight of a neighbour (distance, position): its own weight (1 if there are none) times the kernel (1 if there is none). *)
Definition nb_weight (w : option (list Q)) (K : option (Q -> Q)) (p : Q * nat) : Q :=
  ((match w with Some w => nth (snd p) w 0 | None => 1 end) * (match K with Some K => K (fst p) | None => 1 end))%Q.
(** The neighbours that count: strictly closer than the limit. *)
Definition closer (m : option Q) (nb : list (Q * nat)) : list (Q * nat) :=
  match m with Some m => filter (fun p => Qltb (fst p) m) nb | None => nb end.
Definition wsum (f : Q * nat -> Q) (nb : list (Q * nat)) : Q := Qsum (map f nb).
