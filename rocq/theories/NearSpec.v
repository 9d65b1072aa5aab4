(** Vocabulary for nearest-neighbour statistics (C64, C69, C70). *)
From Coq Require Import Reals.
From Verif Require Import Base OrderSpec.
Local Open Scope list_scope. Local Open Scope nat_scope.

(** [l] lists neighbours of [q] among [tr]: pairs (distance, position), each position at most once. *)
Definition neighbours {X T} (dist : X -> X -> T) (tr : list X) (q : X) (l : list (T * nat)) : Prop :=
  NoDup (map snd l) /\ forall d i, In (d, i) l -> exists p, nth_error tr i = Some p /\ d = dist q p.
(** [l] are [k] nearest neighbours in order of distance: everything left out is at least as far as everything listed. *)
Definition nearest {X T} (lt : T -> T -> bool) (dist : X -> X -> T) (tr : list X) (q : X) (k : nat) (l : list (T * nat)) : Prop :=
  length l = k /\ neighbours dist tr q l /\ ascending lt (map fst l) /\
  forall i p, nth_error tr i = Some p -> ~ In i (map snd l) -> forall d, In d (map fst l) -> lt (dist q p) d = false.
(** Extended real numbers: what a float division may give. *)
Inductive ext := EFin (r : R) | EPInf | EMInf | ENaN.
Definition Rltb (a b : R) : bool := if Rlt_dec a b then true else false.
Definition Rleb (a b : R) : bool := if Rle_dec a b then true else false.
Definition total (l : list R) : R := fold_right Rplus 0%R l.
(** Training points with their weights (1 each when none are given) at a distance of at most [r] from [q]. *)
Definition weights_or_1 {X} (tr : list X) (w : option (list R)) : list R := match w with Some w => w | None => repeat 1%R (length tr) end.
Definition ball_members {X} (dist : X -> X -> R) (tr : list X) (w : option (list R)) (q : X) (r : R) : list (X * R) :=
  filter (fun p => Rleb (dist q (fst p)) r) (combine tr (weights_or_1 tr w)).
(** Weights that can be normalised. *)
Definition usable {X} (tr : list X) (w : option (list R)) : Prop :=
  tr <> [] /\ match w with Some w => length w = length tr /\ total w <> 0%R | None => True end.
