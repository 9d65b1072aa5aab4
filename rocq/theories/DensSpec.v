(** Vocabulary for histogram densities (C63). *)
From Coq Require Import QArith.
From Verif Require Import Base OrderSpec BinSpec.
Local Open Scope list_scope. Local Open Scope nat_scope.

(** A point lies in cell [idx] of the product grid: coordinate by coordinate it is in [e_i, e_(i+1)), the last bin being closed. *)
Definition in_side (e : list Q) (i : nat) (x : num) : bool := match x with Fin q => in_window e i (S i) q | _ => false end.
Fixpoint in_cell (gs : list (list Q)) (idx : list nat) (x : list num) : bool :=
  match gs, idx, x with
  | [], [], [] => true
  | g :: gs', i :: idx', a :: x' => in_side g i a && in_cell gs' idx' x'
  | _, _, _ => false
  end.
(** The same with every bin half-open. *)
Fixpoint in_cell_open (gs : list (list Q)) (idx : list nat) (x : list num) : bool :=
  match gs, idx, x with
  | [], [], [] => true
  | g :: gs', i :: idx', a :: x' => in_bin g i a && in_cell_open gs' idx' x'
  | _, _, _ => false
  end.
(** Every coordinate within the first and the last location, inclusive. *)
Definition within (e : list Q) (x : num) : bool :=
  match x with Fin q => Qle_bool (nth 0 e 0%Q) q && Qle_bool q (last e 0%Q) | _ => false end.
Fixpoint in_extent (gs : list (list Q)) (x : list num) : bool :=
  match gs, x with [], [] => true | g :: gs', a :: x' => within g a && in_extent gs' x' | _, _ => false end.
(** Width of bin [i]; volume of a cell. *)
Definition width (e : list Q) (i : nat) : Q := (nth (S i) e 0 - nth i e 0)%Q.
Fixpoint cell_volume (gs : list (list Q)) (idx : list nat) : Q :=
  match gs, idx with g :: gs', i :: idx' => (width g i * cell_volume gs' idx')%Q | _, _ => 1%Q end.
(** [idx] is a cell of the grid. *)
Definition is_cell (gs : list (list Q)) (idx : list nat) : Prop := Forall2 (fun i (g : list Q) => S i < length g) idx gs.
(** All cells, each listed once. *)
Fixpoint cells (gs : list (list Q)) : list (list nat) :=
  match gs with [] => [[]] | g :: gs' => flat_map (fun i => map (cons i) (cells gs')) (seq 0 (length g - 1)) end.
(** Locations strictly increasing, at least two. *)
Definition good_grid (gs : list (list Q)) : Prop := Forall (fun g => 2 <= length g /\ increasing Qltb g) gs.
(** Samples with their weights (1 each when none are given). *)
Definition weighted (x : list (list num)) (w : option (list Q)) : list (list num * Q) :=
  combine x (match w with Some w => w | None => repeat 1%Q (length x) end).
