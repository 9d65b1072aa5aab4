(** Specification vocabulary for binning (C28-C31, C37). *)
From Coq Require Import QArith.
From Verif Require Import Base OrderSpec.
Local Open Scope list_scope. Local Open Scope nat_scope.

(** [i] is the place of [x] among [edges]: exactly the edges number 0..i are not above [x]. *)
Definition bin_index {T} (lt : T -> T -> bool) (edges : list T) (x : T) (i : Z) : Prop :=
  (-1 <= i < Z.of_nat (length edges))%Z /\
  forall j e, nth_error edges j = Some e -> ((Z.of_nat j <= i)%Z <-> lt x e = false).

(** Floating point data without rounding: rationals, the two infinities and NaN. *)
Inductive num := Fin (q : Q) | PInf | NInf | NaN.
(** numpy's sort order: NaN after everything. *)
Definition np_lt (a b : num) : bool :=
  match a, b with
  | NaN, _ => false
  | _, NaN => true
  | _, NInf => false
  | NInf, _ => true
  | PInf, _ => false
  | _, PInf => true
  | Fin p, Fin q => Qltb p q
  end.

Fixpoint Qsum (l : list Q) : Q := match l with [] => 0%Q | a :: l' => (a + Qsum l')%Q end.

(** [x] lies in the half-open bin [edge i, edge (i+1)). *)
Definition in_bin (edges : list Q) (i : nat) (x : num) : bool :=
  match x, nth_error edges i, nth_error edges (S i) with
  | Fin q, Some lo, Some hi => Qle_bool lo q && Qltb q hi
  | _, _, _ => false
  end.
(** Sum of the weights of the samples satisfying a test. *)
Definition weight_where {X} (test : X -> bool) (s : list (X * Q)) : Q := Qsum (map snd (filter (fun p => test (fst p)) s)).
(** The weighted samples of the calls that do not fail. *)
Definition call_samples (c : list num * option (list Q)) : list (num * Q) :=
  match snd c with
  | None => map (fun x => (x, 1%Q)) (fst c)
  | Some w => if Nat.eqb (length (fst c)) (length w) then combine (fst c) w else []
  end.
Definition samples (h : list (list num * option (list Q))) : list (num * Q) := flat_map call_samples h.

(** [x] in the half-open range from the first to the last edge. *)
Definition in_range (edges : list Q) (x : num) : bool :=
  match x with Fin q => Qle_bool (nth 0 edges 0%Q) q && Qltb q (last edges 0%Q) | _ => false end.
(** [x] in [e_i, e_j), or [e_i, e_j] when [j] is the last edge. *)
Definition in_window (e : list Q) (i j : nat) (x : Q) : bool :=
  match nth_error e i, nth_error e j with
  | Some lo, Some hi => Qle_bool lo x && (Qltb x hi || (Nat.eqb (S j) (length e) && Qle_bool x hi))
  | _, _ => false
  end.
Definition hist_samples (x : list Q) (w : option (list Q)) : list (Q * Q) :=
  combine x (match w with None => repeat 1%Q (length x) | Some w => w end).

