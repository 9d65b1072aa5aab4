(** Vocabulary of the statements about the compiled kernels (RawProps.v). *)
From Coq Require Import ZArith.
From Verif Require Import Base RawModel.
Local Open Scope list_scope. Local Open Scope nat_scope.

(** The run ends normally, in a result with [P]. *)
Definition ok {A} (r : run A) (P : A -> Prop) : Prop := exists a, r = Fine a /\ P a.
(** As many elements as the shape says. *)
Definition shaped {A} (a : arr3 A) : Prop := length (cell_list a) = d0 a * d1 a * d2 a.
(** The same shape. *)
Definition same_dims {A B} (a : arr3 A) (b : arr3 B) : Prop := d0 a = d0 b /\ d1 a = d1 b /\ d2 a = d2 b.
(** A cube of n cells along each axis. *)
Definition cube {A} (n : Z) (d : arr3 A) : Prop := shaped d /\ (0 < n)%Z /\ Z.of_nat (d0 d) = n /\ Z.of_nat (d1 d) = n /\ Z.of_nat (d2 d) = n.
(** Every bin: its content, with the weights of the positions with its number added one after the other. *)
Definition deposited {T} (F : farith T) (ids : list Z) (ws : list T) (data out : list T) : Prop := length out = length data /\
  forall j v, nth_error data j = Some v ->
    nth_error out j = Some (fold_left (f_add F) (map snd (filter (fun p => (fst p =? Z.of_nat j)%Z) (combine ids ws))) v).
(** Offsets of the cells: one more than cells, starting with 0, non-decreasing, none above the number of points. *)
Definition offsets (n : Z) (N : nat) (firsts : list Z) : Prop := Z.of_nat (length firsts) = (n * n * n + 1)%Z /\ nth_error firsts 0 = Some 0%Z /\
  (forall i b e, nth_error firsts i = Some b -> nth_error firsts (S i) = Some e -> (0 <= b <= e)%Z /\ (e <= Z.of_nat N)%Z).
(** The mode number of an index: the upper half of the indices counts down from -1. *)
Definition mode_of (N i : nat) : Z := if Nat.leb i (N / 2) then Z.of_nat i else (Z.of_nat i - Z.of_nat N)%Z.
(** DensityField objects: created, then any number of accepted calls of add. *)
Inductive density {T} (F : farith T) (n : Z) (h : T) : arr3 T -> Prop :=
| density_new d : df_new F n = Fine d -> density F n h d
| density_add d ncols xs ws d' : density F n h d -> Forall (fun x => length x = ncols) xs -> df_add F n h d ncols xs ws = Fine d' -> density F n h d'.
(** np.argsort returns an index of the array for each of its elements. *)
Definition indices (argsort : list Z -> list Z) : Prop := forall l, length (argsort l) = length l /\ Forall (fun i => 0 <= i < Z.of_nat (length l))%Z (argsort l).
