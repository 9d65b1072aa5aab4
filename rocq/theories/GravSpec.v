(** Specification vocabulary for fields on periodic grids and their Fourier transforms (C46, C47), over the reals. *)
From Coq Require Import Reals.
Local Open Scope R_scope.
(** f 0 + ... + f (n-1), and over a box of indices. *)
Fixpoint sumn (n : nat) (f : nat -> R) : R := match n with O => 0 | S n => sumn n f + f n end.
Definition sum3 (n0 n1 n2 : nat) (f : nat -> nat -> nat -> R) : R := sumn n0 (fun i => sumn n1 (fun j => sumn n2 (fun k => f i j k))).
(** A three-dimensional array, read at valid indices. *)
Definition grid (T : Type) : Type := nat -> nat -> nat -> T.
Definition mean (n : nat) (x : grid R) : R := sum3 n n n x / INR (n * n * n).
(** Equal at all valid indices. *)
Definition same {T : Type} (n0 n1 n2 : nat) (x y : grid T) : Prop := forall i j k, (i < n0)%nat -> (j < n1)%nat -> (k < n2)%nat -> x i j k = y i j k.
Definition cplx : Type := (R * R)%type.
(** What scipy documents for rfftn(x, norm='ortho') of an (n,n,n) array, at wave numbers k0,k1 < n and k2 <= n/2. *)
Definition rfftn (n : nat) (x : grid R) : grid cplx := fun k0 k1 k2 =>
  let ph j0 j1 j2 := 2 * PI * (INR k0 * INR j0 + INR k1 * INR j1 + INR k2 * INR j2) / INR n in
  (/ sqrt (INR (n * n * n)) * sum3 n n n (fun j0 j1 j2 => x j0 j1 j2 * cos (ph j0 j1 j2)),
   / sqrt (INR (n * n * n)) * sum3 n n n (fun j0 j1 j2 => - (x j0 j1 j2 * sin (ph j0 j1 j2)))).
(** ... and for irfftn(X, norm='ortho') of an (n,n,h+1) array: an (n,n,2h) array; the components with 0 < k2 < h stand
    for themselves and their complex conjugates. *)
Definition irfftn (n h : nat) (X : grid cplx) : grid R := fun j0 j1 j2 =>
  let ph k0 k1 k2 := 2 * PI * (INR k0 * INR j0 / INR n + INR k1 * INR j1 / INR n + INR k2 * INR j2 / INR (2 * h)) in
  / sqrt (INR (n * n * (2 * h))) *
  sum3 n n (S h) (fun k0 k1 k2 => (if (Nat.eqb k2 0 || Nat.eqb k2 h)%bool then 1 else 2) *
     (fst (X k0 k1 k2) * cos (ph k0 k1 k2) - snd (X k0 k1 k2) * sin (ph k0 k1 k2))).
