(** scipy.interpolate.interp1d(xs, ys, kind='slinear'), as used in /repo/src/pyhipp/astro/plot/shortcuts.py:64-66 and
    /repo/src/pyhipp/astro/cosmology/halo_theory.py:69, 214-217, over the real numbers (no NaN): the points are sorted by x,
    fewer than two points, unequal lengths or repeated x raise ValueError; between neighbouring points the value is linear;
    outside ValueError, or (fill_value='extrapolate') the first or last piece continued. *)
From Coq Require Import Reals.
From Verif Require Import Base.
Local Open Scope list_scope. Local Open Scope R_scope.

(** scipy.interpolate.interp1d as shortcuts.py:61-68 and halo_theory.py:62-72, 193-218 use it: one straight piece. *)
Definition lerp (p q : R * R) (x : R) : R := snd p + (x - fst p) * (snd q - snd p) / (fst q - fst p).
(** scipy.interpolate.interp1d as shortcuts.py:61-68 and halo_theory.py:62-72, 193-218 use it: the piece that holds x. *)
Fixpoint piece (p : R * R) (rest : list (R * R)) (x : R) : R :=
  match rest with
  | [] => snd p
  | q :: rest' => match rest' with [] => lerp p q x | _ => if Rle_dec x (fst q) then lerp p q x else piece q rest' x end
  end.
(** scipy.interpolate.interp1d as shortcuts.py:61-68 and halo_theory.py:62-72, 193-218 use it: the whole function. *)
Definition pwl (pts : list (R * R)) (x : R) : R := match pts with p :: rest => piece p rest x | [] => 0 end.
(** scipy.interpolate.interp1d as shortcuts.py:61-68 and halo_theory.py:62-72, 193-218 use it: sorting the nodes. *)
Fixpoint ins (p : R * R) (l : list (R * R)) : list (R * R) :=
  match l with [] => [p] | q :: l' => if Rlt_dec (fst q) (fst p) then q :: ins p l' else p :: q :: l' end.
(** scipy.interpolate.interp1d as shortcuts.py:61-68 and halo_theory.py:62-72, 193-218 use it: sorting the nodes. *)
Fixpoint isort (l : list (R * R)) : list (R * R) := match l with [] => [] | p :: l' => ins p (isort l') end.
(** scipy.interpolate.interp1d as shortcuts.py:61-68 and halo_theory.py:62-72, 193-218 use it: no two nodes at the same place. *)
Fixpoint distinct (l : list (R * R)) : bool := match l with p :: ((q :: _) as l') => (if Rlt_dec (fst p) (fst q) then true else false) && distinct l' | _ => true end.
(** scipy.interpolate.interp1d as shortcuts.py:61-68 and halo_theory.py:62-72, 193-218 use it. *)
Definition interp1d (xs ys : list R) (extrapolate : bool) : result (R -> result R) :=
  if negb (Nat.eqb (length xs) (length ys)) then Err ValueError else
  let pts := isort (combine xs ys) in
  if Nat.ltb (length pts) 2 then Err ValueError else if negb (distinct pts) then Err ValueError else
  Ok (fun x => if extrapolate then Ok (pwl pts x)
               else if Rlt_dec x (fst (hd (0, 0) pts)) then Err ValueError else if Rlt_dec (fst (last pts (0, 0))) x then Err ValueError else Ok (pwl pts x)).

(** ** Vocabulary of the theorems *)
(** Vocabulary of the theorems about scipy.interpolate.interp1d as shortcuts.py:61-68 and halo_theory.py:62-72, 193-218 use it. *)
Definition climbing (l : list R) : Prop := forall i j a b, (i < j)%nat -> nth_error l i = Some a -> nth_error l j = Some b -> a < b.
(** Vocabulary of the theorems about scipy.interpolate.interp1d as shortcuts.py:61-68 and halo_theory.py:62-72, 193-218 use it. *)
Definition falling (l : list R) : Prop := forall i j a b, (i < j)%nat -> nth_error l i = Some a -> nth_error l j = Some b -> b < a.
