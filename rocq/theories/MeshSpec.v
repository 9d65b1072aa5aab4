(** Specification vocabulary for meshes in periodic boxes (C38-C45). *)
From Coq Require Import QArith Qabs Permutation.
From Verif Require Import Base OrderSpec BinSpec.
Local Open Scope list_scope. Local Open Scope nat_scope.

(** A point of the periodic box. *)
Definition vec : Type := (Q * Q * Q)%type.
Definition ivec : Type := (Z * Z * Z)%type.
Definition map2v (P : Q -> Q -> Prop) (a b : vec) : Prop :=
  let '(a0, a1, a2) := a in let '(b0, b1, b2) := b in P a0 b0 /\ P a1 b1 /\ P a2 b2.
(** [y] moved by [k] whole periods along each axis. *)
Definition image (l_box : Q) (y : vec) (k : ivec) : vec :=
  let '(y0, y1, y2) := y in let '(k0, k1, k2) := k in
  (y0 + inject_Z k0 * l_box, y1 + inject_Z k1 * l_box, y2 + inject_Z k2 * l_box)%Q.
(** Squared Euclidean distance. *)
Definition dist2 (a b : vec) : Q :=
  let '(a0, a1, a2) := a in let '(b0, b1, b2) := b in
  ((a0 - b0) * (a0 - b0) + (a1 - b1) * (a1 - b1) + (a2 - b2) * (a2 - b2))%Q.
(** Some periodic image of [y] is within distance [r] of [x]. *)
Definition within (l_box : Q) (x y : vec) (r : Q) : Prop := exists k, (dist2 (image l_box y k) x <= r * r)%Q.
(** Some periodic image of [y] is, along every axis, less than [d] away from [x]. *)
Definition near_box (l_box : Q) (x y : vec) (d : Q) : Prop := exists k, map2v (fun a b => Qabs (a - b) < d)%Q (image l_box y k) x.
(** [args] lists every position 0..len-1 once, in an order making [keys] nondecreasing: what numpy's argsort guarantees
    (its default algorithm does not fix the order of equal keys). *)
Definition sorts (keys : list Z) (args : list nat) : Prop :=
  Permutation args (seq 0 (length keys)) /\
  forall i a b, nth_error args i = Some a -> nth_error args (S i) = Some b -> (nth a keys 0 <= nth b keys 0)%Z.
(** The triangular cloud of width two cells, and its share falling on grid point [i] of a periodic axis of [n] cells, for a
    position [u] in units of cells with 0 <= u < n: the two images that can reach the point. *)
Definition tri (d : Q) : Q := if Qle_bool (Qabs d) 1 then (1 - Qabs d)%Q else 0%Q.
Definition cloud (n : Z) (u : Q) (i : Z) : Q := (tri (u - inject_Z i) + tri (u - inject_Z i - inject_Z n))%Q.
(** Cell (i,j,k) of a flattened n x n x n array. *)
Definition at3 (n : Z) (d : list Q) (i j k : Z) : option Q := nth_error d (Z.to_nat ((i * n + j) * n + k)).
(** Equality of lists of rationals as numbers. *)
Definition Qeql : list Q -> list Q -> Prop := Forall2 Qeq.
(** Coordinate [y] lies, up to whole periods, in the half-open interval of cell number [i] of width [h]. *)
Definition in_interval (l_box h y : Q) (i : Z) : Prop :=
  exists k, (inject_Z i * h <= y + inject_Z k * l_box)%Q /\ (y + inject_Z k * l_box < (inject_Z i + 1) * h)%Q.
(** Point [y] lies in cell (i0,i1,i2). *)
Definition in_cell (l_box h : Q) (y : vec) (c : ivec) : Prop :=
  let '(y0, y1, y2) := y in let '(i0, i1, i2) := c in
  in_interval l_box h y0 i0 /\ in_interval l_box h y1 i1 /\ in_interval l_box h y2 i2.
(** Coordinate [y] is, up to whole periods, at most half a cell from grid point [i] (the upper half end excluded). *)
Definition nearest (l_box h y : Q) (i : Z) : Prop :=
  exists k, (- (1 # 2) * h <= y + inject_Z k * l_box - inject_Z i * h)%Q /\ (y + inject_Z k * l_box - inject_Z i * h < (1 # 2) * h)%Q.
(** Weighted particles: unit weights when none are given. *)
Definition particles (xs : list vec) (ws : option (list Q)) : list (vec * Q) :=
  match ws with Some ws => combine xs ws | None => map (fun x => (x, 1%Q)) xs end.
Definition in_box (l_box : Q) (x : vec) : Prop :=
  let '(x0, x1, x2) := x in ((0 <= x0 /\ x0 < l_box) /\ (0 <= x1 /\ x1 < l_box) /\ (0 <= x2 /\ x2 < l_box))%Q.
(** Share of a unit particle at [x] that falls on grid point (i,j,k). *)
Definition cloud3 (n : Z) (h : Q) (x : vec) (i j k : Z) : Q :=
  let '(x0, x1, x2) := x in (cloud n (x0 / h) i * cloud n (x1 / h) j * cloud n (x2 / h) k)%Q.
