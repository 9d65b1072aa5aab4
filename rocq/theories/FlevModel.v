(** Contour levels of /repo/src/pyhipp/plot/two_dim.py (Scatter2D.cum_prob_mass, z_level_at_percentile) and KNearestNeighbor2D in IEEE-754 binary64 (Flocq).  np.sort's result is a
    parameter: the flattened densities, smallest first. *)
From Coq Require Import ZArith Bool List.
Require Import Flocq.Core.Core Flocq.IEEE754.BinarySingleNaN.
From Verif Require Import Base ProcFloat MeshFloatModel FredModel FquaModel FknnModel FdenModel.
Import ListNotations. Local Open Scope list_scope.

(** two_dim.py:245-251 cum_prob_mass: np.cumsum of the sorted densities, divided by its last entry. *)
Definition l_cum (s : list b64) : list b64 := let c := f_cumsum s in map (fun v => div64 v (last c zero64)) c.
(** two_dim.py:256 np.searchsorted(prob, q), side 'left', for a q that is a number: the entries below q (NaN entries rank last). *)
Definition l_count (prob : list b64) (q : b64) : nat := length (filter (fun v => Bltb v q) prob).
(** two_dim.py:253-259 z_level_at_percentile, one percentile. *)
Definition l_level (s : list b64) (p : b64) (id_shift : Z) : b64 :=
  let ps_lo := sub64 (of_Z64 1) p in
  let prob := l_cum s in
  let id := (Z.of_nat (l_count prob ps_lo) + id_shift)%Z in
  let id := Z.max 0 (Z.min (Z.of_nat (length prob) - 1) id) in
  nth (Z.to_nat id) s zero64.
(** two_dim.py:214-222: whether scatter(hidden_in_p) shows a point of density z. *)
Definition l_shown (s : list b64) (p : b64) (z : b64) : bool := Bltb z (l_level s p (-1)).
(** two_dim.py:116-125 KNearestNeighbor2D.on at one point: [nb] are the k nearest training points, the furthest last. *)
Definition k2_64 (w : option (list b64)) (nb : neighbours) : b64 :=
  let r := last (map fst nb) zero64 in
  let s := mul64 (mul64 pi64 r) r in
  match w with None => div64 (of_Z64 (Z.of_nat (length nb))) s | Some w => div64 (np_sum (pick w nb)) s end.
