(** Neighbour density estimates of /repo/src/pyhipp/stats/density_estimation.py (67-181) and Tophat._ball_volume of kernel.py in IEEE-754 binary64 (Flocq), for one query point: the
    tree's answer (distances and indices) is an argument. *)
From Coq Require Import ZArith List Bool.
Require Import Flocq.Core.Core Flocq.IEEE754.BinarySingleNaN.
From Verif Require Import Base ProcFloat MeshFloatModel FredModel FknnModel.
Import ListNotations. Local Open Scope list_scope. Local Open Scope nat_scope.

(** kernel.py:68: np.pi = 0x1.921fb54442d18p+1. *)
Definition pi64 : b64 := @B754_finite 53 1024 false 7074237752028440 (-51) eq_refl.
(** kernel.py:59-69 _ball_volume for n_dims >= 0. *)
Fixpoint ball64 (n : nat) (r : b64) : b64 :=
  match n with
  | O => of_Z64 1
  | S O => mul64 (of_Z64 2) r
  | S (S k) => mul64 (mul64 (mul64 (div64 (mul64 (of_Z64 2) pi64) (of_Z64 (Z.of_nat n))) r) r) (ball64 k r)
  end.
(** density_estimation.py:81-87, 139-145: the weights of [n] training points. *)
Definition fit64 (n : nat) (w : option (list b64)) : list b64 :=
  match w with
  | None => repeat (div64 (of_Z64 1) (of_Z64 (Z.of_nat n))) n
  | Some w => let s := np_sum w in map (fun v => div64 v s) w
  end.
(** density_estimation.py:104-117: one query point; [wt] are the fitted weights. *)
Definition local64 (n_dims : nat) (wt : list b64) (K : option (b64 -> b64)) (max_dx : b64) (nb : neighbours) : b64 :=
  let vol := ball64 n_dims max_dx in
  let w := pick wt nb in
  let w := match K with
           | None => w
           | Some K => let wk := map (fun p => K (fst p)) nb in
                       let wk := if 0 <? length wk then let c := div64 (of_Z64 (Z.of_nat (length wk))) (np_sum wk) in map (fun v => mul64 v c) wk else wk in
                       times w wk
           end in
  div64 (np_sum w) vol.
(** density_estimation.py:157: ds.max(1) of one row without NaN. *)
Definition largest (l : list b64) : b64 := match l with [] => zero64 | a :: l => fold_left (fun m x => if Bltb m x then x else m) l a end.
(** density_estimation.py:150-181: one query point; the density, the number of neighbours and the radius. *)
Definition knn64 (n_dims : nat) (wt : list b64) (K : option (b64 -> b64)) (max_dx : option b64) (nb : neighbours) : b64 * nat * b64 :=
  let r_max := largest (map fst nb) in
  let r_max := match max_dx with None => r_max | Some m => if Bltb m r_max then m else r_max end in
  let mask := match max_dx with None => map (fun _ => true) nb | Some m => map (fun p => Bltb (fst p) m) nb end in
  let vol := ball64 n_dims r_max in
  let n_w := length (filter (fun b : bool => b) mask) in
  let w := pick wt nb in
  let w := match K with
           | None => w
           | Some K => let wk := map (fun p => K (fst p)) nb in
                       let s := np_sum (times wk (map of_bool64 mask)) in
                       let s := if n_w =? 0 then floor64 else s in
                       let c := div64 (of_Z64 (Z.of_nat n_w)) s in
                       times w (map (fun v => mul64 v c) wk)
           end in
  (div64 (np_sum (times w (map of_bool64 mask))) vol, n_w, r_max).
