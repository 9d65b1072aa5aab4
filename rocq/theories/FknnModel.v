(** Neighbour regression of /repo/src/pyhipp/stats/regression.py with the kernels of kernel.py in IEEE-754 binary64, round to nearest even (Flocq),
    for one query point: the tree's answer (distances and indices) is an argument.  Two-dimensional arrays are reduced row by row (C48, C89). *)
From Coq Require Import ZArith List.
Require Import Flocq.Core.Core Flocq.IEEE754.BinarySingleNaN.
From Verif Require Import Base ProcFloat MeshFloatModel FredModel.
Import ListNotations. Local Open Scope list_scope. Local Open Scope nat_scope.

(** kernel.py:48-51 Tophat._impl on one distance. *)
Definition k_tophat (radius d : b64) : b64 := of_bool64 (Bltb d radius).
(** kernel.py:32-36 Gaussian._impl on one distance; [E] is the library's exp. *)
Definition k_gauss (E : b64 -> b64) (sigma d : b64) : b64 :=
  let d_sq := mul64 d d in let sigma_sq := mul64 sigma sigma in E (div64 (mul64 (Bopp half64) d_sq) sigma_sq).
(** regression.py:60-61: what the tree returns for one query point: distances and indices. *)
Definition neighbours : Type := list (b64 * nat).
(** regression.py:64-65: y_tr[ids] (the indices are those of training points). *)
Definition pick (l : list b64) (nb : neighbours) : list b64 := map (fun p => nth (snd p) l zero64) nb.
(** regression.py:65-68. *)
Definition row_weight (w : option (list b64)) (K : option (b64 -> b64)) (nb : neighbours) : option (list b64) :=
  let ws := option_map (fun w => pick w nb) w in
  match K with
  | None => ws
  | Some K => let wk := map (fun p => K (fst p)) nb in match ws with None => Some wk | Some ws => Some (times ws wk) end
  end.
(** regression.py:63. *)
Definition row_mask (max_dx : option b64) (nb : neighbours) : option (list bool) := option_map (fun r => map (fun p => Bltb (fst p) r) nb) max_dx.
(** regression.py:49-80, reduce 'sum' and 'mean' (reduction.py:114-150). *)
Definition knn_sum (y : list b64) (w : option (list b64)) (K : option (b64 -> b64)) (max_dx : option b64) (nb : neighbours) : b64 :=
  f_sum np_sum (pick y nb) (row_weight w K nb) (row_mask max_dx nb).
(** regression.py:49-80 (and 133-140, the local kernel, without [max_dx]: the query is by radius). *)
Definition knn_mean (fill : b64) (y : list b64) (w : option (list b64)) (K : option (b64 -> b64)) (max_dx : option b64) (nb : neighbours) : b64 :=
  f_mean np_sum fill (pick y nb) (row_weight w K nb) (row_mask max_dx nb).
(** regression.py:295-297: weight defaults to ones; mask * weight. *)
Definition training_weight (n : nat) (weight : option (list b64)) : list b64 := match weight with Some w => w | None => repeat (of_Z64 1) n end.
(** regression.py:297. *)
Definition masked_weight (mask : list bool) (weight : list b64) : list b64 := times (map of_bool64 mask) weight.
(** regression.py:305: w.clip(1.0e-10). *)
Definition floor64 : b64 := div64 (of_Z64 1) (of_Z64 (10 ^ 10)).
(** regression.py:305. *)
Definition clip_low (w : b64) : b64 := if Bltb w floor64 then floor64 else w.
(** regression.py:279-309 masked_fraction_by_knn for one query point: the value and whether it is invalid. *)
Definition knn_fraction (mask : list bool) (weight : option (list b64)) (K : option (b64 -> b64)) (max_dx : option b64) (min_count : Z) (nb : neighbours) : b64 * bool :=
  let wt := training_weight (length mask) weight in
  let w := knn_sum wt None K max_dx nb in
  let w_masked := knn_sum (masked_weight mask wt) None K max_dx nb in
  (div64 w_masked (clip_low w), (Z.of_nat (f_count (pick wt nb) (row_mask max_dx nb)) <? min_count)%Z).
