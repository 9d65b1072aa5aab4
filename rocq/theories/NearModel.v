(** Model of the neighbour queries used by /repo/src/pyhipp/stats/density_estimation.py and regression.py, and of the
    two neighbour-based density estimators.  sklearn.neighbors.KDTree is represented by its contract: [query] gives the k
    training points closest to the query in order of distance (ties in some order), [query_radius] all points at a distance
    of at most r; [dist] is whatever metric the tree uses. *)
From Coq Require Import Reals.
From Verif Require Import Base OrderSpec BinModel NearSpec KernModel.
Local Open Scope list_scope. Local Open Scope nat_scope.

(** sklearn.neighbors.KDTree (density_estimation.py:84-90): every training point with its distance. *)
Definition dist_pairs {X T} (dist : X -> X -> T) (tr : list X) (q : X) : list (T * nat) :=
  combine (map (dist q) tr) (seq 0 (length tr)).
(** density_estimation.py:150-158: KDTree.query(x, k), one query point, 1 <= k. *)
Definition query {X T} (lt : T -> T -> bool) (dist : X -> X -> T) (tr : list X) (q : X) (k : nat) : result (list (T * nat)) :=
  if Nat.leb k (length tr) then Ok (firstn k (np_sort (fun a b : T * nat => lt (fst a) (fst b)) (dist_pairs dist tr q))) else Err ValueError.
(** density_estimation.py:100-104: KDTree.query_radius(x, r), one query point. *)
Definition query_radius {X T} (le : T -> T -> bool) (dist : X -> X -> T) (tr : list X) (q : X) (r : T) : list (T * nat) :=
  filter (fun p => le (fst p) r) (dist_pairs dist tr q).

Local Open Scope R_scope.
(** density_estimation.py:106-122: numpy's true division of finite numbers. *)
Definition ediv (a b : R) : ext :=
  if Req_EM_T b 0 then (if Req_EM_T a 0 then ENaN else if Rlt_dec 0 a then EPInf else EMInf) else EFin (a / b).
(** density_estimation.py:75-90 and 133-148 fit: normalised weights, for a weight sum that is not zero. *)
Definition fit_weights (n : nat) (w : option (list R)) : list R :=
  match w with None => repeat (1 / INR n) n | Some w => map (fun a => a / total w) w end.
(** density_estimation.py:106-122, self._weights[ids]. *)
Definition at_id (ws : list R) (i : nat) : R := nth i ws 0.
(** density_estimation.py:92-122 _LocalKernelDensityEstimation.__call__, one query point with neighbours [nb]: the entry of 'h'.  Kernel values
    are not negative, so their sum is zero only if all are: then 0 * (n / 0) is NaN, and so is the density. *)
Definition local_density (n_dims : nat) (ws : list R) (k : option kernel) (max_dx : R) (nb : list (R * nat)) : ext :=
  let vol := ball n_dims max_dx in
  let w := map (fun p => at_id ws (snd p)) nb in
  match k with
  | None => ediv (total w) vol
  | Some k =>
      match nb with
      | [] => ediv 0 vol
      | _ => let w_k := map (fun p => kernel_at k (fst p)) nb in
             let s := total w_k in
             if Req_EM_T s 0 then ENaN
             else ediv (total (zipwith (fun a b => a * (b * (INR (length nb) / s))) w w_k)) vol
      end
  end.
(** density_estimation.py:118-122: the other two entries of the result. *)
Definition n_neighbors (nb : list (R * nat)) : nat := length nb.
(** density_estimation.py:118-122, the largest distance. *)
Definition neighbor_max_dx (nb : list (R * nat)) : R := match nb with [] => 0 | p :: nb' => fold_left (fun m p => Rmax m (fst p)) nb' (fst p) end.
(** density_estimation.py:99-101: the default radius, from the query points: columns' standard deviations, averaged, over ten. *)
Definition mean_of (l : list R) : R := total l / INR (length l).
(** density_estimation.py:99-101, np.std. *)
Definition std_of (l : list R) : R := sqrt (mean_of (map (fun a => (a - mean_of l) * (a - mean_of l)) l)).
(** density_estimation.py:99-101, one coordinate of the query points. *)
Definition column (rows : list (list R)) (j : nat) : list R := map (fun r => nth j r 0) rows.
(** density_estimation.py:99-101. *)
Definition default_max_dx (n_dims : nat) (rows : list (list R)) : R := mean_of (map (fun j => std_of (column rows j)) (seq 0 n_dims)) / 10.
(** density_estimation.py:233-276: The whole call for explicit [max_dx]: training points, weights, one query. *)
Definition by_local_kernel {X} (dist : X -> X -> R) (n_dims : nat) (tr : list X) (w : option (list R)) (k : option kernel) (max_dx : R) (q : X) : ext :=
  local_density n_dims (fit_weights (length tr) w) k max_dx (query_radius Rleb dist tr q max_dx).

(** density_estimation.py:150-180 _KnnDensityEstimation.__call__, one query point with its neighbours: density, number of neighbours, radius.
    Masked entries contribute 0 to every sum. *)
Definition knn_density (n_dims : nat) (ws : list R) (k : option kernel) (max_dx : option R) (nb : list (R * nat)) : ext * nat * R :=
  let r_max := neighbor_max_dx nb in
  let kept := match max_dx with Some m => filter (fun p => Rltb (fst p) m) nb | None => nb end in
  let r_max := match max_dx with Some m => Rmin r_max m | None => r_max end in
  let vol := ball n_dims r_max in
  let n_w := length kept in
  let w := map (fun p => at_id ws (snd p)) kept in
  (match k with
   | None => ediv (total w) vol
   | Some k =>
       match kept with
       | [] => ediv 0 vol
       | _ => let w_k := map (fun p => kernel_at k (fst p)) kept in
              let s := total w_k in
              if Req_EM_T s 0 then ENaN else ediv (total (zipwith (fun a b => a * (b * (INR n_w / s))) w w_k)) vol
       end
   end, n_w, r_max).
(** density_estimation.py:278-293. *)
Definition by_knn {X} (dist : X -> X -> R) (n_dims : nat) (tr : list X) (w : option (list R)) (k : nat) (max_dx : option R) (kern : option kernel) (q : X)
    : result (ext * nat * R) :=
  rmap (knn_density n_dims (fit_weights (length tr) w) kern max_dx) (query Rltb dist tr q k).
