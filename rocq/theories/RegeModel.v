(** Model of the entry points of /repo/src/pyhipp/stats/regression.py: the shapes of x, the fit, the checks of the tree, the
    default radius.  Distances, values and weights are exact rationals; the default radius (square roots) is a real number.
    sklearn's KDTree refuses empty arrays and queries of another dimension with ValueError (its contract); [k] >= 1. *)
From Coq Require Import QArith Reals Qreals.
From Verif Require Import Base OrderSpec BinSpec BinModel ReduSpec ReduModel NearSpec NearModel RegrSpec RegrModel.
Local Open Scope list_scope. Local Open Scope nat_scope.

(** regression.py:18-24, the argument x by its number of dimensions; an (n, d) array is its list of n rows. *)
Inductive xarr := X0 (a : Q) | X1 (l : list Q) | X2 (d : nat) (rows : list (list Q)) | X3 (n_dims : nat).
(** regression.py:18-24 _cvt_x_shape: the number of columns and the rows. *)
Definition cvt_x (x : xarr) : result (nat * list (list Q)) :=
  match x with
  | X0 _ => Err AssertionError
  | X1 l => Ok (1, map (fun a => [a]) l)
  | X2 d rows => Ok (d, rows)
  | X3 _ => Err AssertionError
  end.
(** regression.py:45, 104: KDTree(x) of an array without elements (check_array). *)
Definition tree_input (x : nat * list (list Q)) : result (nat * list (list Q)) :=
  if Nat.eqb (fst x) 0 || Nat.eqb (length (snd x)) 0 then Err ValueError else Ok x.
(** regression.py:62-64, 124-125: query(x), query_radius(x): no empty array, as many columns as the training points. *)
Definition query_input (d : nat) (x : nat * list (list Q)) : result (list (list Q)) :=
  bind (tree_input x) (fun x => if Nat.eqb (fst x) d then Ok (snd x) else Err ValueError).
(** regression.py:37-80 and 160-190 KernelRegressionND.by_knn: fit, then the call; the 'x' entry of the result and the rest. *)
Definition by_knn (dist : list Q -> list Q -> Q) (x : xarr) (y : list Q) (w : option (list Q)) (k : nat) (max_dx : option Q) (K : option (Q -> Q))
    (a : reduce_arg) (x_pred : xarr) : result (list (list Q) * prediction value) :=
  bind (bind (cvt_x x) tree_input) (fun tr =>
  bind (bind (cvt_x x_pred) (query_input (fst tr))) (fun qs =>
  rmap (pair qs) (knn_call dist (snd tr) y w k max_dx K a qs))).
(** regression.py:124-143: the loop of _LocalKernelRegression.__call__ for any rule saying which distances are accepted. *)
Definition local_by {X} (dist : X -> X -> Q) (tr : list X) (y : list Q) (w : option (list Q)) (near : Q -> bool) (K : option (Q -> Q))
    (names calls : list (string * reduction)) (qs : list X) : result (prediction (list value)) :=
  bind (mapM (fun q =>
          let nb := filter (fun p => near (fst p)) (dist_pairs dist tr q) in
          bind (take y (map snd nb)) (fun ys =>
          bind (match w with None => Ok None | Some w => rmap Some (take w (map snd nb)) end) (fun ws =>
          let ws := match option_map (fun K => map (fun p => K (fst p)) nb) K, ws with
                    | None, ws => ws | Some wk, None => Some wk | Some wk, Some ws => Some (zipwith Qmult ws wk) end in
          mapM (fun c => reduce (snd c) (A1 ys) (option_map A1 ws) None) calls))) qs) (fun preds =>
  bind (mapM (fun i => mapM (fun pred => match nth_error pred i with Some v => Ok v | None => Err IndexError end) preds) (seq 0 (length names))) (fun cols =>
    Ok {| p_y := cols; p_named := named (combine (map fst names) cols) |})).
(** regression.py:120-125: which distances query_radius accepts: at most [max_dx], by default at most x.std(0).mean() / 10 of the
    points asked for (NearModel.default_max_dx, the same expression). *)
Definition accepted (max_dx : option Q) (d : nat) (qs : list (list Q)) (v : Q) : bool :=
  match max_dx with Some r => Qle_bool v r | None => Rleb (Q2R v) (default_max_dx d (map (map Q2R) qs)) end.
(** regression.py:96-148 and 192-277 KernelRegressionND.by_local_kernel: the reductions are created (twice) before x_pred is looked at. *)
Definition by_local (dist : list Q -> list Q -> Q) (x : xarr) (y : list Q) (w : option (list Q)) (max_dx : option Q) (K : option (Q -> Q))
    (a : reduce_arg) (x_pred : xarr) : result (list (list Q) * prediction (list value)) :=
  bind (bind (cvt_x x) tree_input) (fun tr =>
  bind (mapM create (iter a)) (fun names =>
  bind (mapM create (iter_again a)) (fun calls =>
  bind (bind (cvt_x x_pred) (query_input (fst tr))) (fun qs =>
  rmap (pair qs) (local_by dist (snd tr) y w (accepted max_dx (fst tr) qs) K names calls qs))))).
