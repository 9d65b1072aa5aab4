(** Model of /repo/src/pyhipp/stats/regression.py and of _Predefined in reduction.py.
    Numbers are exact rationals; [dist] is the tree's metric and a kernel is any function of the distance (KernModel gives the
    two kernels of the library; what they compute in floating point is rational).  Neighbour queries as in NearModel. *)
From Coq Require Import QArith Qminmax.
From Verif Require Import Base OrderSpec BinSpec BinModel ReduSpec ReduModel NearModel RegrSpec.
Local Open Scope list_scope. Local Open Scope nat_scope.

(** ** Reductions by name: reduction.py:275-315 *)
(** reduction.py:275-315, as above. *)
Inductive reduction :=
| RCount | RSum | RMean (fill : Q) | RStd (fill : Q) | RQuantile (ps : list Q) (sort : bool) (fill : Q)
| RMedian (sort : bool) (fill : Q) | RErrorbar (spec : string) (fill : Q).
(** reduction.py:101-268, what a reduction returns. *)
Inductive value := VZ (o : out Z) | VN (o : out num) | VR (o : out root) | VL (o : out (list Q)) | VQ (o : out Q) | VB (o : out (Q * Q * Q))
| VSd (mu : out num) (sd : out root).
(** reduction.py:52-62, finite numbers. *)
Definition nums (a : arr Q) : arr num := amap Fin a.
(** reduction.py:52-62, applying a reduction object. *)
Definition reduce (r : reduction) (y : arr Q) (w : option (arr Q)) (m : option (arr bool)) : result value :=
  match r with
  | RCount => rmap VZ (count y (option_map nums w) m)
  | RSum => rmap VN (sum (nums y) (option_map nums w) m)
  | RMean fill => rmap VN (mean (Fin fill) (nums y) (option_map nums w) m)
  | RStd fill => rmap VR (std_dev (Fin fill) (nums y) (option_map nums w) m)
  | RQuantile ps sort fill => rmap VL (quantile ps sort fill y w m)
  | RMedian sort fill => rmap VQ (median sort fill y w m)
  | RErrorbar spec fill =>
      if String.eqb spec "mean+sd" then rmap (fun p => VSd (fst (fst p)) (snd (fst p))) (errorbar_sd (Fin fill) (nums y) (option_map nums w) m)
      else rmap VB (errorbar spec fill y w m)
  end.
(** reduction.py:101-268, the class attribute key. *)
Definition key_of (r : reduction) : string :=
  match r with RCount => "count" | RSum => "sum" | RMean _ => "mean" | RStd _ => "std_dev" | RQuantile _ _ _ => "quantile"
  | RMedian _ _ => "median" | RErrorbar _ _ => "errorbar" end.
(** reduction.py:137-138, the default empty_fill. *)
Definition fill_default : Q := -(10000000000 # 1)%Q.
(** reduction.py:275-293: the class under a name, constructed with an optional [empty_fill] (Count and Sum ignore it; the other keyword
    arguments of the classes are not modelled, nor are names with slashes). *)
Definition construct (name : string) (fill : option Q) : result reduction :=
  let f := match fill with Some q => q | None => fill_default end in
  if String.eqb name "count" || String.eqb name "cnt" then Ok RCount
  else if String.eqb name "sum" then Ok RSum
  else if String.eqb name "mean" then Ok (RMean f)
  else if String.eqb name "std_dev" || String.eqb name "std" || String.eqb name "sd" then Ok (RStd f)
  else if String.eqb name "quantile" || String.eqb name "qs" then Ok (RQuantile [16 # 100; 1 # 2; 84 # 100]%Q true f)
  else if String.eqb name "median" then Ok (RMedian true f)
  else if String.eqb name "errorbar" then Ok (RErrorbar "median+1sigma" f)
  else Err KeyError.
(** reduction.py:295-304: What may stand in a tuple, and specifications. *)
Inductive item := IStr (s : string) | IKw (fill : option Q) | IObj (r : reduction).
(** reduction.py:295-304, specifications of a reduction. *)
Inductive spec := SObj (r : reduction) | SStr (s : string) | STuple (l : list item).
(** reduction.py:295-304: create.  Unpacking a tuple of another length is a ValueError; [**kw] with something that is no mapping is a
    TypeError, after the name was found; DataDict lookup of an object or a dictionary is a TypeError. *)
Definition create (s : spec) : result (string * reduction) :=
  match s with
  | SObj r => Ok (key_of r, r)
  | SStr n => rmap (pair n) (construct n None)
  | STuple [IStr n; IKw f] => rmap (pair n) (construct n f)
  | STuple [IStr n; _] => bind (construct n None) (fun _ => Err TypeError)
  | STuple [IObj _; _] => Err TypeError
  | STuple [IKw _; _] => Err TypeError
  | STuple _ => Err ValueError
  end.
(** reduction.py:306-312: The [reduce] argument: one specification, a list of them, or a generator (an iterator that can be consumed once). *)
Inductive reduce_arg := One (s : spec) | Many (l : list spec) | Gen (l : list spec).
(** reduction.py:306-312: iter, first and second use of the same argument. *)
Definition iter (a : reduce_arg) : list spec := match a with One s => [s] | Many l => l | Gen l => l end.
(** reduction.py:306-312, a second time. *)
Definition iter_again (a : reduce_arg) : list spec := match a with Gen _ => [] | _ => iter a end.

(** ** regression.py *)
(** reduction.py:306-312, as above. *)
Record prediction (O : Type) := { p_y : list O; p_named : list (string * O) }.
Arguments p_y {O}. Arguments p_named {O}.
(** regression.py:49-80: y_tr[ids]: out of bounds is an IndexError. *)
Definition take {A} (l : list A) (ids : list nat) : result (list A) :=
  mapM (fun i => match nth_error l i with Some a => Ok a | None => Err IndexError end) ids.
(** regression.py:49-80, the result by reduction name. *)
Definition named {O} (ps : list (string * O)) : list (string * O) :=
  fold_left (fun d p => od_set String.eqb d (append "y_" (fst p)) (snd p)) ps [].
(** regression.py:49-80: w * w_k, elementwise. *)
Definition weights2 (w : option (list (list Q))) (wk : option (list (list Q))) : option (list (list Q)) :=
  match wk, w with None, w => w | Some wk, None => Some wk | Some wk, Some w => Some (zipwith (zipwith Qmult) w wk) end.
(** regression.py:37-80: _KnnRegression.__call__ after fit(x, y, weight) (38-48); [k] >= 1.  Reductions are created and applied one after the
    other while the generator [iter] runs. *)
Definition knn_call {X} (dist : X -> X -> Q) (tr : list X) (y : list Q) (w : option (list Q)) (k : nat) (max_dx : option Q) (K : option (Q -> Q))
    (a : reduce_arg) (qs : list X) : result (prediction value) :=
  bind (mapM (fun q => query Qltb dist tr q k) qs) (fun nbs =>
  let ids := map (map snd) nbs in let ds := map (map fst) nbs in
  let mask := option_map (fun m => A2 k (map (map (fun d => Qltb d m)) ds)) max_dx in
  bind (mapM (take y) ids) (fun ys =>
  bind (match w with None => Ok None | Some w => rmap Some (mapM (take w) ids) end) (fun ws =>
  let ws := weights2 ws (option_map (fun K => map (map K) ds) K) in
  bind (mapM (fun s => bind (create s) (fun '(n, r) => rmap (pair n) (reduce r (A2 k ys) (option_map (A2 k) ws) mask))) (iter a)) (fun ps =>
    Ok {| p_y := map snd ps; p_named := named ps |})))).
(** regression.py:96-148: _LocalKernelRegression.__call__ for an explicit radius: every reduction is applied per query point to 1-D
    arrays, then the values of one reduction are collected (np.array of them). *)
Definition local_call {X} (dist : X -> X -> Q) (tr : list X) (y : list Q) (w : option (list Q)) (max_dx : Q) (K : option (Q -> Q))
    (a : reduce_arg) (qs : list X) : result (prediction (list value)) :=
  bind (mapM create (iter a)) (fun names =>
  bind (mapM create (iter_again a)) (fun calls =>
  bind (mapM (fun q =>
          let nb := query_radius Qle_bool dist tr q max_dx in
          bind (take y (map snd nb)) (fun ys =>
          bind (match w with None => Ok None | Some w => rmap Some (take w (map snd nb)) end) (fun ws =>
          let ws := match option_map (fun K => map (fun p => K (fst p)) nb) K, ws with
                    | None, ws => ws | Some wk, None => Some wk | Some wk, Some ws => Some (zipwith Qmult ws wk) end in
          mapM (fun c => reduce (snd c) (A1 ys) (option_map A1 ws) None) calls))) qs) (fun preds =>
  bind (mapM (fun i => mapM (fun pred => match nth_error pred i with Some v => Ok v | None => Err IndexError end) preds) (seq 0 (length names))) (fun cols =>
    Ok {| p_y := cols; p_named := named (combine (map fst names) cols) |})))).

(** regression.py:151-155, 279-309: masked_fraction_by_knn: values and the invalid flags (one flag for all if there is no [max_dx]).
    [mask * weight] with another length is a ValueError (length 1 would broadcast: not modelled). *)
Record fraction := { f_values : list Q; f_invalid : out bool }.
(** regression.py:279-309, 1e-10. *)
Definition floor_ : Q := (1 # 10000000000)%Q.
(** regression.py:279-309, the sums the two reductions return. *)
Definition sums (v : value) : result (list Q) :=
  match v with VN (V1 l) => mapM (fun a => match a with Fin q => Ok q | _ => Err ValueError end) l | _ => Err ValueError end.
(** regression.py:279-309 [masked_fraction_by_knn]. *)
Definition masked_fraction {X} (dist : X -> X -> Q) (tr : list X) (mask : list bool) (k : nat) (max_dx : option Q) (K : option (Q -> Q))
    (w : option (list Q)) (min_count : Z) (qs : list X) : result fraction :=
  let weight := match w with Some w => w | None => repeat 1%Q (length tr) end in
  if negb (Nat.eqb (length mask) (length weight)) then Err ValueError
  else
    let masked := zipwith (fun (b : bool) a => ((if b then 1 else 0) * a)%Q) mask weight in
    bind (knn_call dist tr weight None k max_dx K (Many [SStr "sum"; SStr "count"]) qs) (fun p1 =>
    bind (knn_call dist tr masked None k max_dx K (One (SStr "sum")) qs) (fun p2 =>
    match p_y p1, p_y p2 with
    | [s; VZ count], [sm] =>
        bind (sums s) (fun s => bind (sums sm) (fun sm =>
          Ok {| f_values := zipwith (fun a b => (a / Qmax b floor_)%Q) sm s; f_invalid := omap (fun c => (c <? min_count)%Z) count |}))
    | _, _ => Err ValueError
    end)).
