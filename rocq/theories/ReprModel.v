(** Model of the mixins of /repo/src/pyhipp/core/abc.py:16-113 (HasSimpleRepr, HasDictRepr, HasListRepr, HasName, HasLog) and of
    DataDict.to_simple_repr (/repo/src/pyhipp/core/containers/data_dict.py:159-167).

    Values are finite trees: an object that reaches itself through its attributes is not represented (Python recurses until
    RecursionError).  pprint, yaml and json, which print the simple representation, are not modelled. *)
From Verif Require Import Base.
Local Open Scope list_scope. Local Open Scope nat_scope.

(** core/abc.py:40-71: A class: name, repr_enable_type_string, repr_attr_keys. *)
Record cls := { c_name : string; c_type : bool; c_keys : list string }.
(** core/abc.py:15-77, the objects: atoms, containers, objects with attributes. *)
Inductive val :=
| VAtom (a : string)                              (** no HasSimpleRepr: put into the representation as it is *)
| VPlain (text : string)                          (** a HasSimpleRepr without an own to_simple_repr: object.__repr__ *)
| VDict (c : cls) (attrs : list (string * val))   (** a HasDictRepr and its attributes (properties included) *)
| VList (c : cls) (attrs : list (string * val))   (** a HasListRepr *)
| VData (items : list (string * val)).            (** core/abc.py:15-77: a DataDict *)
Inductive rep := RAtom (a : string) | RText (t : string) | RDict (d : list (string * rep)) | RTuple (l : list rep).

(** core/abc.py:45-54, 62-71: Looking up the listed attributes one after the other; [sub] holds what becomes of each attribute. *)
Definition attr_rep (sub : list (string * result rep)) (k : string) : result rep :=
  match od_get String.eqb sub k with Some r => r | None => Err AttributeError end.
(** core/abc.py:45-54, the dictionary is filled in the order of the keys. *)
Fixpoint fill (sub : list (string * result rep)) (d : list (string * rep)) (keys : list string) : result (list (string * rep)) :=
  match keys with
  | [] => Ok d
  | k :: keys' => bind (attr_rep sub k) (fun r => fill sub (od_set String.eqb d k r) keys')
  end.
(** 24-25 HasSimpleRepr.to_simple_repr; 45-54 HasDictRepr; 62-71 and 74-77 HasListRepr (the second class of that name makes a tuple
    of the list); data_dict.py:159-167. *)
Fixpoint simple (v : val) : result rep :=
  match v with
  | VAtom a => Ok (RAtom a)
  | VPlain t => Ok (RText t)
  | VDict c attrs =>
      let sub := map (fun p => (fst p, simple (snd p))) attrs in
      rmap RDict (fill sub (if c_type c then [("type"%string, RAtom (c_name c))] else []) (c_keys c))
  | VList c attrs =>
      let sub := map (fun p => (fst p, simple (snd p))) attrs in
      rmap (fun l => RTuple ((if c_type c then [RAtom (c_name c)] else []) ++ l)) (mapM (attr_rep sub) (c_keys c))
  | VData items =>
      let sub := map (fun p => (fst p, simple (snd p))) items in
      rmap RDict (mapM (fun p => rmap (pair (fst p)) (snd p)) sub)
  end.

(** The classes of the library that rely on HasDictRepr.to_simple_repr, with what they list and what their instances have
    (attributes set by the constructors, class attributes and properties):
    field/cubic_box/mesh.py:47-73, field.py:50, cosmic_web.py:14,62-184; field/neighbor/kd_tree.py:10-30; stats/reduction.py:8-265;
    stats/summary.py:7-41; stats/preprocessing.py:7-42; stats/kernel.py:7-46; plot/two_dim.py:11,47-66,129-163;
    io/binary/fortran.py:13-22; core/dataproc/grid.py:9-27,63-136. *)
Definition library : list (cls * list string) :=
  let c n ks := {| c_name := n; c_type := true; c_keys := ks |} in
  let reduce := ["key"; "empty_fill"; "name"]%string in
  [(c "Mesh" ["n_grids"; "l_box"; "l_grid"], ["_impl"; "n_grids"; "l_box"; "l_grid"; "total_n_grids"; "volume"; "cell_volume"]);
   (c "Field" [], ["_impl"; "data"; "mesh"]);
   (c "FieldInterpolator" [], ["field"; "mesh"]);
   (c "TidalClassifier" ["mesh"; "lam_th"; "web_types"; "f_knot"; "f_filament"; "f_sheet"; "f_void"], ["lam"; "n_lams"; "mesh"; "lam_th"; "web_types"; "is_knot"; "is_filament"; "is_sheet"; "is_void"; "f_knot"; "f_filament"; "f_sheet"; "f_void"]);
   (c "PE" ["l_box"; "n_workers"], ["impl"; "l_box"; "n_workers"]);
   (c "Count" ["key"; "empty_fill"], reduce); (c "Sum" ["key"; "empty_fill"], reduce); (c "Mean" ["key"; "empty_fill"], reduce); (c "StdDev" ["key"; "empty_fill"], reduce);
   (c "Quantile" ["ps"; "sort"], "ps" :: "sort" :: "ps_map" :: reduce); (c "Errorbar" ["reduce"], "reduce" :: reduce); (c "Median" ["sort"], "sort" :: reduce);
   (c "SummaryFloatArray1D" ["size"; "mean"; "stddev"; "median"; "_1sigma"; "_2sigma"; "_3sigma"], ["a"; "size"; "mean"; "stddev"; "median"; "_1sigma"; "_2sigma"; "_3sigma"]);
   (c "Standardize" ["mean"; "sd"; "sd_lb"], ["key"; "name"; "mean"; "sd"]);
   (c "Gaussian" ["sigma"], ["key"; "name"; "sigma"]); (c "Tophat" ["radius"], ["key"; "name"; "radius"]);
   (c "Histogram2D" ["x_bins"; "y_bins"; "x_range"; "y_range"; "out_of_range"], ["x_bins"; "y_bins"; "x_range"; "y_range"; "out_of_range"]);
   (c "Scatter2D" [], ["name"; "verbose"; "data"; "ax"; "range"; "n_bins"; "centers"; "edges"; "step"; "z_transform"; "density_estimator"; "plot_outs"]);
   (c "BinaryFile" ["file"; "file_path"; "mode"; "open_kw"], ["_file"; "_file_path"; "_mode"; "_open_kw"]);
   (c "Grid1d" ["locs"], ["locs"; "n_locs"; "centers"; "extent"]);
   (c "GridMd" ["n_dims"; "n_locs"; "locs_1d"], ["at"; "grids_1d"; "n_dims"; "n_locs"; "locs"; "locs_xy"; "locs_1d"; "centers"; "extent"])]%string.

(** core/abc.py:80-116: HasName, HasLog.  [name] is str of the name given; a log call carries its time text. *)
Record logger := { l_name : string; verbose : bool }.
(** core/abc.py:81-94. *)
Definition new_logger (class_name : string) (name : option string) (v : bool) : logger :=
  {| l_name := match name with Some n => n | None => class_name end; verbose := v |}.
(** core/abc.py:102-116, sep.join. *)
Fixpoint join (sep : string) (l : list string) : string :=
  match l with [] => EmptyString | [a] => a | a :: l' => (a ++ sep ++ join sep l')%string end.
(** core/abc.py:102-116: The text print writes. *)
Definition printed (args : list string) (sep end_ : string) : string := (join sep args ++ end_)%string.
(** core/abc.py:102-116, the arguments of a call. *)
Record log_call := { args : list string; sep : string; end_ : string; named : bool; timed : option string }.
(** core/abc.py:102-116: Defaults of log: end newline, no separator, named, not timed. *)
Definition plain_log (nl : string) (a : list string) : log_call := {| args := a; sep := ""%string; end_ := nl; named := true; timed := None |}.
(** core/abc.py:102-116 [log]. *)
Definition log (l : logger) (c : log_call) : list string :=
  if verbose l then
    let prefix := ((if named c then "[" ++ l_name l ++ "]" else "") ++ (match timed c with Some t => "[" ++ t ++ "]" | None => "" end))%string in
    if Nat.ltb 0 (String.length prefix) then [printed (prefix :: " "%string :: args c) (sep c) (end_ c)] else [printed (args c) (sep c) (end_ c)]
  else [].
(** core/abc.py:96-116, verbose_on, verbose_off, log. *)
Inductive log_op := On | Off | Log (c : log_call).
(** core/abc.py:96-116. *)
Definition log_step (s : logger * list string) (o : log_op) : logger * list string :=
  let '(l, out) := s in
  match o with
  | On => ({| l_name := l_name l; verbose := true |}, out)
  | Off => ({| l_name := l_name l; verbose := false |}, out)
  | Log c => (l, out ++ log l c)
  end.
(** core/abc.py:96-116, a history. *)
Definition log_run (l : logger) (ops : list log_op) : logger * list string := fold_left log_step ops (l, []).
