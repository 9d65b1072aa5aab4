(** Model of the object half of /repo/src/pyhipp/plot: the wrappers around matplotlib's axes and figures (abc.py, axes.py:26-60, 175-431,
    435-493, figure.py:11-145), colour sequences (color.py:38-92) and the figure shortcuts (shortcut.py:6-82).

    A wrapper is an entry of a heap, its index being its identity; matplotlib's own objects (axes, artists) are numbers.  What
    matplotlib answers to a drawing call is an argument of the model.  The formatting state kept in a wrapper is modelled in FmtModel.v. *)
From Coq Require Import QArith Qround Qminmax.
From Verif Require Import Base OrderSpec FmtModel LayModel.
Local Open Scope string_scope. Local Open Scope list_scope. Local Open Scope nat_scope.

(** plot/abc.py:11-14, plot/axes.py:31-38: an Axes: the matplotlib axes it stands for, and what was drawn with it. *)
Record wax := { wraw : nat; wdraws : list nat }.
(** plot/axes.py:31-38: all Axes objects, by identity. *)
Definition heap := list wax.
(** plot/axes.py:439-453: an element given to AxesArray(): a matplotlib axes, or an existing Axes. *)
Inductive elem := ERaw (r : nat) | EObj (o : nat).
(** plot/axes.py:449-450: [ax if isinstance(ax, Axes) else Axes(ax)] for every element, in order. *)
Fixpoint wrap_all (h : heap) (l : list elem) : heap * list nat :=
  match l with
  | [] => (h, [])
  | EObj o :: l' => let (h', os) := wrap_all h l' in (h', o :: os)
  | ERaw r :: l' => let (h', os) := wrap_all (h ++ [{| wraw := r; wdraws := [] |}]) l' in (h', length h :: os)
  end.
(** plot/axes.py:451-453: the array held by an AxesArray, row-major. *)
Record arr := { shp : list nat; objs : list nat }.
(** plot/axes.py:439-453 AxesArray.__init__ (figure.py:109-123 SubFigureArray.__init__ is the same code for SubFigure). *)
Definition mk_arr (h : heap) (shape : list nat) (l : list elem) : heap * arr :=
  let (h', os) := wrap_all h l in (h', {| shp := shape; objs := os |}).
(** plot/axes.py:445: AxesArray of an AxesArray. *)
Definition of_arr (h : heap) (a : arr) : heap * arr := mk_arr h (shp a) (map EObj (objs a)).

(** plot/axes.py:464-468: a key of __getitem__; a slice has step 1.  Not modelled: masks, index arrays, tuples, other steps. *)
Inductive key := KInt (i : Z) | KSlice (a b : option Z).
(** plot/axes.py:464-468: what __getitem__ returns. *)
Inductive item := IObj (o : nat) | IArr (a : arr).
(** plot/axes.py:464-468, Python's treatment of a slice bound for a sequence of length n. *)
Definition bound (n : nat) (d : nat) (z : option Z) : nat :=
  match z with
  | None => d
  | Some z => if (z <? 0)%Z then Z.to_nat (Z.max 0 (z + Z.of_nat n)) else Nat.min n (Z.to_nat z)
  end.
(** plot/axes.py:464-468 __getitem__ (also figure.py:134-138). *)
Definition getitem (h : heap) (a : arr) (k : key) : result (heap * item) :=
  match shp a with
  | [] => Err IndexError
  | n :: sh =>
      match k with
      | KInt i =>
          let j := if (i <? 0)%Z then (i + Z.of_nat n)%Z else i in
          if ((j <? 0) || (Z.of_nat n <=? j))%Z then Err IndexError
          else let os := sub sh (objs a) (Z.to_nat j) in
               match sh with
               | [] => match os with o :: _ => Ok (h, IObj o) | [] => Err IndexError end
               | _ => let (h', a') := mk_arr h sh (map EObj os) in Ok (h', IArr a')
               end
      | KSlice s e =>
          let lo := bound n 0 s in let hi := bound n n e in
          let os := firstn ((hi - lo) * prod sh) (skipn (lo * prod sh) (objs a)) in
          let (h', a') := mk_arr h ((hi - lo) :: sh) (map EObj os) in Ok (h', IArr a')
      end
  end.
(** plot/axes.py:478-480 flat *)
Definition flat (h : heap) (a : arr) : heap * arr := mk_arr h [length (objs a)] (map EObj (objs a)).
(** plot/axes.py:482-484 T *)
Definition arr_T (h : heap) (a : arr) : heap * arr := let (sh, os) := transpose (shp a) (objs a) in mk_arr h sh (map EObj os).
(** plot/axes.py:458-462 to_list(flat=True) *)
Definition to_list (a : arr) : list nat := objs a.

(** plot/axes.py:175-431: a call on one Axes: a drawing method (plot, scatter, errorbar, fill_between, stairs, hist, text, leg) with
    matplotlib's answer, errorfill (293-322) with the exception raised while the band is computed, if any, and matplotlib's answers for
    the line and the band, or a call that draws nothing. *)
Inductive call := Draw (r : result nat) | ErrorFill (bad : option exn) (line band : result nat) | Quiet (r : result unit).
(** plot/axes.py:197, 221, 268, 289, 340, 367, 390, 430: self._last_draw.append(...) *)
Definition draw1 (r : result nat) (w : wax) : result unit * wax :=
  match r with Ok a => (Ok tt, {| wraw := wraw w; wdraws := wdraws w ++ [a] |}) | Err e => (Err e, w) end.
(** plot/axes.py:175-431, one call. *)
Definition run_call (c : call) (w : wax) : result unit * wax :=
  match c with
  | Draw r => draw1 r w
  | ErrorFill (Some e) _ _ => (Err e, w)
  | ErrorFill None line band => match draw1 line w with (Ok _, w') => draw1 band w' | (Err e, w') => (Err e, w') end
  | Quiet r => (r, w)
  end.
(** plot/axes.py:175-431, calls on several Axes, failed ones included. *)
Fixpoint run_calls (h : heap) (cs : list (nat * call)) : heap :=
  match cs with
  | [] => h
  | (o, c) :: cs' => run_calls (match nth_error h o with Some w => upd_nth h o (snd (run_call c w)) | None => h end) cs'
  end.
(** plot/axes.py:50-52, figure.py:21-23 last_draw *)
Definition last_draw (w : wax) : result nat := match rev (wdraws w) with a :: _ => Ok a | [] => Err IndexError end.

(** plot/figure.py:59-84: an argument of colorbar: None, a matplotlib object, an Axes, another wrapper (Artist, ScalarMappable), an
    AxesArray, or an iterable. *)
Inductive pyval := PNone | PRaw (r : nat) | PAxes (o : nat) | PMpl (r : nat) | PArr (a : arr) | PIter (l : list pyval).
(** plot/abc.py:11-14: the ._raw of an Axes *)
Definition raw_of (h : heap) (o : nat) : nat := match nth_error h o with Some w => wraw w | None => 0 end.
(** plot/figure.py:66-67 *)
Definition cb_mappable (h : heap) (v : pyval) : pyval := match v with PAxes o => PRaw (raw_of h o) | PMpl r => PRaw r | v => v end.
(** plot/figure.py:68-69 *)
Definition cb_cax (h : heap) (v : pyval) : pyval := match v with PAxes o => PRaw (raw_of h o) | v => v end.
(** plot/figure.py:71-76 *)
Definition cb_ax (h : heap) (v : pyval) : pyval :=
  match v with
  | PAxes o => PRaw (raw_of h o)
  | PArr a => PIter (map (fun o => PRaw (raw_of h o)) (to_list a))
  | PIter l => PIter (map (cb_cax h) l)
  | v => v
  end.
(** plot/figure.py:59-84 colorbar: [mpl] is matplotlib's colorbar; the artist is appended to the figure's drawings. *)
Definition colorbar (mpl : pyval -> pyval -> pyval -> result nat) (h : heap) (mappable cax ax : pyval) (draws : list nat) : result unit * list nat :=
  match mpl (cb_mappable h mappable) (cb_cax h cax) (cb_ax h ax) with Ok art => (Ok tt, draws ++ [art]) | Err e => (Err e, draws) end.

(** plot/figure.py:125-132 SubFigureArray.subplots: [f] is subplots on one sub-figure, the elements of a sub-figure array of more than one
    dimension are its rows (143-145).  [out[...] = rows] descends as many levels as [out] has dimensions, so an AxesArray is an element. *)
Fixpoint sf_subplots {S R : Type} (f : S -> result R) (shape : list nat) (data : list S) : result (list R) :=
  match shape with
  | [] => Err TypeError
  | [n] => mapM f (firstn n data)
  | n :: sh => rmap (@concat R) (mapM (fun i => sf_subplots f sh (sub sh data i)) (seq 0 n))
  end.

(** plot/color.py:38-44 Colormap.__call__ (matplotlib): a table, and the colours below and above the range.  Not modelled: masked and NaN levels. *)
Record cmap := { table : list rgba; under : rgba; over : rgba }.
(** plot/color.py:43-44: one level given as an integer is an index of the table. *)
Definition cm_index (m : cmap) (k : Z) : rgba :=
  if (k <? 0)%Z then under m else if (Z.of_nat (length (table m)) <=? k)%Z then over m else nth (Z.to_nat k) (table m) (over m).
(** plot/color.py:43-44: one level given as a number is scaled to the table; 1 is the last entry. *)
Definition cm_level (m : cmap) (x : Q) : rgba :=
  let xn := (x * inject_Z (Z.of_nat (length (table m))))%Q in
  if Qeq_bool x 1 then cm_index m (Z.of_nat (length (table m)) - 1) else if Qltb xn 0 then under m else cm_index m (Qfloor xn).
(** plot/color.py:71-75: the levels: an int, a sequence of integers, a sequence of numbers. *)
Inductive levels := LCount (n : Z) | LInts (l : list Z) | LNums (l : list Q).
(** plot/color.py:74-75: np.linspace(0., 1., levels) *)
Definition linspace01 (n : Z) : result (list Q) :=
  if (n <? 0)%Z then Err ValueError else
  let k := Z.to_nat n in
  Ok (map (fun i => if Nat.eqb k 1 then 0%Q else (inject_Z (Z.of_nat i) / inject_Z (Z.of_nat (k - 1)))%Q) (seq 0 k)).
(** plot/color.py:38-44, 76: cmap(levels, alpha=alpha); an alpha replaces the table's. *)
Definition cm_call (m : cmap) (l : levels) (alpha : option Q) : result (list rgba) :=
  let fin c := match alpha with Some a => with_alpha c (Qmax 0 (Qmin 1 a)) | None => c end in
  match l with
  | LCount n => rmap (map (fun x => fin (cm_level m x))) (linspace01 n)
  | LInts ks => Ok (map (fun k => fin (cm_index m k)) ks)
  | LNums xs => Ok (map (fun x => fin (cm_level m x)) xs)
  end.
(** plot/color.py:62-64 ColorSeq.__init__ followed by 79-80 get_rgba *)
Definition color_seq (named : string -> result rgba) (l : list color_spec) : result (list rgba) := mapM (fun c => color named c None) l.
(** plot/color.py:43-44: a row of the array is a sequence of four. *)
Definition row4 (c : rgba) : color_spec := let '(r, g, b, a) := c in CTuple [r; g; b; a].
(** plot/color.py:71-77 ColorSeq.from_cmap, get_rgba; [maps] is matplotlib's registry. *)
Definition from_cmap (maps : string -> result cmap) (m : string + cmap) (l : levels) (alpha : option Q) : result (list rgba) :=
  bind (match m with inl s => maps s | inr m => Ok m end) (fun m => bind (cm_call m l alpha) (fun rows => color_seq (fun _ => Err ValueError) (map row4 rows))).
(** plot/color.py:55-60, 82-89: the named sequences; the first four are matplotlib's lists. *)
Definition predefined_names : list (string * (string * option Z)) :=
  [("dark2", ("Dark2", None)); ("tab10", ("tab10", None)); ("set1", ("Set1", None)); ("set2", ("Set2", None));
   ("rainbow_5", ("rainbow", Some 5%Z)); ("rainbow_10", ("rainbow", Some 10%Z)); ("gnuplot_5", ("gnuplot", Some 5%Z));
   ("gnuplot_10", ("gnuplot", Some 10%Z)); ("gnuplot2_5", ("gnuplot2", Some 5%Z)); ("gnuplot2_10", ("gnuplot2", Some 10%Z))].
(** plot/color.py:66-69 predefined; [listed] gives the colours of a listed map. *)
Definition predefined (listed : string -> list color_spec) (maps : string -> result cmap) (named : string -> result rgba) (name : string) : result (list rgba) :=
  match od_get String.eqb predefined_names name with
  | None => Err KeyError
  | Some (m, None) => color_seq named (listed m)
  | Some (m, Some n) => bind (from_cmap maps (inl m) (LCount n) None) (fun l => color_seq named (map CColor l))
  end.

(** plot/shortcut.py:6-12, 14-47, 49-73: keyword values of a figure. *)
Inductive fval := FNone | FSize (w h : Q) | FStr (s : string) | FOther (n : nat).
(** plot/shortcut.py:31-36, 60-65: dict(figsize, layout) | figure_kw, then figure()'s dpi and layout defaults (6-12); a scalar figsize is squared. *)
Definition square (s : arg Q) : result fval := match s with ANone => Ok FNone | AScalar a => Ok (FSize a a) | ASeq l => rmap (fun p => FSize (fst p) (snd p)) (two l) end.
(** plot/shortcut.py:6-12 figure: the keywords given to plt.figure.  [user] are the caller's. *)
Definition figure_kw (figsize : arg Q) (user : list (string * fval)) : result (list (string * fval)) :=
  rmap (fun s => od_update String.eqb [("figsize", s); ("dpi", FNone); ("layout", FStr "tight")] user) (square figsize).
(** plot/shortcut.py:14-47, 49-73: the figure's keywords (a figsize inside the caller's figure_kw is given as a pair); [tight] says whether the layout falls back to 'tight' (subplots) or None (subfigures). *)
Definition shortcut_figure (tight : bool) (n : arg Z) (figsize subsize : arg Q) (layout : option string) (space : arg Q) (user : list (string * fval)) : result (list (string * fval)) :=
  bind (figsize_of n figsize subsize) (fun wh =>
  let lay := if tight then layout_of layout space else layout in
  figure_kw ANone (od_update String.eqb [("figsize", FSize (fst wh) (snd wh)); ("layout", match lay with Some s => FStr s | None => FNone end)] user)).
(** plot/figure.py:31-32, 45-46: the caller's gridspec (sub-figure) keywords replace those computed. *)
Definition gridspec_kw {V} (computed user : list (string * V)) : list (string * V) := od_update String.eqb computed user.
