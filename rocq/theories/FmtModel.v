(** Model of /repo/src/pyhipp/plot/artist_formatter.py, of the formatting half of plot/axes.py, and of plot/runtime_config.py.

    Property values are opaque except for None, maps and pairs, which the code inspects.  matplotlib is represented by the
    sequence of calls made on it and, for rc settings, by its flat table of parameters. *)
From Coq Require Import QArith.
From Verif Require Import Base.
Local Open Scope string_scope. Local Open Scope list_scope. Local Open Scope nat_scope.

(** artist_formatter.py:10-36, the values of format properties. *)
Inductive pv := PNone | PAtom (n : nat) | PBool (b : bool) | PText (s : string) | PMap (m : list (string * pv)) | PSeq (l : list pv).
(** artist_formatter.py:10-13, a formatter: a dict of its properties. *)
Definition fmt := list (string * pv).

(** artist_formatter.py:15-21 __ior__: one entry after the other; returns the outcome and the formatter afterwards. *)
Fixpoint ior (d : fmt) (items : list (string * pv)) : result unit * fmt :=
  match items with
  | [] => (Ok tt, d)
  | (k, v) :: items' => if od_mem String.eqb d k then ior (od_set String.eqb d k v) items' else (Err KeyError, d)
  end.
(** artist_formatter.py:23-27: __setitem__ *)
Definition fmt_set (d : fmt) (k : string) (v : pv) : result unit * fmt := ior d [(k, v)].
(** artist_formatter.py:29-33: update( *dicts, **kw) *)
Fixpoint fmt_update (d : fmt) (dicts : list (list (string * pv))) : result unit * fmt :=
  match dicts with
  | [] => (Ok tt, d)
  | m :: dicts' => match ior d m with (Ok _, d') => fmt_update d' dicts' | (Err e, d') => (Err e, d') end
  end.
(** artist_formatter.py:35-36: __getitem__, one name or a tuple of names (DataDict.__getitem__; names without slashes). *)
Definition fmt_get (d : fmt) (k : string) : result pv := match od_get String.eqb d k with Some v => Ok v | None => Err KeyError end.
(** artist_formatter.py:35-36, a tuple of names. *)
Definition fmt_gets (d : fmt) (ks : list string) : result (list pv) := mapM (fmt_get d) ks.

(** The formatters of an Axes: axes.py:12-23 PlotFmts, 33-36; defaults in artist_formatter.py. *)
Definition line_fmt : fmt := [("c", PText "k"); ("a", PAtom 1); ("lw", PAtom 25); ("ls", PText "-")]%string.
(** artist_formatter.py:38-43. *)
Definition marker_fmt : fmt := [("style", PNone); ("ec", PText "k"); ("fc", PText "k"); ("ea", PAtom 1); ("fa", PAtom 3); ("s", PAtom 10); ("elw", PAtom 1)]%string.
(** artist_formatter.py:88-93. *)
Definition errorbar_fmt : fmt := [("c", PText "k"); ("a", PAtom 1); ("lw", PAtom 1); ("capsize", PAtom 4); ("capthick", PAtom 1)]%string.
(** artist_formatter.py:107-110. *)
Definition fill_fmt : fmt := [("fc", PText "k"); ("ec", PText "k"); ("fa", PAtom 2); ("ea", PAtom 1); ("lw", PAtom 1); ("ls", PText "-")]%string.
(** artist_formatter.py:140-142. *)
Definition text_fmt : fmt := [("use_tex", PBool true); ("c", PText "k"); ("a", PAtom 1); ("s", PAtom 15)]%string.
(** artist_formatter.py:161-168. *)
Definition frame_fmt : fmt := [("lim", PNone); ("label", PNone); ("scale", PNone); ("ticks", PNone); ("ticklabels", PNone); ("tick_params", PNone); ("label_outer", PNone)]%string.
(** axes.py:12-38, the formatters of one Axes. *)
Record axes := { line : fmt; marker : fmt; errorbar : fmt; fill : fmt; text : fmt; frame : fmt }.
(** axes.py:14-19, 31-38. *)
Definition new_axes : axes := {| line := line_fmt; marker := marker_fmt; errorbar := errorbar_fmt; fill := fill_fmt; text := text_fmt; frame := frame_fmt |}.

(** artist_formatter.py:45-63: Setting an optional argument: [if v is not None: self.update(k=v)]. *)
Definition set_some (d : fmt) (k : string) (v : pv) : fmt := match v with PNone => d | _ => od_set String.eqb d k v end.
(** artist_formatter.py:77-83, 96-102, 149-155: LineFormatter.c, ErrorBarFormatter.c, TextFormatter.c (the colour setters). *)
Definition set_ca (d : fmt) (c a : pv) : fmt := set_some (set_some d "c" c) "a" a.
(** artist_formatter.py:45-50, 113-118: MarkerFormatter / FillFormatter fc, ec, c. *)
Definition set_fc (d : fmt) (c a : pv) : fmt := set_some (set_some d "fc" c) "fa" a.
(** artist_formatter.py:52-57, 120-125. *)
Definition set_ec (d : fmt) (c a : pv) : fmt := set_some (set_some d "ec" c) "ea" a.
(** artist_formatter.py:59-63, 127-131. *)
Definition set_fec (d : fmt) (c a : pv) : fmt := set_ec (set_fc d c a) c a.
(** axes.py:72-76 Axes.c *)
Definition axes_c (x : axes) (c a : pv) : axes :=
  {| line := set_ca (line x) c a; marker := set_fec (marker x) c a; errorbar := set_ca (errorbar x) c a; fill := set_fec (fill x) c a;
     text := text x; frame := frame x |}.
(** axes.py:137-145 fmt_marker(style=None, c=None, a=None, **kw): outcome and formatter. *)
Definition fmt_marker (d : fmt) (style c a : pv) (kw : list (string * pv)) : result unit * fmt :=
  fmt_update (set_fec d c a) [[("style", style)]; kw].
(** axes.py:147-155 fmt_fill *)
Definition fmt_fill (d : fmt) (c a : pv) (kw : list (string * pv)) : result unit * fmt := fmt_update (set_fec d c a) [kw].
(** axes.py:72-76, 113-173: What a client does to an Axes between drawings: c, fmt_line, fmt_marker, fmt_errorbar, fmt_fill, fmt_text;
    an exception leaves the formatter as it then was. *)
Inductive fmt_op :=
| FC (c a : pv) | FLine (kw : list (string * pv)) | FMarker (style c a : pv) (kw : list (string * pv))
| FErr (kw : list (string * pv)) | FFill (c a : pv) (kw : list (string * pv)) | FText (kw : list (string * pv)).
(** axes.py:72-76, 113-173, one call. *)
Definition fmt_step (x : axes) (o : fmt_op) : axes :=
  match o with
  | FC c a => axes_c x c a
  | FLine kw => {| line := snd (fmt_update (line x) [kw]); marker := marker x; errorbar := errorbar x; fill := fill x; text := text x; frame := frame x |}
  | FMarker st c a kw => {| line := line x; marker := snd (fmt_marker (marker x) st c a kw); errorbar := errorbar x; fill := fill x; text := text x; frame := frame x |}
  | FErr kw => {| line := line x; marker := marker x; errorbar := snd (fmt_update (errorbar x) [kw]); fill := fill x; text := text x; frame := frame x |}
  | FFill c a kw => {| line := line x; marker := marker x; errorbar := errorbar x; fill := snd (fmt_fill (fill x) c a kw); text := text x; frame := frame x |}
  | FText kw => {| line := line x; marker := marker x; errorbar := errorbar x; fill := fill x; text := snd (fmt_update (text x) [kw]); frame := frame x |}
  end.
(** axes.py:72-76, 113-173, several calls in turn. *)
Definition fmt_run (ops : list fmt_op) : axes := fold_left fmt_step ops new_axes.

(** Drawing (axes.py:175-392): the keywords handed to matplotlib, taken from the formatters and overridden by the caller's.
    [mk] is Color( *self['c', 'a']).get_rgba().  Only keywords whose value comes from a formatter are listed. *)
Inductive draw := DPlot | DScatter | DErrorbar | DFill | DStairs | DHist | DText.
(** axes.py:175-392, one property handed on under a matplotlib name. *)
Definition prop (d : fmt) (k name : string) : result (list (string * pv)) := rmap (fun v => [(name, v)]) (fmt_get d k).
(** axes.py:175-392 with get_c, get_fc, get_ec (artist_formatter.py:65-69, 85-86, 104-105, 133-137, 157-158). *)
Definition colour (mk : pv -> pv -> result pv) (d : fmt) (kc ka name : string) : result (list (string * pv)) :=
  bind (fmt_get d kc) (fun c => bind (fmt_get d ka) (fun a => rmap (fun v => [(name, v)]) (mk c a))).
(** axes.py:175-392, the keywords from the formatters. *)
Definition draw_base (mk : pv -> pv -> result pv) (x : axes) (m : draw) : result (list (string * pv)) :=
  rmap (fun l => concat l) (mapM (fun r => r)
    match m with
    | DPlot => [colour mk (line x) "c" "a" "c"; prop (line x) "lw" "lw"; prop (line x) "ls" "ls";
                prop (marker x) "style" "marker"; prop (marker x) "s" "ms"; prop (marker x) "elw" "mew";
                colour mk (marker x) "ec" "ea" "mec"; colour mk (marker x) "fc" "fa" "mfc"]
    | DScatter => [prop (marker x) "style" "marker"; prop (marker x) "s" "s"; prop (marker x) "elw" "linewidths";
                   colour mk (marker x) "ec" "ea" "edgecolors"; colour mk (marker x) "fc" "fa" "facecolors"]
    | DErrorbar => [colour mk (line x) "c" "a" "c"; prop (line x) "lw" "lw"; prop (line x) "ls" "ls";
                    colour mk (errorbar x) "c" "a" "ecolor"; prop (errorbar x) "lw" "elinewidth"; prop (errorbar x) "capsize" "capsize"; prop (errorbar x) "capthick" "capthick";
                    prop (marker x) "style" "marker"; prop (marker x) "s" "ms"; prop (marker x) "elw" "mew";
                    colour mk (marker x) "ec" "ea" "mec"; colour mk (marker x) "fc" "fa" "mfc"]
    | DFill | DStairs | DHist => [colour mk (fill x) "ec" "ea" "ec"; colour mk (fill x) "fc" "fa" "fc"; prop (fill x) "lw" "lw"; prop (fill x) "ls" "ls"]
    | DText => [colour mk (text x) "c" "a" "color"; prop (text x) "s" "fontsize"]
    end).
(** axes.py:175-392, overridden by the caller. *)
Definition draw_kw (mk : pv -> pv -> result pv) (x : axes) (m : draw) (user : list (string * pv)) : result (list (string * pv)) :=
  rmap (fun b => od_update String.eqb b user) (draw_base mk x m).
(** artist_formatter.py:144-147: Truth value; the atom 0 stands for the number 0. *)
Definition truthy (v : pv) : bool := match v with PNone => false | PBool b => b | PAtom n => negb (Nat.eqb n 0) | PText s => negb (String.eqb s "") | PMap m => match m with [] => false | _ => true end | PSeq l => match l with [] => false | _ => true end end.
(** artist_formatter.py:144-147 wrap_text *)
Definition wrap_text (d : fmt) (t : string) : result string :=
  rmap (fun v => if truthy v then ("$" ++ t ++ "$")%string else t) (fmt_get d "use_tex").

(** Calls on the matplotlib axes, as made by FrameFormatter.apply (artist_formatter.py:170-294). *)
Inductive call :=
| SetAxis (what : string) (is_x : bool) (v : pv) (kw : list (string * pv))     (* set_xlim, set_ylabel, ... *)
| TickParams (axis : string) (v : pv) (kw : list (string * pv))
| LabelOuter.
(** artist_formatter.py:170-198. *)
Definition not_none (v : pv) : bool := match v with PNone => false | _ => true end.
(** artist_formatter.py:200-278. *)
Definition axis_call (what : string) (is_x : bool) (v : pv) (kw : list (string * pv)) : list call := if not_none v then [SetAxis what is_x v kw] else [].
(** artist_formatter.py:200-278, pop(name, None). *)
Definition popped (m : list (string * pv)) (k : string) : pv := match od_get String.eqb m k with Some v => v | None => PNone end.
(** artist_formatter.py:200-278: __apply_lim, __apply_label, __apply_scale, __apply_ticks, __apply_ticklabels: a map with optional x, y and further
    keywords, or a pair.  Outcome and calls made. *)
Definition apply_xy (what : string) (v : pv) : result unit * list call :=
  match v with
  | PMap m => let kw := od_del String.eqb (od_del String.eqb m "x") "y" in
              (Ok tt, axis_call what true (popped m "x") kw ++ axis_call what false (popped m "y") kw)
  | PSeq [x; y] => (Ok tt, axis_call what true x [] ++ axis_call what false y [])
  | PSeq _ => (Err ValueError, [])
  | _ => (Err TypeError, [])
  end.
(** artist_formatter.py:280-294: __apply_tick_params: a map (anything else leaves the local names unbound); x, y, both must be maps themselves; a
    keyword that is given twice (axis is always given) is a TypeError. *)
Definition tick_call (axis : string) (v : pv) (kw : list (string * pv)) : result (list call) :=
  match v with
  | PNone => Ok []
  | PMap p => if existsb (fun k => String.eqb k "axis" || existsb (String.eqb k) (map fst kw)) (map fst p) || existsb (String.eqb "axis") (map fst kw) then Err TypeError
              else Ok [TickParams axis v kw]
  | _ => Err TypeError
  end.
(** artist_formatter.py:280-294 [__apply_tick_params]. *)
Definition apply_ticks (v : pv) : result unit * list call :=
  match v with
  | PMap m =>
      let kw := od_del String.eqb (od_del String.eqb (od_del String.eqb m "x") "y") "both" in
      match tick_call "x" (popped m "x") kw with
      | Err e => (Err e, [])
      | Ok c1 => match tick_call "y" (popped m "y") kw with
                 | Err e => (Err e, c1)
                 | Ok c2 => match tick_call "both" (popped m "both") kw with Err e => (Err e, c1 ++ c2) | Ok c3 => (Ok tt, c1 ++ c2 ++ c3) end
                 end
      end
  | _ => (Err UnboundLocalError, [])
  end.
(** artist_formatter.py:170-198, one property. *)
Definition apply_one (d : fmt) (k : string) : result unit * list call :=
  match od_get String.eqb d k with
  | None => (Err KeyError, [])
  | Some PNone => (Ok tt, [])
  | Some v => if String.eqb k "tick_params" then apply_ticks v
              else if String.eqb k "label_outer" then (Ok tt, if truthy v then [LabelOuter] else [])
              else apply_xy k v
  end.
(** artist_formatter.py:170-198, in turn, stopping at an exception. *)
Fixpoint apply_all (d : fmt) (ks : list string) : result unit * list call :=
  match ks with
  | [] => (Ok tt, [])
  | k :: ks' => match apply_one d k with
                | (Ok _, c) => let '(r, cs) := apply_all d ks' in (r, c ++ cs)
                | (Err e, c) => (Err e, c)
                end
  end.
(** artist_formatter.py:170-198: FrameFormatter.apply *)
Definition frame_order : list string := ["lim"; "label"; "scale"; "ticks"; "ticklabels"; "tick_params"; "label_outer"]%string.
(** artist_formatter.py:170-198 [FrameFormatter.apply]. *)
Definition apply_frame (d : fmt) : result unit * list call := apply_all d frame_order.
(** axes.py:131-135 fmt_frame( **kw): outcome, formatter, calls. *)
Definition fmt_frame (d : fmt) (kw : list (string * pv)) : result unit * fmt * list call :=
  match ior d kw with
  | (Err e, d') => (Err e, d', [])
  | (Ok _, d') => let '(r, cs) := apply_frame d' in (r, d', cs)
  end.
(** axes.py:78-107 lim, label (text wrapped), scale, label_outer as fmt_frame calls. *)
Definition xy (x y : pv) : pv := PMap [("x"%string, x); ("y"%string, y)].
(** axes.py:78-111, lim, label, scale, label_outer. *)
Inductive frame_op := OLim (x y : pv) | OLabel (x y : pv) | OScale (x y : pv) | OOuter.
(** axes.py:78-111. *)
Definition frame_kw (o : frame_op) : list (string * pv) :=
  match o with
  | OLim x y => [("lim"%string, xy x y)] | OLabel x y => [("label"%string, xy x y)]
  | OScale x y => [("scale"%string, xy x y)] | OOuter => [("label_outer"%string, PBool true)]
  end.
(** axes.py:78-111, several calls. *)
Fixpoint frame_run (d : fmt) (ops : list frame_op) : fmt * list call :=
  match ops with
  | [] => (d, [])
  | o :: ops' => let '(_, d1, c1) := fmt_frame d (frame_kw o) in let '(d2, c2) := frame_run d1 ops' in (d2, c1 ++ c2)
  end.

(** axes.py:293-322 errorfill: the two borders of the band. *)
Inductive yerr_arg := YNone | YNum (e : Q) | YVec (e : list Q) | YMat (rows : list (list Q)).
(** axes.py:293-322, y + err (numpy). *)
Definition vadd (a b : list Q) : result (list Q) :=
  if Nat.eqb (length a) (length b) then Ok (map (fun p => (fst p + snd p)%Q) (combine a b))
  else if Nat.eqb (length b) 1 then Ok (map (fun x => (x + nth 0 b 0)%Q) a)
  else if Nat.eqb (length a) 1 then Ok (map (fun x => (nth 0 a 0 + x)%Q) b) else Err ValueError.
(** axes.py:293-322, -err. *)
Definition vneg (a : list Q) : list Q := map Qopp a.
(** axes.py:293-322 [errorfill]. *)
Definition errorfill (y : list Q) (yerr : yerr_arg) : result (list Q * list Q) :=
  match yerr with
  | YNone => Err TypeError
  | YNum e => Ok (map (fun v => (v - e)%Q) y, map (fun v => (v + e)%Q) y)
  | YVec e => bind (vadd y (vneg e)) (fun lo => bind (vadd y e) (fun hi => Ok (lo, hi)))
  | YMat [a; b] => bind (vadd y (vneg a)) (fun lo => bind (vadd y b) (fun hi => Ok (lo, hi)))
  | YMat _ => Err ValueError
  end.

(** axes.py:397-404 Axes.leg: the location names. *)
Definition loc_map : list (string * string) :=
  [("r", "right"); ("lr", "lower right"); ("ll", "lower left"); ("cl", "center left"); ("ur", "upper right"); ("ul", "upper left");
   ("uc", "upper center"); ("center left", "cl"); ("center right", "cr"); ("c", "center")]%string.
(** axes.py:397-404. *)
Definition leg_loc (loc : string) : string := match od_get String.eqb loc_map loc with Some v => v | None => loc end.
(** axes.py:394-432: The location names matplotlib.axes.Axes.legend knows. *)
Definition mpl_locs : list string :=
  ["best"; "upper right"; "upper left"; "lower left"; "lower right"; "right"; "center left"; "center right"; "lower center"; "upper center"; "center"]%string.

(** plot/color.py:5-36 Color, with [named] standing for matplotlib's to_rgba of a name or tuple. *)
Definition rgba : Type := (Q * Q * Q * Q)%type.
(** plot/color.py:8-16, 28-34. *)
Inductive color_spec := CName (s : string) | CTuple (l : list Q) | CColor (c : rgba).
(** plot/color.py:28-34 [to_rgba]. *)
Definition to_rgba (named : string -> result rgba) (c : color_spec) : result rgba :=
  match c with
  | CColor c => Ok c
  | CName s => named s
  | CTuple [r; g; b] => Ok (r, g, b, 1%Q)
  | CTuple [r; g; b; a] => Ok (r, g, b, a)
  | CTuple _ => Err ValueError
  end.
(** plot/color.py:18-20 [alpha]. *)
Definition with_alpha (c : rgba) (a : Q) : rgba := let '(r, g, b, _) := c in (r, g, b, a).
(** plot/color.py:13-16, 28-34. *)
Definition color (named : string -> result rgba) (c : color_spec) (a : option Q) : result rgba :=
  rmap (fun c => match a with Some a => with_alpha c a | None => c end) (to_rgba named c).
