(** Model of /repo/src/pyhipp/astro/plot/shortcuts.py: secondary axes and filled bands.  Frame formatting is FmtModel's. *)
From Coq Require Import Reals.
From Verif Require Import Base FmtModel LinModel.
Local Open Scope string_scope. Local Open Scope list_scope.

(** shortcuts.py:14-80: What one call did: the outcome, the axis created (x or y, and where), the matplotlib calls on it and on the parent, and the
    parent's formatter afterwards. *)
Record outcome := { o_res : result unit; o_axis : option (string * string); o_new : list call; o_parent : list call; o_fmt : fmt }.
(** shortcuts.py:14-42 add_secondary_axis; [d] is the parent's frame formatter.  The two functions are handed to matplotlib as they
    are; a new Axes wrapper (axes.py:40-48) starts with a fresh formatter. *)
Definition axis_of (location : string) : option string :=
  if (location =? "top") || (location =? "bottom") then Some "x" else if (location =? "left") || (location =? "right") then Some "y" else None.
(** shortcuts.py:14-40 [add_secondary_axis]. *)
Definition secondary (d : fmt) (location : string) (ticks label : pv) (hide : bool) : outcome :=
  match axis_of location with
  | None => {| o_res := Err ValueError; o_axis := None; o_new := []; o_parent := []; o_fmt := d |}
  | Some axis =>
      let kw := (if not_none label then [("label", PMap [(axis, label)])] else []) ++ (if not_none ticks then [("ticks", PMap [(axis, ticks)])] else []) in
      let '(r, _, calls) := fmt_frame frame_fmt kw in
      match r with
      | Err e => {| o_res := Err e; o_axis := Some (axis, location); o_new := calls; o_parent := []; o_fmt := d |}
      | Ok _ =>
          if hide then
            let p := PMap [("which", PText "both"); (location, PBool false)] in
            let '(r2, d2, c2) := fmt_frame d [("tick_params", PMap [("x", if axis =? "x" then p else PNone); ("y", if axis =? "y" then p else PNone); ("both", PNone)])] in
            {| o_res := r2; o_axis := Some (axis, location); o_new := calls; o_parent := c2; o_fmt := d2 |}
          else {| o_res := Ok tt; o_axis := Some (axis, location); o_new := calls; o_parent := []; o_fmt := d |}
      end
  end.
(** shortcuts.py:42-51 add_secondary_axis_lgzp1_to_z: the two functions. *)
Definition lgzp1_to_z (x : R) : R := (Rpower 10 x - 1)%R.
(** shortcuts.py:48-50. *)
Definition z_to_lgzp1 (z : R) : R := (ln (1 + z) / ln 10)%R.
(** shortcuts.py:53-59 add_secondary_identical_axis: [fn] is the function defined by "def fn(x): return x, lambda x: x", and "*fn" iterates over it. *)
Inductive pyval := VFunction | VTuple (l : list pyval).
(** shortcuts.py:23-25, unpacking a pair of functions. *)
Definition unpack (v : pyval) : result (list pyval) := match v with VTuple l => Ok l | VFunction => Err TypeError end.
(** shortcuts.py:55-57. *)
Definition fn_identical : pyval := VFunction.
(** shortcuts.py:53-59 [add_secondary_identical_axis], for any value unpacked by the star; the code's is [fn_identical]. *)
Definition identical (fn : pyval) (d : fmt) (location : string) (ticks label : pv) (hide : bool) : outcome :=
  match unpack fn with
  | Err e => {| o_res := Err e; o_axis := None; o_new := []; o_parent := []; o_fmt := d |}
  | Ok [_; _] => secondary d location ticks label hide
  | Ok _ => {| o_res := Err TypeError; o_axis := None; o_new := []; o_parent := []; o_fmt := d |}
  end.
(** shortcuts.py:61-68 add_secondary_axis_interp with default interp_kw: the two interpolators (kind='slinear', fill_value='extrapolate'). *)
Definition interp_pair (x x_new : list R) : result ((R -> result R) * (R -> result R)) :=
  bind (interp1d x x_new true) (fun f => bind (interp1d x_new x true) (fun g => Ok (f, g))).
(** shortcuts.py:70-80 fill_between_xy: the vertices of the polygon; column_stack needs equally long columns. *)
Definition band {A} (x1 y1 x2 y2 : list A) : result (list (A * A)) :=
  let x := x1 ++ rev x2 in let y := y1 ++ rev y2 in
  if Nat.eqb (length x) (length y) then Ok (combine x y) else Err ValueError.
