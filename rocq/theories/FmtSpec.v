(** What formatting calls on an Axes mean, independently of how the formatters store it. *)
From Verif Require Import Base FmtModel.
Local Open Scope string_scope. Local Open Scope list_scope. Local Open Scope nat_scope.

(** The last value given to a name in a list of settings. *)
Fixpoint last_value (items : list (string * pv)) (k : string) : option pv :=
  match items with
  | [] => None
  | (k', v) :: items' => match last_value items' k with Some v' => Some v' | None => if String.eqb k k' then Some v else None end
  end.
(** The settings before the first one with an unknown name. *)
Fixpoint until_unknown (known : list string) (items : list (string * pv)) : list (string * pv) :=
  match items with
  | [] => []
  | (k, v) :: items' => if existsb (String.eqb k) known then (k, v) :: until_unknown known items' else []
  end.
Definition opt (k : string) (v : pv) : list (string * pv) := match v with PNone => [] | _ => [(k, v)] end.

(** The five drawing formatters, the names they know with their default values. *)
Inductive which := WLine | WMarker | WErr | WFill | WText.
Definition defaults (w : which) : list (string * pv) :=
  match w with
  | WLine => [("c", PText "k"); ("a", PAtom 1); ("lw", PAtom 25); ("ls", PText "-")]
  | WMarker => [("style", PNone); ("ec", PText "k"); ("fc", PText "k"); ("ea", PAtom 1); ("fa", PAtom 3); ("s", PAtom 10); ("elw", PAtom 1)]
  | WErr => [("c", PText "k"); ("a", PAtom 1); ("lw", PAtom 1); ("capsize", PAtom 4); ("capthick", PAtom 1)]
  | WFill => [("fc", PText "k"); ("ec", PText "k"); ("fa", PAtom 2); ("ea", PAtom 1); ("lw", PAtom 1); ("ls", PText "-")]
  | WText => [("use_tex", PBool true); ("c", PText "k"); ("a", PAtom 1); ("s", PAtom 15)]
  end.
Definition names (w : which) : list string := map fst (defaults w).
(** The settings one call gives to one formatter; c(...) reaches all but the text, and only what is not None. *)
Definition gives (w : which) (o : fmt_op) : list (string * pv) :=
  match w, o with
  | (WLine | WErr), FC c a => opt "c" c ++ opt "a" a
  | (WMarker | WFill), FC c a => opt "fc" c ++ opt "fa" a ++ opt "ec" c ++ opt "ea" a
  | WLine, FLine kw | WErr, FErr kw | WText, FText kw => until_unknown (names w) kw
  | WMarker, FMarker st c a kw => opt "fc" c ++ opt "fa" a ++ opt "ec" c ++ opt "ea" a ++ [("style", st)] ++ until_unknown (names w) kw
  | WFill, FFill c a kw => opt "fc" c ++ opt "fa" a ++ opt "ec" c ++ opt "ea" a ++ until_unknown (names w) kw
  | _, _ => []
  end.
(** The value of a property after a history: the last one given, the default otherwise. *)
Definition value (w : which) (k : string) (ops : list fmt_op) : option pv :=
  match last_value (flat_map (gives w) ops) k with Some v => Some v | None => last_value (defaults w) k end.

(** Where the keywords of a drawing call come from, as the docstrings list them. *)
Inductive source := FromProp (w : which) (k : string) | FromColour (w : which) (c a : string).
Definition sources (m : draw) (kw : string) : option source :=
  let line := fun k => if String.eqb k "c" then Some (FromColour WLine "c" "a") else if String.eqb k "lw" then Some (FromProp WLine "lw") else if String.eqb k "ls" then Some (FromProp WLine "ls") else None in
  let mark := fun k => if String.eqb k "marker" then Some (FromProp WMarker "style") else if String.eqb k "ms" then Some (FromProp WMarker "s") else if String.eqb k "mew" then Some (FromProp WMarker "elw")
                       else if String.eqb k "mec" then Some (FromColour WMarker "ec" "ea") else if String.eqb k "mfc" then Some (FromColour WMarker "fc" "fa") else None in
  let err := fun k => if String.eqb k "ecolor" then Some (FromColour WErr "c" "a") else if String.eqb k "elinewidth" then Some (FromProp WErr "lw") else if String.eqb k "capsize" then Some (FromProp WErr "capsize")
                      else if String.eqb k "capthick" then Some (FromProp WErr "capthick") else None in
  let or := fun a b : option source => match a with Some _ => a | None => b end in
  match m with
  | DPlot => or (line kw) (mark kw)
  | DErrorbar => or (line kw) (or (err kw) (mark kw))
  | DScatter => if String.eqb kw "marker" then Some (FromProp WMarker "style") else if String.eqb kw "s" then Some (FromProp WMarker "s")
                else if String.eqb kw "linewidths" then Some (FromProp WMarker "elw") else if String.eqb kw "edgecolors" then Some (FromColour WMarker "ec" "ea")
                else if String.eqb kw "facecolors" then Some (FromColour WMarker "fc" "fa") else None
  | DFill | DStairs | DHist => if String.eqb kw "ec" then Some (FromColour WFill "ec" "ea") else if String.eqb kw "fc" then Some (FromColour WFill "fc" "fa")
                else if String.eqb kw "lw" then Some (FromProp WFill "lw") else if String.eqb kw "ls" then Some (FromProp WFill "ls") else None
  | DText => if String.eqb kw "color" then Some (FromColour WText "c" "a") else if String.eqb kw "fontsize" then Some (FromProp WText "s") else None
  end.

(** lim, label, scale: the value last given for one axis. *)
Definition kind_of (o : frame_op) : option (string * pv * pv) :=
  match o with OLim x y => Some ("lim", x, y) | OLabel x y => Some ("label", x, y) | OScale x y => Some ("scale", x, y) | OOuter => None end.
Fixpoint last_given (what : string) (is_x : bool) (ops : list frame_op) : option pv :=
  match ops with
  | [] => None
  | o :: ops' => match last_given what is_x ops' with
                 | Some v => Some v
                 | None => match kind_of o with
                           | Some (w, x, y) => if String.eqb what w then match (if is_x then x else y) with PNone => None | v => Some v end else None
                           | None => None
                           end
                 end
  end.
(** What matplotlib was last told. *)
Fixpoint last_told (what : string) (is_x : bool) (cs : list call) : option pv :=
  match cs with
  | [] => None
  | c :: cs' => match last_told what is_x cs' with
                | Some v => Some v
                | None => match c with SetAxis w b v _ => if String.eqb what w && Bool.eqb is_x b then Some v else None | _ => None end
                end
  end.
