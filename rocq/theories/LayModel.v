(** Model of the layout half of /repo/src/pyhipp/plot: SubplotsFormatter and SubFiguresFormatter (artist_formatter.py:296-377),
    FigureBase.subplots / subfigures (figure.py:25-57), shortcut.py:6-73, AxesArray (axes.py:435-588).

    Numbers are rationals.  An argument is None, a scalar or a sequence; what matplotlib does with the result is limited to: the
    number of rows and columns must be positive, left must be less than right and bottom less than top (gridspec's SubplotParams),
    missing borders come from the figure, and the array of axes is squeezed. *)
From Coq Require Import QArith.
From Verif Require Import Base OrderSpec.
Local Open Scope string_scope. Local Open Scope list_scope. Local Open Scope nat_scope.

(** The accepted forms of an argument (artist_formatter.py:302-350): None, a scalar, a sequence. *)
Inductive arg (A : Type) := ANone | AScalar (a : A) | ASeq (l : list A).
Arguments ANone {A}. Arguments AScalar {A}. Arguments ASeq {A}.
(** artist_formatter.py:306-343, unpacking a pair. *)
Definition two {A} (l : list A) : result (A * A) := match l with [a; b] => Ok (a, b) | _ => Err ValueError end.
(** artist_formatter.py:319-327, unpacking four. *)
Definition four {A} (l : list A) : result (A * A * A * A) := match l with [a; b; c; d] => Ok (a, b, c, d) | _ => Err ValueError end.

(** artist_formatter.py:306-308, 359-361: np.isscalar(n) => (1, n); nrows, ncols = n *)
Definition grid_of (n : arg Z) : result (Z * Z) :=
  match n with AScalar k => Ok (1%Z, k) | ASeq l => two l | ANone => Err TypeError end.
(** artist_formatter.py:310-312 share *)
Definition share_of {A} (s : arg A) : result (A * A) := match s with AScalar a => Ok (a, a) | ASeq l => two l | ANone => Err TypeError end.
(** artist_formatter.py:314-319: (top, right, bottom, left) *)
Definition borders := (option Q * option Q * option Q * option Q)%type.
(** artist_formatter.py:314-327. *)
Definition some4 (p : Q * Q * Q * Q) : borders := let '(a, b, c, d) := p in (Some a, Some b, Some c, Some d).
(** artist_formatter.py:314-319. *)
Definition extent_of (e : arg Q) : result borders :=
  match e with
  | ANone => Ok (None, None, None, None)
  | AScalar a => Ok (Some a, Some a, Some a, Some a)
  | ASeq [e1; e2] => Ok (Some e2, Some e2, Some e1, Some e1)
  | ASeq l => rmap some4 (four l)
  end.
(** artist_formatter.py:321-328 margin *)
Definition margin_of (m : arg Q) (b : borders) : result borders :=
  match m with
  | ANone => Ok b
  | AScalar a => Ok (Some (1 - a), Some (1 - a), Some a, Some a)%Q
  | ASeq [m1; m2] => Ok (Some (1 - m2), Some (1 - m2), Some m1, Some m1)%Q
  | ASeq l => rmap (fun p => let '(t, r, b, l) := p in (Some (1 - t), Some (1 - r), Some b, Some l)%Q) (four l)
  end.
(** artist_formatter.py:330-332, 363-365 (wspace, hspace) *)
Definition space_of (s : arg Q) : result (option Q * option Q) :=
  match s with ANone => Ok (None, None) | AScalar a => Ok (Some a, Some a) | ASeq l => rmap (fun p => (Some (fst p), Some (snd p))) (two l) end.
(** artist_formatter.py:334-336, 367-369 (width_ratios, height_ratios) *)
Definition ratios_of (r : option (list (option (list Q)))) : result (option (list Q) * option (list Q)) :=
  match r with None => Ok (None, None) | Some l => two l end.

(** artist_formatter.py:338-350, the keywords returned. *)
Record layout := { nrows : Z; ncols : Z; sharex : bool; sharey : bool; wspace : option Q; hspace : option Q;
                   width_ratios : option (list Q); height_ratios : option (list Q); top : option Q; right : option Q; bottom : option Q; left : option Q }.
(** artist_formatter.py:302-350 get_subplots_kw *)
Definition get_subplots_kw (n : arg Z) (share : arg bool) (extent space : arg Q) (ratios : option (list (option (list Q)))) (margin : arg Q) : result layout :=
  bind (grid_of n) (fun g => bind (share_of share) (fun s => bind (extent_of extent) (fun e => bind (margin_of margin e) (fun b =>
  bind (space_of space) (fun sp => bind (ratios_of ratios) (fun r =>
    let '(t, rt, bo, le) := b in
    Ok {| nrows := fst g; ncols := snd g; sharex := fst s; sharey := snd s; wspace := fst sp; hspace := snd sp;
          width_ratios := fst r; height_ratios := snd r; top := t; right := rt; bottom := bo; left := le |})))))).

(** artist_formatter.py:338-350: matplotlib: the borders in force, given those of the figure, and whether they are accepted (SubplotParams.update). *)
Definition or_default (v : option Q) (d : Q) : Q := match v with Some a => a | None => d end.
(** figure.py:25-42, the borders of the figure (matplotlib). *)
Record fig_borders := { ftop : Q; fright : Q; fbottom : Q; fleft : Q }.
(** figure.py:25-42, matplotlib refuses left >= right, bottom >= top. *)
Definition accepted_borders (f : fig_borders) (l : layout) : bool :=
  Qltb (or_default (left l) (fleft f)) (or_default (right l) (fright f)) && Qltb (or_default (bottom l) (fbottom f)) (or_default (top l) (ftop f)).
(** figure.py:25-42: What subplots returns: one Axes, or an AxesArray of some shape (axes numbered in row-major order). *)
Inductive panels := OneAxes (a : nat) | AxesArr (shape : list nat) (axes : list nat).
(** figure.py:25-42, squeeze=True. *)
Definition squeezed (r c : nat) : list nat := if Nat.eqb r 1 then [c] else if Nat.eqb c 1 then [r] else [r; c].
(** figure.py:25-42 subplots (without the caller's own gridspec keywords). *)
Definition subplots (f : fig_borders) (kw : layout) : result panels :=
  if ((nrows kw <=? 0) || (ncols kw <=? 0))%Z then Err ValueError
  else if negb (accepted_borders f kw) then Err ValueError
  else let r := Z.to_nat (nrows kw) in let c := Z.to_nat (ncols kw) in
       if (nrows kw * ncols kw =? 1)%Z then Ok (OneAxes 0) else Ok (AxesArr (squeezed r c) (seq 0 (r * c))).

(** shortcut.py:14-47 subplots: the figure size and the layout engine.  [figsize] is None, a number or a pair. *)
Definition size_of (s : arg Q) : result (Q * Q) := match s with AScalar a => Ok (a, a) | ASeq l => two l | ANone => Err TypeError end.
(** shortcut.py:14-47. *)
Definition figsize_of (n : arg Z) (figsize subsize : arg Q) : result (Q * Q) :=
  bind (grid_of n) (fun g => match figsize with
    | ANone => rmap (fun wh => (fst wh * inject_Z (snd g), snd wh * inject_Z (fst g))%Q) (size_of subsize)
    | _ => size_of figsize end).
(** shortcut.py:14-47. *)
Definition layout_of (layout : option string) (space : arg Q) : option string :=
  match layout, space with None, ANone => Some "tight" | l, _ => l end.

(** axes.py:435-588: AxesArray.  [sub sh data i]: self[i] of an array of shape n :: sh (464-468); iteration (473-476); the broadcast loops
    (476-620): [for ax in self: ax.method(...)], nested for more than one dimension; [f] is the method's effect on one Axes,
    an exception ends the loop. *)
Definition prod (l : list nat) : nat := fold_right Nat.mul 1 l.
(** axes.py:464-468. *)
Definition sub {A} (sh : list nat) (data : list A) (i : nat) : list A := firstn (prod sh) (skipn (i * prod sh) data).
(** axes.py:473-476, 494-588. *)
Fixpoint visit {A} (shape : list nat) (data : list A) : list A :=
  match shape with [] => data | n :: sh => flat_map (fun i => visit sh (sub sh data i)) (seq 0 n) end.
Section Broadcast.
  Context {S : Type} (f : S -> result unit * S).
  (** axes.py:494-588: One Axes after the other, in the given order. *)
  Fixpoint each (st : list S) (order : list nat) : result unit * list S :=
    match order with
    | [] => (Ok tt, st)
    | a :: order' => match nth_error st a with
                     | None => (Err IndexError, st)
                     | Some s => match f s with
                                 | (Ok _, s') => each (upd_nth st a s') order'
                                 | (Err e, s') => (Err e, upd_nth st a s')
                                 end
                     end
    end.
  (** axes.py:494-588, on every Axes of the array. *)
  Definition broadcast (st : list S) (shape axes : list nat) : result unit * list S := each st (visit shape axes).
End Broadcast.
(** axes.py:482-484: T, for one or two dimensions *)
Definition transpose (shape axes : list nat) : list nat * list nat :=
  match shape with
  | [r; c] => ([c; r], flat_map (fun j => map (fun i => nth (i * c + j) axes 0) (seq 0 r)) (seq 0 c))
  | _ => (shape, axes)
  end.
