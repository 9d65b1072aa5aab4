(** EqualSpaceBins (/repo/src/pyhipp/stats/binning.py:122-235) in IEEE-754 binary64, round to nearest even (Flocq), as numpy executes it. *)
From Coq Require Import ZArith.
Require Import Flocq.Core.Core Flocq.IEEE754.BinarySingleNaN.
From Verif Require Import Base ProcFloat BinModel.
Local Open Scope list_scope. Local Open Scope nat_scope.

(** binning.py:192: np.floor(..).astype(np.int64) of one element.  NaN, infinities and numbers outside int64 become -2^63 (the x86-64
    conversion; C leaves it undefined). *)
Definition floor_int64 (x : b64) : Z :=
  match x with
  | B754_zero _ => 0%Z
  | B754_finite s m e _ => let z := cond_Zopp s (Zpos m) in
                           let f := if (0 <=? e)%Z then (z * 2 ^ e)%Z else (z / 2 ^ (- e))%Z in
                           if (- 2 ^ 63 <=? f)%Z && (f <? 2 ^ 63)%Z then f else (- 2 ^ 63)%Z
  | _ => (- 2 ^ 63)%Z
  end.
(** binning.py:175-189: the bins: their range and number (both kept as given), span and step (computed). *)
Record fbins := { fb_b : b64; fb_e : b64; fb_n : Z }.
(** binning.py:181-182. *)
Definition f_span (s : fbins) : b64 := sub64 (fb_e s) (fb_b s).
(** binning.py:182. *)
Definition f_step (s : fbins) : b64 := div64 (f_span s) (of_Z64 (fb_n s)).
(** binning.py:175-189 [__init__]. *)
Definition f_new (b e : b64) (n : Z) : result fbins :=
  if negb (Bltb b e) then Err AssertionError else if (n <=? 0)%Z then Err AssertionError else Ok {| fb_b := b; fb_e := e; fb_n := n |}.
(** binning.py:190-194 [locate], one sample. *)
Definition f_locate (s : fbins) (x : b64) : Z := zclip (-1) (fb_n s) (floor_int64 (div64 (sub64 x (fb_b s)) (f_step s))).
(** binning.py:209-211 [x_edges]: np.linspace(b, e, n + 1) = arange(n + 1) * ((e - b) / n) + b, its last element set to e (numpy's other
    formula, for a step that is zero, is not modelled). *)
Definition f_edge (s : fbins) (k : Z) : b64 := if (k =? fb_n s)%Z then fb_e s else add64 (mul64 (of_Z64 k) (f_step s)) (fb_b s).
(** binning.py:209-211, the whole array. *)
Definition f_edges (s : fbins) : list b64 := map (fun k => f_edge s (Z.of_nat k)) (seq 0 (Z.to_nat (fb_n s) + 1)).
(** binning.py:141-149 [locate_bound] with both bounds. *)
Definition f_locate_bound (s : fbins) (x : b64) : Z := zclip 0 (fb_n s - 1) (f_locate s x).
(** binning.py:151-161 [locate_nearest]. *)
Definition f_locate_nearest (s : fbins) (x : b64) : Z :=
  let l := f_locate_bound s x in let r := (l + 1)%Z in
  if Bltb (sub64 x (f_edge s l)) (sub64 (f_edge s r) x) then l else r.
