(** Numeric helpers of /repo/src/pyhipp/core/dataproc/num.py (bound, safe_div, norm, normalize) in IEEE-754 binary64, round to nearest even
    (Flocq), as Python and numpy execute them. *)
From Coq Require Import ZArith List.
Require Import Flocq.Core.Core Flocq.IEEE754.BinarySingleNaN.
From Verif Require Import Base ProcFloat FredModel.
Import ListNotations. Local Open Scope list_scope.

(** num.py:16-25 [bound_scalar]: max(x, lo) is x unless lo > x; min(x, hi) is x unless hi < x.  num.py:28-42 [bound_array] does the same to each
    element (x < lo, then x > hi). *)
Definition f_bound (lo hi : option b64) (x : b64) : b64 :=
  let y := match lo with Some l => if Bltb x l then l else x | None => x end in
  match hi with Some h => if Bltb h y then h else y | None => y end.
(** num.py:44-46 [safe_div], one element. *)
Definition f_safe_div (lo x y : b64) : b64 := div64 x (f_bound (Some lo) None y).
(** num.py:80-83 [norm] of one vector: numpy.linalg.norm along an axis is sqrt (add.reduce (x * x)); [total] is the adding routine. *)
Definition f_norm (total : list b64 -> b64) (x : list b64) : b64 := sqrt64 (total (times x x)).
(** num.py:85-94 [normalize], one vector: np.clip (n, lo, None) is maximum (n, lo), which is NaN for a NaN. *)
Definition f_normalize (total : list b64 -> b64) (lo : b64) (x : list b64) : list b64 :=
  let n := f_norm total x in
  let n := if Bltb n lo then lo else n in
  map (fun v => div64 v n) x.
(** num.py:45, 56, 72, 86: the default lo = 1.0e-10 as a double. *)
Definition lo_default64 : b64 := @B754_finite 53 1024 false 7737125245533627 (-86) eq_refl.
