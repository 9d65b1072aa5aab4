(** Model of the transcendental parts of /repo/src/pyhipp/core/dataproc/{num,frame}.py over the real numbers (exact
    arithmetic, no NaN).  A vector is a list of reals. *)
From Coq Require Import Reals List.
From Verif Require Import Base.
Import ListNotations.
Local Open Scope R_scope. Local Open Scope list_scope.

(** num.py:82-85, np.sum. *)
Definition Rsum (l : list R) : R := fold_right Rplus 0 l.
(** num.py:82-85 Num.norm (np.linalg.norm of one vector). *)
Definition norm (x : list R) : R := sqrt (Rsum (map (fun v => v * v) x)).
(** num.py:87-96 Num.normalize, one vector: np.clip(n, lo, None) = max(n, lo); the caller's vector afterwards second. *)
Definition normalize (lo : R) (inplace : bool) (x : list R) : list R * list R :=
  let n := Rmax (norm x) lo in let y := map (fun v => v / n) x in (y, if inplace then y else x).
(** num.py:48-52 lg, 54-63 safe_lg, 65-69 ln, 71-80 safe_ln, on one scalar; np.log is [ln] on positive arguments. *)
Definition lg (x : R) : R := ln x / ln 10.
(** num.py:54-63. *)
Definition safe_lg (lo x : R) : R := lg (Rmax x lo).
(** num.py:71-80. *)
Definition safe_ln (lo x : R) : R := ln (Rmax x lo).
(** num.py:44-46 safe_div on scalars. *)
Definition safe_div (lo x y : R) : R := x / Rmax y lo.
(** The default floor 1.0e-10 of num.py:45,55,72,88. *)
Definition lo_default : R := / 10 ^ 10.

(** frame.py:5-15 unit_vec_to_cart, 17-22 unit_vec_to_cart_2d (stacked). *)
Definition unit_vec_to_cart (theta phi : R) : list R := [sin theta * cos phi; sin theta * sin phi; cos theta].
(** frame.py:17-22. *)
Definition unit_vec_to_cart_2d (theta : R) : list R := [cos theta; sin theta].
(** frame.py:24-43: np.cross on 3-vectors. *)
Definition cross (a b : list R) : list R :=
  match a, b with
  | [a1; a2; a3], [b1; b2; b3] => [a2 * b3 - a3 * b2; a3 * b1 - a1 * b3; a1 * b2 - a2 * b1]
  | _, _ => []
  end.
(** frame.py:24-43 rt_to_cart for one row: the three new axes and the recombination. *)
Definition rt_axes (x : list R) : list R * list R * list R :=
  let vx := cross [0; 0; 1] x in
  let vy := cross x vx in
  (fst (normalize lo_default true vx), fst (normalize lo_default true vy), fst (normalize lo_default true x)).
(** frame.py:24-43, the recombination along three axes. *)
Definition lincomb (a b c : R) (u v w : list R) : list R :=
  match u, v, w with
  | [u1; u2; u3], [v1; v2; v3], [w1; w2; w3] => [u1 * a + v1 * b + w1 * c; u2 * a + v2 * b + w2 * c; u3 * a + v3 * b + w3 * c]
  | _, _, _ => []
  end.
(** frame.py:24-43. *)
Definition rt_to_cart (x v : list R) : list R :=
  let '(ex, ey, ez) := rt_axes x in
  match v with [v1; v2; v3] => lincomb v1 v2 v3 ex ey ez | _ => [] end.
(** num.py:87-96 with the kind of the array ([is_int]: whole numbers): numpy refuses to divide an array of integers in place. *)
Definition normalize_dt (lo : R) (is_int inplace : bool) (x : list R) : result (list R * list R) :=
  if (inplace && is_int)%bool then Err TypeError else Ok (normalize lo inplace x).
(** frame.py:24-43 rt_to_cart for positions of a given kind: np.array and np.cross with [0,0,1] keep it. *)
Definition rt_to_cart_dt (is_int : bool) (x v : list R) : result (list R) :=
  let vx := cross [0; 0; 1] x in let vy := cross x vx in
  bind (normalize_dt lo_default is_int true vx) (fun ex => bind (normalize_dt lo_default is_int true vy) (fun ey => bind (normalize_dt lo_default is_int true x) (fun ez =>
    Ok (match v with [v1; v2; v3] => lincomb v1 v2 v3 (fst ex) (fst ey) (fst ez) | _ => [] end)))).
