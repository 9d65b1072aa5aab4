(** numerical/interpolate.py in IEEE-754 binary64 arithmetic (round to nearest even, Flocq's formalisation), the dtype numba
    compiles it for when it is given ordinary float arrays.  The search is the one of InterpModel.v with Bltb as [<]. *)
From Coq Require Import ZArith Reals.
Require Import Flocq.Core.Core Flocq.IEEE754.BinarySingleNaN.
From Verif Require Import Base InterpModel ProcFloat.
Local Open Scope list_scope.

(** interpolate.py:65-77 [linear_interp_weight]. *)
Definition f_linear_interp_weight (x xl xr : b64) : b64 * b64 :=
  let dl := sub64 x xl in let dr := sub64 xr x in let dx := add64 dl dr in (div64 dr dx, div64 dl dx).
(** interpolate.py:80-94 [bisearch_interp_weight]. *)
Definition f_bisearch_interp_weight (xs : list b64) (q : b64) : result (nat * nat * (b64 * b64)) :=
  bind (bisearch Bltb xs q) (fun l =>
    if (l <? 0)%Z then Ok (0, 0, (of_Z64 0, of_Z64 1))
    else
      let r := (l + 1)%Z in
      if (Z.of_nat (length xs) - 1 <? r)%Z then Ok (length xs - 1, length xs - 1, (of_Z64 1, of_Z64 0))
      else bind (at_ xs (Z.to_nat l)) (fun xl => bind (at_ xs (Z.to_nat r)) (fun xr =>
             Ok (Z.to_nat l, Z.to_nat r, f_linear_interp_weight q xl xr))))%nat.
(** interpolate.py:97-100 [bisearch_interp].  (numba is not asked for fastmath, so no fused multiply-add.) *)
Definition f_bisearch_interp (xs ys : list b64) (q : b64) : result b64 :=
  bind (f_bisearch_interp_weight xs q) (fun '(l, r, (wl, wr)) =>
    bind (at_ ys l) (fun yl => bind (at_ ys r) (fun yr => Ok (add64 (mul64 yl wl) (mul64 yr wr))))).
