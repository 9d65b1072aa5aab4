(** stats/reduction.py:170-268 in IEEE double precision (Flocq binary64): Quantile, Median and Errorbar of one row.  The numpy routines called there
    are modelled by what they compute: np.quantile (method 'linear', the default), np.median, np.cumsum and np.interp.  What sorting (or
    np.partition) leaves behind is a parameter [s]: the samples, smallest first; equal samples and the two zeros may come in any order. *)
From Coq Require Import ZArith Bool List.
Require Import Flocq.Core.Core Flocq.IEEE754.BinarySingleNaN.
From Verif Require Import Base ProcFloat MeshFloatModel FredModel.
Import ListNotations. Local Open Scope list_scope.

(** reduction.py:205 np.quantile: numpy's _lerp(a, b, t) = a + (b - a) t, from t = 1/2 on written b - (b - a) (1 - t). *)
Definition f_lerp (a b t : b64) : b64 :=
  let d := sub64 b a in
  if Bleb half64 t then sub64 b (mul64 d (sub64 (of_Z64 1) t)) else add64 a (mul64 d t).
(** reduction.py:205 np.quantile: the virtual index (n - 1) p, its two neighbours and the interpolation between them; from n - 1 on the last sample. *)
Definition f_at (s : list b64) (v : b64) : b64 :=
  let m := (length s - 1)%nat in
  if Bleb (of_Z64 (Z.of_nat m)) v then nth m s zero64
  else let i := ffloor v in
       f_lerp (nth (Z.to_nat i) s zero64) (nth (S (Z.to_nat i)) s zero64) (sub64 v (of_Z64 i)).
(** reduction.py:204-205 np.quantile(x, p); ValueError unless p is in [0, 1]. *)
Definition f_quantile (s : list b64) (p : b64) : result b64 :=
  if Bleb (of_Z64 0) p && Bleb p (of_Z64 1) then Ok (f_at s (mul64 (of_Z64 (Z.of_nat (length s - 1))) p)) else Err ValueError.
(** reduction.py:261-262 np.median: the mean of the one or two middle samples. *)
Definition f_median (s : list b64) : b64 :=
  let n := length s in
  if Nat.even n then div64 (np_sum [nth (n / 2 - 1) s zero64; nth (n / 2) s zero64]) (of_Z64 2) else div64 (np_sum [nth (n / 2) s zero64]) (of_Z64 1).
(** reduction.py:238-247 Errorbar._impl from the quantiles at three probabilities: the middle one and its two distances. *)
Definition f_errorbar (q : b64 -> result b64) (lo mid hi : b64) : result (b64 * b64 * b64) :=
  bind (q lo) (fun x_lo => bind (q mid) (fun x_med => bind (q hi) (fun x_hi => Ok (x_med, sub64 x_med x_lo, sub64 x_hi x_med)))).
(** reduction.py:79 Reduce._impl_1d: the weights are divided by their sum. *)
Definition f_fractions (total : list b64 -> b64) (w : list b64) : list b64 := map (fun a => div64 a (total w)) w.
(** reduction.py:212 np.cumsum. *)
Fixpoint f_cumsum_from (acc : b64) (l : list b64) : list b64 :=
  match l with [] => [] | a :: l' => add64 acc a :: f_cumsum_from (add64 acc a) l' end.
(** reduction.py:212 np.cumsum: the first sum is the first entry. *)
Definition f_cumsum (l : list b64) : list b64 := match l with [] => [] | a :: l' => a :: f_cumsum_from a l' end.
(** reduction.py:213 np.interp: how many of the ascending abscissas are not above p. *)
Definition f_not_above (xp : list b64) (p : b64) : nat := length (filter (fun x => Bleb x p) xp).
(** reduction.py:213 np.interp(p, xp, fp) for p and fp without NaN or infinity, [xp] ascending: left of the first abscissa the first value, at and
    after the last the last; at an abscissa its value; between two the slope times the distance, plus the value on the left.  The retry after a NaN
    (slope infinite times zero) cannot be reached, as the distance is then not zero. *)
Definition f_interp (xp fp : list b64) (p : b64) : b64 :=
  let k := f_not_above xp p in
  match k with
  | O => nth 0 fp zero64
  | S j => if (k =? length xp)%nat then nth j fp zero64
           else let xj := nth j xp zero64 in let fj := nth j fp zero64 in
                if Beqb xj p then fj
                else add64 (mul64 (div64 (sub64 (nth k fp zero64) fj) (sub64 (nth k xp zero64) xj)) (sub64 p xj)) fj
  end.
(** reduction.py:210 x[idx]: fancy indexing. *)
Definition f_take (order : list nat) (l : list b64) : list b64 := map (fun i => nth i l zero64) order.
(** reduction.py:79, 207-214 Quantile._impl_with_weight at one probability: [order] is what np.argsort returned, or 0, 1, ... with sort = False. *)
Definition f_wquantile (total : list b64 -> b64) (order : list nat) (x w : list b64) (p : b64) : b64 :=
  f_interp (f_cumsum (f_take order (f_fractions total w))) (f_take order x) p.
(** reduction.py:79, 264-268 Median._impl_with_weight: the weights are divided a second time. *)
Definition f_wmedian (total : list b64 -> b64) (order : list nat) (x w : list b64) : b64 :=
  f_wquantile total order x (f_fractions total w) half64.
(** reduction.py:176-186 ps_map: the decimal levels used by Errorbar, rounded to doubles (a quotient of integers is the double nearest to it). *)
Definition level (k n : Z) : b64 := div64 (of_Z64 k) (of_Z64 n).
(** reduction.py:176-186 ps_map['median+1sigma'], ['median+2sigma'], ['median+3sigma']. *)
Definition f_levels (sigmas : nat) : option (b64 * b64 * b64) :=
  match sigmas with
  | 1%nat => Some (level 16 100, level 1 2, level 84 100)
  | 2%nat => Some (level 25 1000, level 1 2, level 975 1000)
  | 3%nat => Some (level 5 1000, level 1 2, level 995 1000)
  | _ => None
  end.
