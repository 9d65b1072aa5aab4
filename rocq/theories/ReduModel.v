(** Model of /repo/src/pyhipp/stats/reduction.py.
    Numbers are rationals plus infinities and NaN (BinSpec.num; exact arithmetic, one zero); np.sqrt gives a real number.
    Samples of quantiles are finite.  Masks are Boolean. *)
From Coq Require Import QArith Qround Qabs Reals Qreals.
From Verif Require Import Base OrderSpec BinSpec BinModel InterpModel ReduSpec.
Local Open Scope list_scope. Local Open Scope nat_scope.

(** ** Arithmetic of numpy floats without rounding *)
(** The arithmetic of reduction.py:108-171: +. *)
Definition nadd (a b : num) : num :=
  match a, b with
  | NaN, _ => NaN | _, NaN => NaN
  | PInf, NInf => NaN | NInf, PInf => NaN
  | PInf, _ => PInf | _, PInf => PInf | NInf, _ => NInf | _, NInf => NInf
  | Fin p, Fin q => Fin (p + q)
  end.
(** reduction.py:163-171, unary -. *)
Definition nopp (a : num) : num := match a with Fin p => Fin (- p) | PInf => NInf | NInf => PInf | NaN => NaN end.
(** reduction.py:163-171, -. *)
Definition nsub (a b : num) : num := nadd a (nopp b).
(** reduction.py:120-153: An infinity of the sign of [q], NaN for zero. *)
Definition inf_sign (pos : bool) (q : Q) : num :=
  if Qeq_bool q 0 then NaN else if Bool.eqb pos (Qltb 0 q) then PInf else NInf.
(** reduction.py:120-131, *. *)
Definition nmul (a b : num) : num :=
  match a, b with
  | NaN, _ => NaN | _, NaN => NaN
  | Fin p, Fin q => Fin (p * q)
  | PInf, Fin q => inf_sign true q | NInf, Fin q => inf_sign false q
  | Fin q, PInf => inf_sign true q | Fin q, NInf => inf_sign false q
  | PInf, PInf => PInf | NInf, NInf => PInf | _, _ => NInf
  end.
(** reduction.py:140-153, /. *)
Definition ndiv (a b : num) : num :=
  match a, b with
  | NaN, _ => NaN | _, NaN => NaN
  | Fin p, Fin q => if Qeq_bool q 0 then (if Qeq_bool p 0 then NaN else if Qltb 0 p then PInf else NInf) else Fin (p / q)
  | Fin _, _ => Fin 0
  | PInf, Fin q => if Qltb q 0 then NInf else PInf
  | NInf, Fin q => if Qltb q 0 then PInf else NInf
  | _, _ => NaN
  end.
(** reduction.py:108-131, a bool as a number. *)
Definition of_bool (b : bool) : num := Fin (if b then 1 else 0).
(** reduction.py:108-131, .sum(). *)
Definition nsum (l : list num) : num := fold_right nadd (Fin 0) l.
(** reduction.py:163-171: np.sqrt *)
Inductive root := RFin (r : R) | RInf | RNaN.
(** reduction.py:163-171, np.sqrt. *)
Definition nsqrt (a : num) : root :=
  match a with Fin q => if Qltb q 0 then RNaN else RFin (sqrt (Q2R q)) | PInf => RInf | _ => RNaN end.

(** ** Arrays: one-dimensional, or two-dimensional with a given number of columns *)
(** reduction.py:52-62. *)
Inductive arr (A : Type) := A1 (l : list A) | A2 (cols : nat) (rows : list (list A)).
Arguments A1 {A}. Arguments A2 {A}.
(** reduction.py:52-62, all rows of the same length (what numpy arrays are). *)
Definition arr_ok {A} (a : arr A) : bool :=
  match a with A1 _ => true | A2 c rows => forallb (fun r => Nat.eqb (length r) c) rows end.
(** reduction.py:52-62, x.shape == w.shape. *)
Definition same_shape {A B} (a : arr A) (b : arr B) : bool :=
  match a, b with
  | A1 l, A1 l' => Nat.eqb (length l) (length l')
  | A2 c r, A2 c' r' => Nat.eqb c c' && Nat.eqb (length r) (length r')
  | _, _ => false
  end.
(** reduction.py:52-67: What comes out of a reduction over the last axis: a 0-d array or a vector. *)
Inductive out (A : Type) := S0 (a : A) | V1 (l : list A).
Arguments S0 {A}. Arguments V1 {A}.
(** reduction.py:108-171, element-wise. *)
Definition amap {A B} (f : A -> B) (a : arr A) : arr B :=
  match a with A1 l => A1 (map f l) | A2 c rows => A2 c (map (map f) rows) end.
(** reduction.py:108-171, element-wise. *)
Definition zip_with {A B C} (f : A -> B -> C) (l : list A) (l' : list B) : list C := map (fun p => f (fst p) (snd p)) (combine l l').
(** reduction.py:108-171: Elementwise operation on arrays of the same shape. *)
Definition azip {A B C} (f : A -> B -> C) (a : arr A) (b : arr B) : arr C :=
  match a, b with
  | A1 l, A1 l' => A1 (zip_with f l l')
  | A2 c r, A2 _ r' => A2 c (zip_with (zip_with f) r r')
  | _, _ => A1 []
  end.
(** reduction.py:108-131: x.sum(-1) *)
Definition sum_last (a : arr num) : out num := match a with A1 l => S0 (nsum l) | A2 _ rows => V1 (map nsum rows) end.
(** reduction.py:108-171, element-wise on the result. *)
Definition omap {A B} (f : A -> B) (a : out A) : out B := match a with S0 a => S0 (f a) | V1 l => V1 (map f l) end.
(** reduction.py:140-171: Elementwise with broadcasting of 0-d arrays. *)
Definition ozip {A B C} (f : A -> B -> C) (a : out A) (b : out B) : out C :=
  match a, b with
  | S0 a, S0 b => S0 (f a b)
  | S0 a, V1 l => V1 (map (f a) l)
  | V1 l, S0 b => V1 (map (fun a => f a b) l)
  | V1 l, V1 l' => V1 (zip_with f l l')
  end.
(** reduction.py:140-153: a[sel] = v for a Boolean array [sel]; a 0-d [sel] assigns everything or nothing. *)
Definition assign {A} (a : out A) (s : out bool) (v : A) : result (out A) :=
  match a, s with
  | S0 x, S0 b => Ok (S0 (if (b : bool) then v else x))
  | V1 l, S0 b => Ok (V1 (if (b : bool) then map (fun _ => v) l else l))
  | V1 l, V1 bs => if Nat.eqb (length l) (length bs) then Ok (V1 (zip_with (fun x b => if (b : bool) then v else x) l bs)) else Err IndexError
  | S0 _, V1 _ => Err IndexError
  end.

(** ** reduction.py:52-62 Reduce.__call__: the shape checks *)
(** reduction.py:52-62, as above. *)
Definition checked {A B C} (x : arr A) (w : option (arr B)) (m : option (arr bool)) (k : result C) : result C :=
  let ok {D} (o : option (arr D)) := match o with Some a => same_shape a x | None => true end in
  if ok w && ok m then k else Err AssertionError.

(** reduction.py:101-111 Count._impl. *)
Definition count_true (l : list bool) : Z := Z.of_nat (length (filter (fun b => b) l)).
(** reduction.py:108-111. *)
Definition count_impl {A} (x : arr A) (m : option (arr bool)) : out Z :=
  match m with
  | None => S0 (match x with A1 l => Z.of_nat (length l) | A2 c _ => Z.of_nat c end)
  | Some (A1 l) => S0 (count_true l)
  | Some (A2 _ rows) => V1 (map count_true rows)
  end.
(** reduction.py:101-111: Count()(x, weight, mask) *)
Definition count {A} (x : arr A) (w : option (arr num)) (m : option (arr bool)) : result (out Z) := checked x w m (Ok (count_impl x m)).

(** reduction.py:114-131 Sum._impl. *)
Definition sum_impl (x : arr num) (w : option (arr num)) (m : option (arr bool)) : out num :=
  let m' := option_map (amap of_bool) m in
  let w_tot := match w, m' with
               | None, m' => m'
               | Some w, None => Some w
               | Some w, Some m' => Some (azip nmul w m')
               end in
  sum_last (match w_tot with Some w => azip nmul x w | None => x end).
(** reduction.py:114-131 [Sum()(x, weight, mask)]. *)
Definition sum (x : arr num) (w : option (arr num)) (m : option (arr bool)) : result (out num) := checked x w m (Ok (sum_impl x w m)).

(** reduction.py:134-153 Mean. *)
Definition mean_impl (fill : num) (x : arr num) (w : option (arr num)) (m : option (arr bool)) : result (out num) :=
  bind (count x None m) (fun x_count =>
  bind (sum x w m) (fun xw_sum =>
  bind (match w with None => Ok (omap (fun z => Fin (inject_Z z)) x_count) | Some w => sum w None m end) (fun w_sum =>
    let sel_empty := omap (fun c => (c <? 1)%Z) x_count in
    bind (assign w_sum sel_empty (Fin 1)) (fun w_sum =>
      assign (ozip ndiv xw_sum w_sum) sel_empty fill)))).
(** reduction.py:134-153 [Mean()(x, weight, mask)]. *)
Definition mean (fill : num) x w m : result (out num) := checked x w m (mean_impl fill x w m).

(** reduction.py:156-171 StdDev: the value under the square root, and the result. *)
Definition sub_mean (x : arr num) (mu : out num) : arr num :=
  match x, mu with
  | A1 l, S0 c => A1 (map (fun v => nsub v c) l)
  | A2 cols rows, V1 cs => A2 cols (zip_with (fun r c => map (fun v => nsub v c) r) rows cs)
  | _, _ => x
  end.
(** reduction.py:163-171, x*x. *)
Definition square (x : arr num) : arr num := azip nmul x x.
(** reduction.py:163-171, what np.sqrt is applied to. *)
Definition radicand (fill : num) x w m : result (out num) :=
  bind (mean fill x w m) (fun mu => mean fill (square (sub_mean x mu)) w m).
(** reduction.py:156-171 [StdDev()(x, weight, mask)]. *)
Definition std_dev (fill : num) x w m : result (out root) := checked x w m (rmap (omap nsqrt) (radicand fill x w m)).

(** ** Quantiles; samples are rationals *)
(** reduction.py:204-205: np.quantile(x, p), method 'linear'. *)
Definition np_quantile (x : list Q) (p : Q) : result Q :=
  if Qle_bool 0 p && Qle_bool p 1 then
    let s := np_sort Qltb x in
    let h := (p * inject_Z (Z.of_nat (length s - 1)))%Q in
    let i := Z.to_nat (Qfloor h) in
    let g := (h - inject_Z (Qfloor h))%Q in
    let lo := nth i s 0%Q in let hi := nth (S i) s lo in
    Ok (lo + g * (hi - lo))%Q
  else Err ValueError.
(** reduction.py:207-214: np.argsort and the two fancy indexings: sample-weight pairs ordered by sample (ties in some order). *)
Definition fst_lt (a b : Q * Q) : bool := Qltb (fst a) (fst b).
(** reduction.py:207-214, np.cumsum. *)
Fixpoint cumsum (acc : Q) (l : list Q) : list Q := match l with [] => [] | a :: l' => (acc + a)%Q :: cumsum (acc + a)%Q l' end.
(** reduction.py:207-214: np.interp(p, cdf, x) is the piecewise linear interpolant with constant extension, as InterpModel.bisearch_interp. *)
Definition weighted_quantile (sort : bool) (x w : list Q) (p : Q) : result Q :=
  let pairs := combine x w in
  let pairs := if sort then np_sort fst_lt pairs else pairs in
  bisearch_interp (cumsum 0 (map snd pairs)) (map fst pairs) p.
(** reduction.py:69-82 Reduce._impl_1d for the classes that use it. *)
Definition impl_1d {B} (fill : B) (plain : list Q -> result B) (weighted : list Q -> list Q -> result B)
    (x : list Q) (w : option (list Q)) (m : option (list bool)) : result B :=
  let x := sel m x in
  match x with
  | [] => Ok fill
  | _ => match w with
         | None => plain x
         | Some w => let w := sel m w in weighted x (map (fun a => a / Qsum w)%Q w)
         end
  end.
(** reduction.py:188-214 Quantile, one row; [ps] is the array of probabilities, [fill] repeated like it. *)
Definition quantile_1d (ps : list Q) (sort : bool) (fill : Q) :=
  impl_1d (map (fun _ => fill) ps) (fun x => mapM (np_quantile x) ps) (fun x w => mapM (weighted_quantile sort x w) ps).
(** reduction.py:250-268 Median, one row; np.median averages the two middle order statistics. *)
Definition np_median (x : list Q) : Q :=
  let s := np_sort Qltb x in let n := length s in
  if Nat.even n then ((nth (n / 2 - 1) s 0 + nth (n / 2) s 0) / 2)%Q else nth (n / 2) s 0%Q.
(** reduction.py:250-268, one row. *)
Definition median_1d (sort : bool) (fill : Q) :=
  impl_1d fill (fun x => Ok (np_median x))
          (fun x w => bind (quantile_1d [1 # 2] sort fill x (Some w) None) (fun l => Ok (nth 0 l 0%Q))).
(** reduction.py:64-67 _impl, 91-98 _impl_2d: one call per row. *)
Fixpoint rows_2d {B} (f : list Q -> option (list Q) -> option (list bool) -> result B)
    (rows : list (list Q)) (ws : option (list (list Q))) (ms : option (list (list bool))) : result (list B) :=
  match rows with
  | [] => Ok []
  | r :: rows' =>
      bind (f r (option_map (fun w => nth 0 w []) ws) (option_map (fun m => nth 0 m []) ms)) (fun b =>
      bind (rows_2d f rows' (option_map (@tl _) ws) (option_map (@tl _) ms)) (fun bs => Ok (b :: bs)))
  end.
(** reduction.py:91-98, the rows. *)
Definition rows_of {A} (a : arr A) : list (list A) := match a with A1 l => [l] | A2 _ rows => rows end.
(** reduction.py:91-98 [_impl_2d]. *)
Definition by_rows {B} (f : list Q -> option (list Q) -> option (list bool) -> result B)
    (x : arr Q) (w : option (arr Q)) (m : option (arr bool)) : result (out B) :=
  checked x w m
    match x with
    | A1 l => rmap S0 (f l (option_map (fun w => nth 0 (rows_of w) []) w) (option_map (fun m => nth 0 (rows_of m) []) m))
    | A2 _ rows => rmap V1 (rows_2d f rows (option_map rows_of w) (option_map rows_of m))
    end.
(** reduction.py:174-214. *)
Definition quantile ps sort fill := by_rows (quantile_1d ps sort fill).
(** reduction.py:250-268. *)
Definition median sort fill := by_rows (median_1d sort fill).
(** reduction.py:177-186 ps_map. *)
Definition ps_map : list (string * list Q) :=
  [("1sigma", [16 # 100; 84 # 100]); ("2sigma", [25 # 1000; 975 # 1000]); ("3sigma", [5 # 1000; 995 # 1000]);
   ("median+1sigma", [16 # 100; 1 # 2; 84 # 100]); ("median+2sigma", [25 # 1000; 1 # 2; 975 # 1000]);
   ("median+3sigma", [5 # 1000; 1 # 2; 995 # 1000]); ("lower_3sigmas", [68 # 100; 95 # 100; 99 # 100]);
   ("upper_3sigmas", [1 # 100; 5 # 100; 32 # 100])]%string.
(** reduction.py:239-247 Errorbar with a quantile spec: value, lower and upper error (per row).  With no rows, or with a spec
    of two probabilities, the unpacking at 244 raises ValueError. *)
Definition bars (l : list Q) : result (Q * Q * Q) :=
  match l with [lo; med; hi] => Ok (med, med - lo, hi - med)%Q | _ => Err ValueError end.
(** reduction.py:217-247. *)
Definition errorbar (spec : string) (fill : Q) (x : arr Q) w m : result (out (Q * Q * Q)) :=
  match od_get String.eqb ps_map spec with
  | None => Err KeyError
  | Some ps => bind (quantile ps true fill x w m) (fun o =>
      match o with
      | S0 l => rmap S0 (bars l)
      | V1 [] => Err ValueError
      | V1 ls => rmap V1 (mapM bars ls)
      end)
  end.
(** reduction.py:235-238 Errorbar('mean+sd'). *)
Definition errorbar_sd (fill : num) x w m : result (out num * out root * out root) :=
  bind (mean fill x w m) (fun mu => bind (std_dev fill x w m) (fun sd => Ok (mu, sd, sd))).

(** ** Passing data to the model *)
(** reduction.py:52-62: A 1-D array of finite numbers; optional weights; optional mask. *)
Definition fin1 (x : list Q) : arr num := A1 (map Fin x).
(** reduction.py:52-62, optional weights. *)
Definition finw1 (w : option (list Q)) : option (arr num) := option_map fin1 w.
(** reduction.py:52-62, an optional mask. *)
Definition m1 (m : option (list bool)) : option (arr bool) := option_map A1 m.
(** reduction.py:91-98: Row [i] of an optional 2-D array. *)
Definition row_at {A} (i : nat) (o : option (list (list A))) : option (list A) := option_map (fun w => nth i w []) o.
