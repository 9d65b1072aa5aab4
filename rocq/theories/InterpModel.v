(** Model of /repo/src/pyhipp/numerical/interpolate.py.

    Searching only compares, so it is modelled for any element type and any [<] (numba compiles it for any
    numeric dtype).  The arithmetic is over exact rationals (no rounding); see InterpFloatModel.v for the rounded
    weights.  numba does not check array bounds; an access out of bounds is [Err IndexError] here, and the
    theorems show that it does not happen. *)
From Coq Require Import QArith.
From Verif Require Import Base OrderSpec.
Local Open Scope list_scope. Local Open Scope nat_scope.

(** An array access (interpolate.py:26, 43, 90, 98). *)
Definition at_ {T} (xs : list T) (i : nat) : result T :=
  match nth_error xs i with Some x => Ok x | None => Err IndexError end.

(** interpolate.py:24-31, the loop; [fuel] bounds the number of iterations. *)
Fixpoint bis_loop {T} (lt : T -> T -> bool) (fuel : nat) (xs : list T) (q : T) (l r : nat) : result nat :=
  if Nat.ltb 1 (r - l) then
    match fuel with
    | 0 => Err RuntimeError
    | S fuel' =>
        let c := (l + r) / 2 in
        bind (at_ xs c) (fun xc => if lt q xc then bis_loop lt fuel' xs q l c else bis_loop lt fuel' xs q c r)
    end
  else Ok l.
(** interpolate.py:10-32 [bisearch]. *)
Definition bisearch {T} (lt : T -> T -> bool) (xs : list T) (q : T) : result Z :=
  match xs with
  | [] => Err AssertionError
  | x0 :: _ => if lt q x0 then Ok (-1)%Z
               else rmap Z.of_nat (bis_loop lt (length xs) xs q 0 (length xs))
  end.

Notation qbisearch := (bisearch Qltb).

(** interpolate.py:34-51 [bisearch_nearest], 54-62 [bisearch_nearest_array]. *)
Definition bisearch_nearest (xs : list Q) (q : Q) : result nat :=
  bind (qbisearch xs q) (fun l =>
    let r := (l + 1)%Z in
    let n := Z.of_nat (length xs) in
    if (l <? 0)%Z then Ok 0
    else if (n - 1 <? r)%Z then Ok (length xs - 1)
    else bind (at_ xs (Z.to_nat l)) (fun xl => bind (at_ xs (Z.to_nat r)) (fun xr =>
           Ok (if Qltb (q - xl) (xr - q) then Z.to_nat l else Z.to_nat r)))).
(** interpolate.py:54-62. *)
Definition bisearch_nearest_array (xs : list Q) (qs : list Q) : result (list nat) := mapM (bisearch_nearest xs) qs.

(** interpolate.py:65-77 [linear_interp_weight]. *)
Definition linear_interp_weight (x xl xr : Q) : Q * Q :=
  let dl := (x - xl)%Q in let dr := (xr - x)%Q in let dx := (dl + dr)%Q in ((dr / dx)%Q, (dl / dx)%Q).

(** interpolate.py:80-94 [bisearch_interp_weight]. *)
Definition bisearch_interp_weight (xs : list Q) (q : Q) : result (nat * nat * (Q * Q)) :=
  bind (qbisearch xs q) (fun l =>
    if (l <? 0)%Z then Ok (0, 0, (0%Q, 1%Q))
    else
      let r := (l + 1)%Z in
      if (Z.of_nat (length xs) - 1 <? r)%Z then Ok (length xs - 1, length xs - 1, (1%Q, 0%Q))
      else bind (at_ xs (Z.to_nat l)) (fun xl => bind (at_ xs (Z.to_nat r)) (fun xr =>
             Ok (Z.to_nat l, Z.to_nat r, linear_interp_weight q xl xr)))).

(** interpolate.py:97-100 [bisearch_interp]. *)
Definition bisearch_interp (xs ys : list Q) (q : Q) : result Q :=
  bind (bisearch_interp_weight xs q) (fun '(l, r, (wl, wr)) =>
    bind (at_ ys l) (fun yl => bind (at_ ys r) (fun yr => Ok (yl * wl + yr * wr)%Q))).

(** interpolate.py:102-110 [bisearch_interp_fix_oob]. *)
Definition bisearch_interp_fix_oob (xs ys : list Q) (q y_left y_right : Q) : result Q :=
  bind (at_ xs 0) (fun x0 =>
    if Qltb q x0 then Ok y_left
    else bind (at_ xs (length xs - 1)) (fun xn =>
           if Qltb xn q then Ok y_right else bisearch_interp xs ys q)).

(** interpolate.py:112-122 [bisearch_interp_2d]; [y] is a list of rows. *)
Definition at2 (y : list (list Q)) (i j : nat) : result Q := bind (at_ y i) (fun row => at_ row j).
(** interpolate.py:112-122. *)
Definition bisearch_interp_2d (xs1 xs2 : list Q) (y : list (list Q)) (q1 q2 : Q) : result Q :=
  bind (bisearch_interp_weight xs1 q1) (fun '(l1, r1, (wl1, wr1)) =>
  bind (bisearch_interp_weight xs2 q2) (fun '(l2, r2, (wl2, wr2)) =>
  bind (at2 y l1 l2) (fun yll => bind (at2 y l1 r2) (fun ylr =>
  bind (at2 y r1 l2) (fun yrl => bind (at2 y r1 r2) (fun yrr =>
    Ok (yll * (wl1 * wl2) + ylr * (wl1 * wr2) + yrl * (wr1 * wl2) + yrr * (wr1 * wr2))%Q)))))).

(** interpolate.py:124-170 [Linear]. *)
Record linear := { x_nodes : list Q; y_nodes : list Q }.
(** interpolate.py:140-145: the differences of neighbours are all non-zero. *)
Fixpoint no_equal_neighbours (xs : list Q) : bool :=
  match xs with
  | a :: (b :: _) as t => negb (Qeq_bool (b - a) 0) && no_equal_neighbours t
  | _ => true
  end.
(** interpolate.py:130-146 [Linear.__init__]. *)
Definition linear_new (xs ys : list Q) (check : bool) : result linear :=
  if check && negb (Nat.eqb (length ys) (length xs) && no_equal_neighbours xs) then Err AssertionError
  else if Nat.leb 2 (length xs) then Ok {| x_nodes := xs; y_nodes := ys |} else Err AssertionError.
(** interpolate.py:148-152. *)
Definition value_at (s : linear) (x : Q) : result Q := bisearch_interp (x_nodes s) (y_nodes s) x.
(** interpolate.py:156-170 [derivative]; the new object is built with check=False. *)
Definition deriv_at (xs ys : list Q) (i : nat) : result Q :=
  let n := length xs in
  let '(il, ir) := if Nat.eqb i 0 then (0, 1) else if Nat.eqb (i + 1) n then (n - 2, n - 1) else (i - 1, i + 1) in
  bind (at_ xs il) (fun xl => bind (at_ xs ir) (fun xr => bind (at_ ys il) (fun yl => bind (at_ ys ir) (fun yr =>
    Ok ((yr - yl) / (xr - xl))%Q)))).
(** interpolate.py:154-170. *)
Definition derivative (s : linear) : result linear :=
  bind (mapM (deriv_at (x_nodes s) (y_nodes s)) (seq 0 (length (x_nodes s)))) (fun yds =>
    linear_new (x_nodes s) yds false).
