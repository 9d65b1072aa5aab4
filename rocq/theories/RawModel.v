(** The compiled (numba) kernels of /repo/src/pyhipp at the level of their memory accesses.  numba does not check array bounds: an
    index outside the array reads or writes foreign memory, so it is an outcome of its own here, [OutOfBounds].  np.empty is an
    array of [None] (whatever was there before).  Numbers are any type with any operations and any comparisons (record [farith]
    has no laws), so NaN, infinities, unsorted input and every rounding are included; a float cast to int64 is any integer.
    Index arithmetic is not bounded (arrays that fit in memory have far fewer than 2^63 elements). *)
From Coq Require Import ZArith.
From Verif Require Import Base.
Local Open Scope list_scope. Local Open Scope nat_scope.

(** interpolate.py:9-122, binning.py:291-310, kd_mesh.py:18-118, mass_assignment.py:12-106, cosmic_web.py:41-60, 115-133,
    smoothing.py:107-126, gravity.py:131-188: what running compiled code can lead to. *)
Inductive run (A : Type) := Fine (a : A) | Raise (e : exn) | OutOfBounds.
Arguments Fine {A}. Arguments Raise {A}. Arguments OutOfBounds {A}.
(** One statement after the other (same kernels). *)
Definition andthen {A B} (r : run A) (f : A -> run B) : run B := match r with Fine a => f a | Raise e => Raise e | OutOfBounds => OutOfBounds end.
(** interpolate.py:60-61 and the other loops: for i in ...: body. *)
Fixpoint for_ {I S} (l : list I) (body : I -> S -> run S) (s : S) : run S :=
  match l with [] => Fine s | i :: l' => andthen (body i s) (for_ l' body) end.
(** Python's range(n) in the loops of the kernels. *)
Definition range_ (n : nat) : list Z := map Z.of_nat (seq 0 n).
(** Index resolution in compiled code (e.g. interpolate.py:107, x_sorted[-1]): negative indices count from the end; no other check. *)
Definition resolve (n : nat) (i : Z) : option nat :=
  if (0 <=? i)%Z && (i <? Z.of_nat n)%Z then Some (Z.to_nat i)
  else if (- Z.of_nat n <=? i)%Z && (i <? 0)%Z then Some (Z.to_nat (i + Z.of_nat n)) else None.
(** a[i] (e.g. interpolate.py:22). *)
Definition rd {T} (a : list T) (i : Z) : run T :=
  match resolve (length a) i with Some k => match nth_error a k with Some v => Fine v | None => OutOfBounds end | None => OutOfBounds end.
(** a[i] = v (e.g. interpolate.py:61). *)
Definition wr {T} (a : list T) (i : Z) (v : T) : run (list T) :=
  match resolve (length a) i with Some k => Fine (upd_nth a k v) | None => OutOfBounds end.
(** cosmic_web.py:51-58: a three-dimensional array, stored row by row. *)
Record arr3 (T : Type) := { d0 : nat; d1 : nat; d2 : nat; cell_list : list T }.
Arguments d0 {T}. Arguments d1 {T}. Arguments d2 {T}. Arguments cell_list {T}. Arguments Build_arr3 {T}.
(** cosmic_web.py:51, a[i, j, k]: the position of the element, each index resolved against its own axis. *)
Definition pos3 {T} (a : arr3 T) (i j k : Z) : option nat :=
  match resolve (d0 a) i, resolve (d1 a) j, resolve (d2 a) k with
  | Some i, Some j, Some k => Some ((i * d1 a + j) * d2 a + k)
  | _, _, _ => None
  end.
(** cosmic_web.py:51, reading a[i, j, k]. *)
Definition rd3 {T} (a : arr3 T) (i j k : Z) : run T :=
  match pos3 a i j k with Some p => match nth_error (cell_list a) p with Some v => Fine v | None => OutOfBounds end | None => OutOfBounds end.
(** gravity.py:158, a[i, j, k] = v. *)
Definition wr3 {T} (a : arr3 T) (i j k : Z) (v : T) : run (arr3 T) :=
  match pos3 a i j k with Some p => Fine {| d0 := d0 a; d1 := d1 a; d2 := d2 a; cell_list := upd_nth (cell_list a) p v |} | None => OutOfBounds end.

(** The arithmetic of the element type (interpolate.py:72-100, mass_assignment.py:51-106): any operations. *)
Record farith (T : Type) := { f_add : T -> T -> T; f_sub : T -> T -> T; f_mul : T -> T -> T; f_div : T -> T -> T; f_lt : T -> T -> bool;
  f_zero : T; f_one : T; f_floor : T -> T; f_int : T -> Z }.
Arguments f_add {T}. Arguments f_sub {T}. Arguments f_mul {T}. Arguments f_div {T}. Arguments f_lt {T}. Arguments f_zero {T}. Arguments f_one {T}. Arguments f_floor {T}. Arguments f_int {T}.

(** interpolate.py:24-31, the loop, with the number of rounds it makes; [fuel] bounds the rounds. *)
Fixpoint bis_loop {T} (lt : T -> T -> bool) (fuel : nat) (xs : list T) (q : T) (l r : Z) (rounds : nat) : run (Z * nat) :=
  if (1 <? r - l)%Z then
    match fuel with
    | 0 => Raise RuntimeError
    | S fuel' =>
        let c := ((l + r) / 2)%Z in
        andthen (rd xs c) (fun xc => if lt q xc then bis_loop lt fuel' xs q l c (S rounds) else bis_loop lt fuel' xs q c r (S rounds))
    end
  else Fine (l, rounds).
(** interpolate.py:9-32 bisearch: the index and the number of rounds. *)
Definition bisearch {T} (lt : T -> T -> bool) (xs : list T) (q : T) : run (Z * nat) :=
  if Nat.eqb (length xs) 0 then Raise AssertionError
  else andthen (rd xs 0) (fun x0 => if lt q x0 then Fine ((-1)%Z, 0) else bis_loop lt (length xs) xs q 0 (Z.of_nat (length xs)) 0).
(** interpolate.py:34-51 bisearch_nearest. *)
Definition bisearch_nearest {T} (F : farith T) (xs : list T) (q : T) : run Z :=
  andthen (bisearch (f_lt F) xs q) (fun '(l, _) =>
    let r := (l + 1)%Z in let n := Z.of_nat (length xs) in
    if (l <? 0)%Z then Fine 0%Z
    else if (n - 1 <? r)%Z then Fine (n - 1)%Z
    else andthen (rd xs l) (fun xl => andthen (rd xs r) (fun xr => Fine (if f_lt F (f_sub F q xl) (f_sub F xr q) then l else r)))).
(** interpolate.py:54-62 bisearch_nearest_array. *)
Definition bisearch_nearest_array {T} (F : farith T) (xs qs : list T) : run (list (option Z)) :=
  andthen (for_ (range_ (length qs)) (fun i idx => andthen (rd qs i) (fun q => andthen (bisearch_nearest F xs q) (fun v => wr idx i (Some v)))) (repeat None (length qs)))
    (fun idx => Fine idx).
(** interpolate.py:64-94 linear_interp_weight, bisearch_interp_weight. *)
Definition interp_weight {T} (F : farith T) (xs : list T) (q : T) : run (Z * Z * T * T) :=
  andthen (bisearch (f_lt F) xs q) (fun '(l, _) =>
    if (l <? 0)%Z then Fine (0%Z, 0%Z, f_zero F, f_one F)
    else let r := (l + 1)%Z in let n := Z.of_nat (length xs) in
      if (n - 1 <? r)%Z then Fine ((n - 1)%Z, (n - 1)%Z, f_one F, f_zero F)
      else andthen (rd xs l) (fun xl => andthen (rd xs r) (fun xr =>
             let dl := f_sub F q xl in let dr := f_sub F xr q in let dx := f_add F dl dr in Fine (l, r, f_div F dr dx, f_div F dl dx)))).
(** interpolate.py:96-100 bisearch_interp. *)
Definition interp {T} (F : farith T) (xs ys : list T) (q : T) : run T :=
  andthen (interp_weight F xs q) (fun '(l, r, wl, wr) => andthen (rd ys l) (fun yl => andthen (rd ys r) (fun yr => Fine (f_add F (f_mul F yl wl) (f_mul F yr wr))))).
(** interpolate.py:102-110 bisearch_interp_fix_oob. *)
Definition interp_fix_oob {T} (F : farith T) (xs ys : list T) (q y_left y_right : T) : run T :=
  andthen (rd xs 0) (fun x0 => if f_lt F q x0 then Fine y_left
  else andthen (rd xs (-1)) (fun xn => if f_lt F xn q then Fine y_right else interp F xs ys q)).
(** interpolate.py:112-122 bisearch_interp_2d; [y] is an (n1, n2) array, a three-dimensional one with d2 = 1. *)
Definition interp_2d {T} (F : farith T) (xs1 xs2 : list T) (y : arr3 T) (q1 q2 : T) : run T :=
  andthen (interp_weight F xs1 q1) (fun '(l1, r1, w1l, w1r) => andthen (interp_weight F xs2 q2) (fun '(l2, r2, w2l, w2r) =>
  andthen (rd3 y l1 l2 0) (fun yll => andthen (rd3 y l1 r2 0) (fun ylr => andthen (rd3 y r1 l2 0) (fun yrl => andthen (rd3 y r1 r2 0) (fun yrr =>
    Fine (f_add F (f_add F (f_add F (f_mul F yll (f_mul F w1l w2l)) (f_mul F ylr (f_mul F w1l w2r))) (f_mul F yrl (f_mul F w1r w2l))) (f_mul F yrr (f_mul F w1r w2r))))))))).
(** interpolate.py:130-146 Linear.__init__; [distinct]: the comparison of neighbours at 143. *)
Definition linear_new {T} (distinct : list T -> bool) (xs ys : list T) (check : bool) : run (list T * list T) :=
  if check && negb (Nat.eqb (length ys) (length xs) && distinct xs) then Raise AssertionError
  else if Nat.leb 2 (length xs) then Fine (xs, ys) else Raise AssertionError.
(** interpolate.py:154-170 Linear.derivative, the ordinates of the result. *)
Definition derivative {T} (F : farith T) (s : list T * list T) : run (list (option T)) :=
  let '(xs, ys) := s in let n := length xs in
  for_ (range_ n) (fun i yds =>
    let '(il, ir) := if (i - 1 =? -1)%Z then (0%Z, 1%Z) else if (i + 1 =? Z.of_nat n)%Z then (Z.of_nat n - 2, Z.of_nat n - 1)%Z else (i - 1, i + 1)%Z in
    andthen (rd xs il) (fun xl => andthen (rd xs ir) (fun xr => andthen (rd ys il) (fun yl => andthen (rd ys ir) (fun yr =>
      wr yds i (Some (f_div F (f_sub F yr yl) (f_sub F xr xl)))))))) (repeat None (length ys)).

(** binning.py:291-299 __add_unweighted: data[id] += 1 for the ids inside. *)
Definition add_unweighted {T} (F : farith T) (ids : list Z) (data : list T) : run (list T) :=
  for_ ids (fun id data => if (0 <=? id)%Z && (id <? Z.of_nat (length data))%Z then andthen (rd data id) (fun v => wr data id (f_add F v (f_one F))) else Fine data) data.
(** binning.py:300-310 __add_weighted. *)
Definition add_weighted {T} (F : farith T) (ids : list Z) (weights data : list T) : run (list T) :=
  if negb (Nat.eqb (length ids) (length weights)) then Raise AssertionError
  else for_ (range_ (length ids)) (fun i data => andthen (rd ids i) (fun id =>
         if (0 <=? id)%Z && (id <? Z.of_nat (length data))%Z then andthen (rd data id) (fun v => andthen (rd weights i) (fun w => wr data id (f_add F v w))) else Fine data)) data.

(** mesh.py:14-20 _Mesh.__init__, kd_mesh.py:24-30 _PE3Mesh.__init__: l_box / n_grids is the only thing that can fail. *)
Definition mesh_new (n : Z) : run Z := if (n =? 0)%Z then Raise ZeroDivisionError else Fine n.
(** mass_assignment.py:51-64, % n_grids of compiled code: ZeroDivisionError for 0, the sign of n_grids otherwise. *)
Definition modulo (a n : Z) : run Z := if (n =? 0)%Z then Raise ZeroDivisionError else Fine (a mod n)%Z.
(** mass_assignment.py:51-64 weights_at; [h] is l_grid; int64 addition wraps around. *)
Definition weights_at {T} (F : farith T) (n : Z) (h x : T) : run (Z * Z * T * T) :=
  let q := f_div F x h in
  let ql := f_floor F q in
  let il := f_int F ql in let ir := ((il + 1 + 2 ^ 63) mod 2 ^ 64 - 2 ^ 63)%Z in
  let wl := f_sub F (f_one F) (f_sub F q ql) in let w_r := f_sub F (f_one F) wl in
  andthen (modulo il n) (fun il => andthen (modulo ir n) (fun ir => Fine (il, ir, wl, w_r))).
(** mass_assignment.py:87-106 add_1: eight times d[..] += ...; [x] is a row of positions. *)
Definition add_1 {T} (F : farith T) (n : Z) (h : T) (d : arr3 T) (x : list T) (weight : T) : run (arr3 T) :=
  andthen (rd x 0) (fun x0 => andthen (weights_at F n h x0) (fun '(i0l, i0r, w0l, w0r) =>
  andthen (rd x 1) (fun x1 => andthen (weights_at F n h x1) (fun '(i1l, i1r, w1l, w1r) =>
  andthen (rd x 2) (fun x2 => andthen (weights_at F n h x2) (fun '(i2l, i2r, w2l, w2r) =>
  for_ [(i0l, w0l, (i1l, w1l), (i2l, w2l)); (i0l, w0l, (i1l, w1l), (i2r, w2r)); (i0l, w0l, (i1r, w1r), (i2l, w2l)); (i0l, w0l, (i1r, w1r), (i2r, w2r));
        (i0r, w0r, (i1l, w1l), (i2l, w2l)); (i0r, w0r, (i1l, w1l), (i2r, w2r)); (i0r, w0r, (i1r, w1r), (i2l, w2l)); (i0r, w0r, (i1r, w1r), (i2r, w2r))]
    (fun '(i, a, (j, b), (k, c)) d => andthen (rd3 d i j k) (fun v => wr3 d i j k (f_add F v (f_mul F (f_mul F (f_mul F a b) c) weight)))) d)))))).
(** mass_assignment.py:108-118 _Linear.add; 133-140 DensityField.add: the assertions before it ([ncols]: xs.shape[1]). *)
Definition df_add {T} (F : farith T) (n : Z) (h : T) (d : arr3 T) (ncols : nat) (xs : list (list T)) (weights : option (list T)) : run (arr3 T) :=
  if negb (match weights with None => true | Some w => Nat.eqb (length xs) (length w) end) then Raise AssertionError
  else if negb (Nat.eqb ncols 3) then Raise AssertionError
  else match weights with
       | Some w => for_ (combine xs w) (fun '(x, weight) d => add_1 F n h d x weight) d
       | None => for_ xs (fun x d => add_1 F n h d x (f_one F)) d
       end.
(** mass_assignment.py:122-131 DensityField.__init__: l_box / n_grids, np.zeros; [h] is the quotient. *)
Definition df_new {T} (F : farith T) (n : Z) : run (arr3 T) :=
  andthen (mesh_new n) (fun n =>
  if (n <? 0)%Z then Raise ValueError
  else Fine {| d0 := Z.to_nat n; d1 := Z.to_nat n; d2 := Z.to_nat n; cell_list := repeat (f_zero F) (Z.to_nat n * Z.to_nat n * Z.to_nat n) |}).
(** field.py:9-34 _Field.__init__: the data must be a cube of the mesh's size. *)
Definition field_new {T} (n : Z) (d : arr3 T) : run (arr3 T) :=
  if Nat.eqb (d0 d) (d1 d) && Nat.eqb (d1 d) (d2 d) && (n =? Z.of_nat (d0 d))%Z then Fine d else Raise AssertionError.
(** cosmic_web.py:33-60 FieldInterpolator.value_at and _value_at; [nrows], [ncols]: xs.shape. *)
Definition value_at {T} (F : farith T) (n : Z) (h : T) (d : arr3 T) (ncols : nat) (xs : list (list T)) : run (list (option T)) :=
  if negb (Nat.eqb ncols 3) then Raise AssertionError
  else for_ (range_ (length xs)) (fun i out => andthen (rd xs i) (fun x =>
    andthen (rd x 0) (fun x0 => andthen (weights_at F n h x0) (fun '(i0l, i0r, w0l, w0r) =>
    andthen (rd x 1) (fun x1 => andthen (weights_at F n h x1) (fun '(i1l, i1r, w1l, w1r) =>
    andthen (rd x 2) (fun x2 => andthen (weights_at F n h x2) (fun '(i2l, i2r, w2l, w2r) =>
    andthen (for_ [(i0l, w0l, (i1l, w1l), (i2l, w2l)); (i0l, w0l, (i1l, w1l), (i2r, w2r)); (i0l, w0l, (i1r, w1r), (i2l, w2l)); (i0l, w0l, (i1r, w1r), (i2r, w2r));
          (i0r, w0r, (i1l, w1l), (i2l, w2l)); (i0r, w0r, (i1l, w1l), (i2r, w2r)); (i0r, w0r, (i1r, w1r), (i2l, w2l)); (i0r, w0r, (i1r, w1r), (i2r, w2r))]
      (fun '(i, a, (j, b), (k, c)) s => andthen (rd3 d i j k) (fun v => Fine (f_add F s (f_mul F (f_mul F (f_mul F v a) b) c)))) (f_zero F))
      (fun s => wr out i (Some s)))))))))) (repeat None (length xs)).
(** mesh.py:39-45 x_to_xi_nd on one coordinate: floor(x / l + 0.5) % n. *)
Definition x_to_xi {T} (F : farith T) (n : Z) (h half x : T) : run Z := modulo (f_int F (f_floor F (f_add F (f_div F x h) half))) n.
(** cosmic_web.py:84-86, lam.shape == (n, n, n, 3): the counts and the eigenvalues are arrays of the mesh's size. *)
Definition classifier_new {A} (n : Z) (lam : arr3 A) (last sorted : bool) : run (arr3 A) :=
  if last && (n =? Z.of_nat (d0 lam))%Z && (n =? Z.of_nat (d1 lam))%Z && (n =? Z.of_nat (d2 lam))%Z && sorted then Fine lam else Raise AssertionError.
(** cosmic_web.py:100-133 web_type_at, lam_at: the element of the nearest cell, for every position; the unpacking of the three indices
    raises ValueError for another number of them. *)
Definition cell_at {T A} (F : farith T) (n : Z) (h half : T) (d : arr3 A) (ncols : nat) (xs : list (list T)) : run (list (option A)) :=
  if negb (Nat.eqb ncols 3) then Raise AssertionError
  else for_ (range_ (length xs)) (fun i out => andthen (rd xs i) (fun x =>
    match x with
    | [x0; x1; x2] =>
        andthen (x_to_xi F n h half x0) (fun i0 => andthen (x_to_xi F n h half x1) (fun i1 => andthen (x_to_xi F n h half x2) (fun i2 =>
        andthen (rd3 d i0 i1 i2) (fun v => wr out i (Some v)))))
    | _ => Raise ValueError
    end)) (repeat None (length xs)).

(** kd_mesh.py:33-40 x2xi_3 and x2xi_f. *)
Definition x2xi_f {T} (F : farith T) (n : Z) (h : T) (x : list T) : run Z :=
  let xi x := modulo (f_int F (f_floor F (f_div F x h))) n in
  match x with
  | [x0; x1; x2] => andthen (xi x0) (fun i0 => andthen (xi x1) (fun i1 => andthen (xi x2) (fun i2 => Fine ((i0 * n + i1) * n + i2)%Z)))
  | _ => Raise ValueError
  end.
(** kd_mesh.py:42-47 argsort, the keys. *)
Definition mesh_keys {T} (F : farith T) (n : Z) (h : T) (xs : list (list T)) : run (list (option Z)) :=
  for_ (range_ (length xs)) (fun i keys => andthen (rd xs i) (fun x => andthen (x2xi_f F n h x) (fun k => wr keys i (Some k)))) (repeat None (length xs)).
(** kd_mesh.py:111-114: while e < n_xs: if xi_fs[e] > i_f: break; e += 1. *)
Fixpoint scan (fuel : nat) (keys : list Z) (i_f e : Z) : run Z :=
  if (e <? Z.of_nat (length keys))%Z then
    match fuel with
    | 0 => Raise RuntimeError
    | S fuel' => andthen (rd keys e) (fun k => if (i_f <? k)%Z then Fine e else scan fuel' keys i_f (e + 1))
    end
  else Fine e.
(** kd_mesh.py:106-118: filling cell_firsts from the sorted keys. *)
Definition cell_firsts (n : Z) (keys : list Z) : run (list Z) :=
  let n_tot := Z.to_nat (n * n * n) in
  if (n * n * n + 1 <? 0)%Z then Raise ValueError
  else andthen (for_ (range_ n_tot) (fun i_f '(firsts, b) => andthen (scan (length keys) keys i_f b) (fun e => andthen (wr firsts (i_f + 1) e) (fun firsts => Fine (firsts, e))))
    (repeat 0%Z (Z.to_nat (n * n * n + 1)), 0%Z)) (fun s => Fine (fst s)).
(** kd_mesh.py:101-118 _PE3_from_meshing_points, with the assertion of _PE3.__init__ (58); [argsort]: np.argsort. *)
Definition meshing {T} (F : farith T) (n : Z) (h : T) (argsort : list Z -> list Z) (xs : list (list T)) : run (list (list T) * list Z) :=
  andthen (mesh_keys F n h xs) (fun keys => andthen (for_ keys (fun k l => match k with Some k => Fine (l ++ [k]) | None => OutOfBounds end) []) (fun keys =>
  let args := argsort keys in
  andthen (for_ args (fun i l => andthen (rd keys i) (fun k => Fine (l ++ [k]))) []) (fun sorted =>
  andthen (for_ args (fun i l => andthen (rd xs i) (fun x => Fine (l ++ [x]))) []) (fun xs' =>
  andthen (cell_firsts n sorted) (fun firsts =>
  if (Z.of_nat (length firsts) =? n * n * n + 1)%Z then Fine (xs', firsts) else Raise AssertionError))))).
(** kd_mesh.py:89-98: the loop over the cells around a point, from [lb] to [ub]; the pairs (b, e) handed to the slices. *)
Definition visit (n : Z) (firsts : list Z) (lb ub : Z * Z * Z) : run (list (Z * Z)) :=
  let '(lb0, lb1, lb2) := lb in let '(ub0, ub1, ub2) := ub in
  let rng a b := map (fun i => (a + Z.of_nat i)%Z) (seq 0 (Z.to_nat (b - a))) in
  for_ (rng lb0 ub0) (fun i0 l => andthen (modulo i0 n) (fun i0 =>
  for_ (rng lb1 ub1) (fun i1 l => andthen (modulo i1 n) (fun i1 =>
  for_ (rng lb2 ub2) (fun i2 l => andthen (modulo i2 n) (fun i2 =>
    let i_f := ((i0 * n + i1) * n + i2)%Z in
    andthen (rd firsts i_f) (fun b => andthen (rd firsts (i_f + 1)) (fun e => Fine (l ++ [(b, e)]))))) l)) l)) [].

(** smoothing.py:107-126, 187-214, gravity.py:131-163, 165-188: the loops over the Fourier modes of an (N, N, N // 2 + 1) array: every
    element is read once and its image stored in the array returned (np.empty_like, or the copy in _find_tidal_ij); [f] gets the
    mode numbers. *)
Definition over_modes {A B} (N : nat) (f : Z -> Z -> Z -> A -> B) (d : arr3 A) : run (arr3 (option B)) :=
  let h := N / 2 in
  if negb (Nat.eqb (d0 d) N && Nat.eqb (d1 d) N && Nat.eqb (d2 d) (h + 1)) then Raise AssertionError
  else
    let mode i := if (Z.of_nat h <? i)%Z then (i - Z.of_nat N)%Z else i in
    for_ (range_ N) (fun i0 out => for_ (range_ N) (fun i1 out => for_ (range_ (h + 1)) (fun i2 out =>
      andthen (rd3 d i0 i1 i2) (fun v => wr3 out i0 i1 i2 (Some (f (mode i0) (mode i1) i2 v)))) out) out)
      {| d0 := d0 d; d1 := d1 d; d2 := d2 d; cell_list := repeat None (length (cell_list d)) |}.
