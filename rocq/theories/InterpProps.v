(** Property theorems C24-C27 (numerical/interpolate.py).  Vocabulary: OrderSpec.v. *)
From Coq Require Import QArith Qabs.
From Verif Require Import Base OrderSpec InterpModel InterpProofs.
Local Open Scope list_scope. Local Open Scope nat_scope.

(** ** C24: bisection, for every element type with a strict weak order. *)
Theorem C24_bisearch : forall T (lt : T -> T -> bool) xs q, weak_order lt -> ascending lt xs -> xs <> [] ->
  exists i, bisearch lt xs q = Ok i /\ (-1 <= i < Z.of_nat (length xs))%Z /\
    (forall j x, nth_error xs j = Some x -> (Z.of_nat j <= i)%Z -> lt q x = false) /\
    (forall j x, nth_error xs j = Some x -> (i < Z.of_nat j)%Z -> lt q x = true).
Proof. exact @bisearch_spec. Qed.
Print Assumptions C24_bisearch.
(** Even when the array is not sorted (or the comparison is not an order: NaN) the search ends, stays in
    bounds and returns a place where the neighbours bracket the query. *)
Theorem C24_bisearch_any_array : forall T (lt : T -> T -> bool) xs q, xs <> [] ->
  exists i, bisearch lt xs q = Ok i /\ (-1 <= i < Z.of_nat (length xs))%Z /\
    (i = (-1)%Z -> exists x, nth_error xs 0 = Some x /\ lt q x = true) /\
    ((0 <= i)%Z -> below lt xs q 0 /\ below lt xs q (Z.to_nat i) /\ above lt xs q (S (Z.to_nat i))).
Proof. exact @bisearch_local. Qed.
Print Assumptions C24_bisearch_any_array.
Theorem C24_empty_rejected : forall T (lt : T -> T -> bool) q, bisearch lt [] q = Err AssertionError.
Proof. reflexivity. Qed.
Print Assumptions C24_empty_rejected.
Theorem C24_orders : weak_order Z.ltb /\ weak_order Qltb.
Proof. exact (conj Z_weak_order Q_weak_order). Qed.
Print Assumptions C24_orders.
Example ex_bisearch : map (bisearch Z.ltb [1; 3; 3; 7]%Z) [0; 1; 2; 3; 6; 7; 9]%Z = map Ok [-1; 0; 0; 2; 2; 3; 3]%Z.
Proof. reflexivity. Qed.
Lemma ex_sorted : increasing Qltb [1; 2; 5]%Q.
Proof.
  intros [|[|[|i]]] [|[|[|j]]] a b L Ha Hb; simpl in *; try lia; try (destruct i; discriminate); try (destruct j; discriminate);
    inversion Ha; inversion Hb; subst; reflexivity.
Qed.

(** ** C25: nearest element and interpolation weights. *)
Theorem C25_nearest : forall xs q, ascending Qltb xs -> xs <> [] -> exists i, bisearch_nearest xs q = Ok i /\
  exists x, nth_error xs i = Some x /\ forall j y, nth_error xs j = Some y -> (Qabs (x - q) <= Qabs (y - q))%Q.
Proof. exact nearest_spec. Qed.
Print Assumptions C25_nearest.
Theorem C25_weights : forall xs q, ascending Qltb xs -> xs <> [] ->
  exists l r wl wr, bisearch_interp_weight xs q = Ok (l, r, (wl, wr)) /\ l < length xs /\ r < length xs /\
    (0 <= wl)%Q /\ (0 <= wr)%Q /\ (wl + wr == 1)%Q /\
    ((exists x0, nth_error xs 0 = Some x0 /\ (q < x0)%Q /\ l = 0 /\ r = 0) \/
     (exists xn, nth_error xs (length xs - 1) = Some xn /\ (xn <= q)%Q /\ l = length xs - 1 /\ r = length xs - 1) \/
     (exists xl xr, nth_error xs l = Some xl /\ nth_error xs r = Some xr /\ r = S l /\ (xl <= q)%Q /\ (q < xr)%Q /\
        (xl * wl + xr * wr == q)%Q)).
Proof. exact interp_weight_spec. Qed.
Print Assumptions C25_weights.
Example ex_nearest : map (bisearch_nearest [1; 2; 5]%Q) [0; 3 # 2; 3; 4; 9]%Q = map Ok [0; 1; 1; 2; 2].
Proof. reflexivity. Qed.

(** ** C26: interpolation laws. *)
Theorem C26_reproduces_nodes : forall xs ys i x y, increasing Qltb xs -> length ys = length xs ->
  nth_error xs i = Some x -> nth_error ys i = Some y -> exists v, bisearch_interp xs ys x = Ok v /\ (v == y)%Q.
Proof. exact interp_node. Qed.
Print Assumptions C26_reproduces_nodes.
Theorem C26_affine_exact : forall xs ys q a b, ascending Qltb xs -> length ys = length xs ->
  (forall i x y, nth_error xs i = Some x -> nth_error ys i = Some y -> (y == a * x + b)%Q) ->
  (exists x0, nth_error xs 0 = Some x0 /\ (x0 <= q)%Q) -> (exists xn, nth_error xs (length xs - 1) = Some xn /\ (q <= xn)%Q) ->
  exists v, bisearch_interp xs ys q = Ok v /\ (v == a * q + b)%Q.
Proof. exact interp_affine. Qed.
Print Assumptions C26_affine_exact.
Theorem C26_between_neighbours : forall xs ys q i xl xr yl yr, ascending Qltb xs -> length ys = length xs ->
  nth_error xs i = Some xl -> nth_error xs (S i) = Some xr -> nth_error ys i = Some yl -> nth_error ys (S i) = Some yr ->
  (xl <= q)%Q -> (q < xr)%Q -> exists v, bisearch_interp xs ys q = Ok v /\ (v == yl + (yr - yl) * (q - xl) / (xr - xl))%Q /\
    ((yl <= v /\ v <= yr) \/ (yr <= v /\ v <= yl))%Q.
Proof. exact interp_between. Qed.
Print Assumptions C26_between_neighbours.
Theorem C26_bounded_everywhere : forall xs ys q lo hi, ascending Qltb xs -> xs <> [] -> length ys = length xs ->
  (forall y, In y ys -> (lo <= y /\ y <= hi)%Q) -> exists v, bisearch_interp xs ys q = Ok v /\ (lo <= v /\ v <= hi)%Q.
Proof. exact interp_bounded. Qed.
Print Assumptions C26_bounded_everywhere.
Theorem C26_monotone : forall xs ys q1 q2 v1 v2, ascending Qltb xs -> ascending Qltb ys -> xs <> [] -> length ys = length xs ->
  (q1 <= q2)%Q -> bisearch_interp xs ys q1 = Ok v1 -> bisearch_interp xs ys q2 = Ok v2 -> (v1 <= v2)%Q.
Proof. exact interp_mono. Qed.
Print Assumptions C26_monotone.
(** The value in each of the three regions (constant extension outside the nodes). *)
Theorem C26_regions : forall xs ys q, ascending Qltb xs -> xs <> [] -> length ys = length xs ->
  exists v, bisearch_interp xs ys q = Ok v /\
    ((exists x0 y0, nth_error xs 0 = Some x0 /\ nth_error ys 0 = Some y0 /\ (q < x0)%Q /\ (v == y0)%Q) \/
     (exists xn yn, nth_error xs (length xs - 1) = Some xn /\ nth_error ys (length xs - 1) = Some yn /\ (xn <= q)%Q /\ (v == yn)%Q) \/
     (exists i xl xr yl yr, nth_error xs i = Some xl /\ nth_error xs (S i) = Some xr /\ nth_error ys i = Some yl /\
        nth_error ys (S i) = Some yr /\ (xl <= q)%Q /\ (q < xr)%Q /\ (v == yl + (yr - yl) * (q - xl) / (xr - xl))%Q)).
Proof. exact interp_cases. Qed.
Print Assumptions C26_regions.
Theorem C26_fixed_out_of_bounds : forall xs ys q yl yr x0 xn, nth_error xs 0 = Some x0 -> nth_error xs (length xs - 1) = Some xn ->
  ((q < x0)%Q -> bisearch_interp_fix_oob xs ys q yl yr = Ok yl) /\
  ((x0 <= q)%Q -> (xn < q)%Q -> bisearch_interp_fix_oob xs ys q yl yr = Ok yr) /\
  ((x0 <= q)%Q -> (q <= xn)%Q -> bisearch_interp_fix_oob xs ys q yl yr = bisearch_interp xs ys q).
Proof. exact fix_oob_spec. Qed.
Print Assumptions C26_fixed_out_of_bounds.
Theorem C26_bilinear_exact : forall xs1 xs2 y q1 q2 a b c d x01 xn1 x02 xn2, ascending Qltb xs1 -> ascending Qltb xs2 ->
  nth_error xs1 0 = Some x01 -> nth_error xs1 (length xs1 - 1) = Some xn1 -> (x01 <= q1)%Q -> (q1 <= xn1)%Q ->
  nth_error xs2 0 = Some x02 -> nth_error xs2 (length xs2 - 1) = Some xn2 -> (x02 <= q2)%Q -> (q2 <= xn2)%Q ->
  (forall i x1, nth_error xs1 i = Some x1 -> exists row, nth_error y i = Some row /\
     forall j x2, nth_error xs2 j = Some x2 -> exists v, nth_error row j = Some v /\ (v == a + b * x1 + c * x2 + d * x1 * x2)%Q) ->
  exists v, bisearch_interp_2d xs1 xs2 y q1 q2 = Ok v /\ (v == a + b * q1 + c * q2 + d * q1 * q2)%Q.
Proof. exact interp_2d_bilinear. Qed.
Print Assumptions C26_bilinear_exact.
Theorem C26_derivative : forall s, 2 <= length (x_nodes s) -> length (y_nodes s) = length (x_nodes s) ->
  exists s', derivative s = Ok s' /\ x_nodes s' = x_nodes s /\ length (y_nodes s') = length (x_nodes s) /\
    forall i d, nth_error (y_nodes s') i = Some d -> exists l r xl xr yl yr,
      (i = 0 /\ l = 0 /\ r = 1 \/ S i = length (x_nodes s) /\ S l = i /\ r = i \/ 0 < i /\ S i < length (x_nodes s) /\ S l = i /\ r = S i) /\
      nth_error (x_nodes s) l = Some xl /\ nth_error (x_nodes s) r = Some xr /\
      nth_error (y_nodes s) l = Some yl /\ nth_error (y_nodes s) r = Some yr /\ (d == (yr - yl) / (xr - xl))%Q.
Proof. exact derivative_spec. Qed.
Print Assumptions C26_derivative.
Example ex_interp : rmap Qred (bisearch_interp [1; 2; 5]%Q [10; 20; 2]%Q 3) = Ok 14%Q.
Proof. reflexivity. Qed.
Example ex_interp_hyp : ascending Qltb [1; 2; 5]%Q.
Proof. exact (increasing_ascending _ _ Q_weak_order ex_sorted). Qed.
Example ex_interp_2d : rmap Qred (bisearch_interp_2d [0; 1]%Q [0; 2]%Q [[1; 3]; [2; 6]]%Q (1 # 2) 1) = Ok 3%Q.
Proof. reflexivity. Qed.

(** ** C27: the input check of Linear: exactly "no two neighbours equal". *)
Theorem C27_check : forall xs ys s, linear_new xs ys true = Ok s <->
  s = {| x_nodes := xs; y_nodes := ys |} /\ length ys = length xs /\ 2 <= length xs /\
  forall i a b, nth_error xs i = Some a -> nth_error xs (S i) = Some b -> ~ (a == b)%Q.
Proof. exact linear_new_spec. Qed.
Print Assumptions C27_check.
Theorem C27_increasing_accepted : forall xs ys, increasing Qltb xs -> length ys = length xs -> 2 <= length xs ->
  linear_new xs ys true = Ok {| x_nodes := xs; y_nodes := ys |}.
Proof. exact increasing_accepted. Qed.
Print Assumptions C27_increasing_accepted.
(** Finding: unsorted nodes pass the check, and then a node is not reproduced. *)
Theorem C27_sorted_required_refuted : exists xs ys s, linear_new xs ys true = Ok s /\ ~ ascending Qltb xs /\
  value_at s 1 = Ok 0%Q /\ nth_error xs 2 = Some 1%Q /\ nth_error ys 2 = Some 7%Q.
Proof.
  exists [3; 2; 1]%Q, [0; 5; 7]%Q. eexists. split; [reflexivity|]. split; [|repeat split; reflexivity].
  intros H. specialize (H 0 1 3%Q 2%Q ltac:(lia) eq_refl eq_refl). discriminate.
Qed.
Print Assumptions C27_sorted_required_refuted.
