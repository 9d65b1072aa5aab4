(** Windows of bins, insertion points. *)
From Coq Require Import QArith Lqa.
From Verif Require Import Base OrderSpec BinSpec BinModel BinProofs BinProofs2 BinProofs3 BinProofs4.
Local Open Scope list_scope. Local Open Scope nat_scope.

(** Two adjacent windows make one. *)
Lemma window_join e i j k x : ascending Qltb e -> i < j -> j < k -> k < length e ->
  in_window e i k x = in_window e i j x || in_window e j k x /\ in_window e i j x && in_window e j k x = false.
Proof.
  intros A Hij Hjk Hk. unfold in_window.
  destruct (nth_error e i) as [a|] eqn:Ea; [|apply nth_error_None in Ea; lia]. destruct (nth_error e j) as [b|] eqn:Eb; [|apply nth_error_None in Eb; lia].
  destruct (nth_error e k) as [c|] eqn:Ec; [|apply nth_error_None in Ec; lia].
  pose proof (A _ _ _ _ Hij Ea Eb) as H1. pose proof (A _ _ _ _ Hjk Eb Ec) as H2. apply Qltb_ge in H1. apply Qltb_ge in H2.
  destruct (Nat.eqb_spec (S j) (length e)); [lia|]. cbn [andb]. rewrite orb_false_r.
  destruct (Qle_bool a x) eqn:Q1; destruct (Qltb x b) eqn:Q2; destruct (Qle_bool b x) eqn:Q3; destruct (Qltb x c) eqn:Q4; cbn [andb orb];
    try (split; [reflexivity|]); try (rewrite ?andb_false_r; reflexivity); try reflexivity; exfalso;
    rewrite ?Qle_bool_iff, ?Qltb_lt, ?Qltb_ge in *;
    try (assert (~ (a <= x)%Q) by (intros Z; apply Qle_bool_iff in Z; congruence)); try (assert (~ (b <= x)%Q) by (intros Z; apply Qle_bool_iff in Z; congruence)); try lra.
Qed.
Lemma weight_or {X} (f g : X -> bool) (s : list (X * Q)) : (forall p, In p s -> f (fst p) && g (fst p) = false) ->
  (weight_where (fun x => f x || g x) s == weight_where f s + weight_where g s)%Q.
Proof.
  unfold weight_where. induction s as [|p s IH]; intros D; cbn [filter map Qsum]; [reflexivity|].
  pose proof (D p (or_introl eq_refl)) as Dp. assert (IH' := IH (fun q H => D q (or_intror H))). clear IH.
  destruct (f (fst p)); destruct (g (fst p)); cbn [orb map Qsum] in *; try discriminate; rewrite IH'; ring.
Qed.
Lemma weight_ext {X} (f g : X -> bool) (s : list (X * Q)) : (forall p, In p s -> f (fst p) = g (fst p)) -> weight_where f s = weight_where g s.
Proof. intros H. unfold weight_where. f_equal. f_equal. apply filter_ext_in2. intros p Hp. apply H. exact Hp. Qed.
Lemma window_sum_by {X} (g : X -> Q) e (s : list (X * Q)) : ascending Qltb e -> forall m i, 1 <= m -> i + m < length e ->
  (Qsum (map (fun j => weight_where (fun p => in_window e (i + j) (S (i + j)) (g p)) s) (seq 0 m)) == weight_where (fun p => in_window e i (i + m) (g p)) s)%Q.
Proof.
  intros A. induction m as [|m IH]; intros i Hm Hi; [lia|]. destruct m as [|m].
  - cbn [seq map Qsum]. rewrite Nat.add_0_r, Nat.add_1_r. ring.
  - rewrite seq_S, map_app, Qsum_app. rewrite IH by lia. cbn [map Qsum]. rewrite Nat.add_0_l.
    rewrite (weight_ext (fun p => in_window e i (i + S (S m)) (g p)) (fun x => in_window e i (i + S m) (g x) || in_window e (i + S m) (S (i + S m)) (g x))).
    + rewrite weight_or; [ring|]. intros p _. apply (window_join e i (i + S m) (S (i + S m)) (g (fst p))); try lia. exact A.
    + intros p _. replace (i + S (S m)) with (S (i + S m)) by lia. apply (window_join e i (i + S m) (S (i + S m)) (g (fst p))); try lia. exact A.
Qed.
Lemma window_sum e s : ascending Qltb e -> forall m i, 1 <= m -> i + m < length e ->
  (Qsum (map (fun j => weight_where (in_window e (i + j) (S (i + j))) s) (seq 0 m)) == weight_where (in_window e i (i + m)) s)%Q.
Proof. intros A m i H1 H2. exact (window_sum_by (fun q => q) e s A m i H1 H2). Qed.
(** Insertion points. *)
Lemma ssl_spec {T} (lt : T -> T -> bool) es x : weak_order lt -> ascending lt es -> searchsorted_left lt es x <= length es /\
  forall i a, nth_error es i = Some a -> lt a x = Nat.ltb i (searchsorted_left lt es x).
Proof.
  intros W. induction es as [|e es IH]; intros A; cbn [searchsorted_left length].
  - split; [lia|]. intros [|i] a; discriminate.
  - apply asc_cons in A. destruct A as [A0 A]. destruct (IH A) as [I1 I2]. destruct (lt e x) eqn:E.
    + split; [lia|]. intros [|i] a H; cbn [nth_error] in H; [injection H as <-; rewrite E; reflexivity|]. rewrite (I2 i a H). reflexivity.
    + split; [lia|]. intros [|i] a H; cbn [nth_error] in H; [injection H as <-; rewrite E; reflexivity|].
      destruct (lt a x) eqn:Q; [|reflexivity]. apply nth_error_In in H. apply A0 in H. pose proof (wo_neg _ W a e x H E). congruence.
Qed.
Lemma ssl_unique {T} (lt : T -> T -> bool) es x k : weak_order lt -> ascending lt es -> k <= length es ->
  (forall i a, nth_error es i = Some a -> i < k -> lt a x = true) -> (forall i a, nth_error es i = Some a -> k <= i -> lt a x = false) -> searchsorted_left lt es x = k.
Proof.
  intros W A Hk H1 H2. destruct (ssl_spec lt es x W A) as [L S]. destruct (Nat.lt_trichotomy (searchsorted_left lt es x) k) as [C|[C|C]]; [|exact C|].
  - destruct (nth_error es (searchsorted_left lt es x)) as [a|] eqn:E; [|apply nth_error_None in E; lia]. pose proof (S _ _ E) as Q. rewrite (H1 _ _ E C) in Q. symmetry in Q. apply Nat.ltb_lt in Q. lia.
  - destruct (nth_error es k) as [a|] eqn:E; [|apply nth_error_None in E; lia]. pose proof (S _ _ E) as Q. rewrite (H2 _ _ E (le_n _)) in Q. symmetry in Q. apply Nat.ltb_ge in Q. lia.
Qed.
