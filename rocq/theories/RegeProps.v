(** C87: the entry points of the regression (stats/regression.py). *)
From Coq Require Import QArith Qabs Reals Qreals Lra.
From Verif Require Import Base OrderSpec BinSpec BinModel ReduSpec ReduModel NearSpec NearModel NearProofs NearProps RegrSpec RegrModel RegrProofs RegrProps RegeSpec RegeModel RegeProofs.
Local Open Scope list_scope. Local Open Scope nat_scope.

(** The weights of neighbours (distance, position): their own, the kernel's, the product, or none. *)
Definition weights_at (w : option (list Q)) (K : option (Q -> Q)) (nb : list (Q * nat)) : option (list Q) :=
  match w, K with
  | None, None => None
  | Some w, None => Some (map (fun p => nth (snd p) w 0%Q) nb)
  | None, Some K => Some (map (fun p => K (fst p)) nb)
  | Some w, Some K => Some (map (fun p => (nth (snd p) w 0 * K (fst p))%Q) nb)
  end.

(** One-dimensional x is one column, for the training points and for the points asked for. *)
Theorem C87_columns : forall dist l y w k m K a x xp d,
  by_knn dist (X1 l) y w k m K a xp = by_knn dist (X2 1 (map (fun a => [a]) l)) y w k m K a xp /\
  by_knn dist x y w k m K a (X1 l) = by_knn dist x y w k m K a (X2 1 (map (fun a => [a]) l)) /\
  by_local dist (X1 l) y w d K a xp = by_local dist (X2 1 (map (fun a => [a]) l)) y w d K a xp /\
  by_local dist x y w d K a (X1 l) = by_local dist x y w d K a (X2 1 (map (fun a => [a]) l)).
Proof. intros. repeat split; reflexivity. Qed.
Print Assumptions C87_columns.

(** What is refused: arrays of any other number of dimensions (AssertionError); no points, points without coordinates, points with
    another number of coordinates than the training points, more neighbours than training points (ValueError). *)
Theorem C87_refused : forall dist x y w k m K a xp,
  let deep z := match z with X0 _ | X3 _ => True | _ => False end in
  let void z := match z with X1 [] | X2 0 _ | X2 _ [] => True | _ => False end in
  let cols z := match z with X1 _ => 1 | X2 d _ => d | _ => 0 end in
  let count z := match z with X1 l => length l | X2 _ rows => length rows | _ => 0 end in
  (deep x -> by_knn dist x y w k m K a xp = Err AssertionError) /\
  (void x -> by_knn dist x y w k m K a xp = Err ValueError) /\
  (~ deep x -> ~ void x -> deep xp -> by_knn dist x y w k m K a xp = Err AssertionError) /\
  (~ deep x -> ~ void x -> ~ deep xp -> void xp \/ cols xp <> cols x -> by_knn dist x y w k m K a xp = Err ValueError) /\
  (~ deep x -> ~ deep xp -> count x < k -> by_knn dist x y w k m K a xp = Err ValueError).
Proof.
  intros dist x y w k m K a xp. cbv zeta. unfold by_knn.
  split; [destruct x; try contradiction; reflexivity|].
  split; [destruct x as [|[|]|[|d] [|]|]; try contradiction; reflexivity|].
  split. { intros D V E. destruct x as [|[|]|[|d] [|]|]; try (exfalso; tauto); destruct xp; try contradiction; reflexivity. }
  assert (S0 : forall z, match z with X0 _ | X3 _ => True | _ => False end \/ match z with X1 [] | X2 0 _ | X2 _ [] => True | _ => False end \/
    bind (cvt_x z) tree_input = Ok (match z with X1 _ => 1 | X2 d _ => d | _ => 0 end, match z with X1 l => map (fun a => [a]) l | X2 _ rows => rows | _ => [] end)).
  { intros [|[|]|[|d] [|]|]; auto. }
  split.
  - intros D V D' H. destruct (S0 x) as [C|[C|C]]; try contradiction. rewrite C. cbn [bind fst snd].
    assert (Q : bind (cvt_x xp) (query_input (match x with X1 _ => 1 | X2 d _ => d | _ => 0 end)) = Err ValueError); [|rewrite Q; reflexivity].
    destruct xp as [|[|b l]|[|d] [|b l]|]; try (exfalso; tauto); try reflexivity; (destruct H as [H|H]; [contradiction|]);
      unfold query_input, tree_input; cbn [cvt_x bind fst snd map length]; repeat match goal with |- context [Nat.eqb (S ?u) 0] => change (Nat.eqb (S u) 0) with false end; cbn [orb bind fst snd];
      match goal with |- context [Nat.eqb ?u ?v] => destruct (Nat.eqb_spec u v); [contradiction|reflexivity] end.
  - intros D D' H. destruct (S0 x) as [C|[C|C]]; try contradiction.
    { destruct x as [|[|]|[|d] [|]|]; try contradiction; reflexivity. }
    rewrite C. cbn [bind fst snd]. destruct (bind (cvt_x xp) _) as [qs|e] eqn:E.
    + cbn [bind]. set (tr := match x with X1 l => map (fun a => [a]) l | X2 _ rows => rows | _ => [] end).
      assert (Lt : length tr < k) by (unfold tr; destruct x; try contradiction; rewrite ?map_length; exact H).
      destruct qs as [|q qs].
      { exfalso. destruct xp as [|[|]|[|d] [|]|]; try (now apply D'); cbn in E; try discriminate; unfold query_input in E; cbn in E; match type of E with context [if ?b then _ else _] => destruct b end; discriminate. }
      unfold knn_call. cbn [mapM]. unfold query at 1. destruct (Nat.leb_spec k (length tr)); [lia|]. reflexivity.
    + cbn [bind]. f_equal. destruct xp as [|[|]|[|d] [|]|]; try (exfalso; now apply D'); cbn in E; try congruence; unfold query_input in E; cbn in E; match type of E with context [if ?b then _ else _] => destruct b end; congruence.
Qed.
Print Assumptions C87_refused.

(** by_local_kernel refuses the same arrays, after the reductions have been looked at. *)
Theorem C87_local_refused : forall dist x y w dx K a xp,
  let deep z := match z with X0 _ | X3 _ => True | _ => False end in
  let void z := match z with X1 [] | X2 0 _ | X2 _ [] => True | _ => False end in
  let cols z := match z with X1 _ => 1 | X2 d _ => d | _ => 0 end in
  (deep x -> by_local dist x y w dx K a xp = Err AssertionError) /\
  (void x -> by_local dist x y w dx K a xp = Err ValueError) /\
  (forall e, ~ deep x -> ~ void x -> mapM create (iter a) = Err e -> by_local dist x y w dx K a xp = Err e) /\
  (forall rs, ~ deep x -> ~ void x -> mapM create (iter a) = Ok rs ->
    (deep xp -> by_local dist x y w dx K a xp = Err AssertionError) /\
    (~ deep xp -> void xp \/ cols xp <> cols x -> by_local dist x y w dx K a xp = Err ValueError)).
Proof.
  intros dist x y w dx K a xp. cbv zeta. unfold by_local.
  split; [destruct x; try contradiction; reflexivity|].
  split; [destruct x as [|[|]|[|d] [|]|]; try contradiction; reflexivity|].
  assert (S0 : forall z, match z with X0 _ | X3 _ => True | _ => False end \/ match z with X1 [] | X2 0 _ | X2 _ [] => True | _ => False end \/
    bind (cvt_x z) tree_input = Ok (match z with X1 _ => 1 | X2 d _ => d | _ => 0 end, match z with X1 l => map (fun a => [a]) l | X2 _ rows => rows | _ => [] end)).
  { intros [|[|]|[|d] [|]|]; auto. }
  split. { intros e D V E. destruct (S0 x) as [C|[C|C]]; try contradiction. rewrite C, E. reflexivity. }
  intros rs D V E. destruct (S0 x) as [C|[C|C]]; try contradiction. rewrite C, E. cbn [bind fst snd].
  assert (E' : exists cs, mapM create (iter_again a) = Ok cs) by (destruct a; cbn [iter iter_again] in *; eauto; exists []; reflexivity). destruct E' as [cs ->]. cbn [bind]. split.
  - intros D'. destruct xp; try contradiction; reflexivity.
  - intros D' H.
    assert (Q : bind (cvt_x xp) (query_input (match x with X1 _ => 1 | X2 d _ => d | _ => 0 end)) = Err ValueError); [|rewrite Q; reflexivity].
    destruct xp as [|[|b l]|[|d] [|b l]|]; try (exfalso; tauto); try reflexivity; (destruct H as [H|H]; [contradiction|]);
      unfold query_input, tree_input; cbn [cvt_x bind fst snd map length]; repeat match goal with |- context [Nat.eqb (S ?u) 0] => change (Nat.eqb (S u) 0) with false end; cbn [orb bind fst snd];
      match goal with |- context [Nat.eqb ?u ?v] => destruct (Nat.eqb_spec u v); [contradiction|reflexivity] end.
Qed.
Print Assumptions C87_local_refused.

(** by_knn: whatever the points asked for, the result for one of them is the reduction of the values of its k nearest training
    points with their weights, those at max_dx or beyond masked out: it does not depend on the other points asked for. *)
Theorem C87_knn_values : forall dist x y w k m K r xp rows p d tr, cvt_x x = Ok (d, tr) -> length y = length tr -> (forall w', w = Some w' -> length w' = length tr) ->
  by_knn dist x y w k m K (One (SObj r)) xp = Ok (rows, p) ->
  cvt_x xp = Ok (d, rows) /\ exists v, p_y p = [v] /\ p_named p = [(append "y_" (key_of r), v)] /\
  forall i q, nth_error rows i = Some q -> exists nb vi, query Qltb dist tr q k = Ok nb /\ nearest Qltb dist tr q k nb /\ entry i v = Some vi /\
    reduce r (A1 (map (fun p => nth (snd p) y 0%Q) nb)) (option_map A1 (weights_at w K nb)) (option_map (fun m => A1 (map (fun p => Qltb (fst p) m) nb)) m) = Ok vi.
Proof.
  intros dist x y w k m K r xp rows p d tr Hx Ly Lw H. unfold by_knn in H. rewrite Hx in H. cbn [bind] in H.
  destruct (tree_input (d, tr)) as [t|] eqn:T; [|discriminate]. assert (t = (d, tr)) by (unfold tree_input in T; destruct (_ || _); congruence). subst t. cbn [bind fst snd] in H.
  destruct (cvt_x xp) as [[d' rs]|] eqn:Hp; [|discriminate]. cbn [bind] in H. destruct (query_input d (d', rs)) as [qs|] eqn:Q; [|discriminate]. cbn [bind] in H.
  assert (Eq : d' = d /\ qs = rs).
  { unfold query_input in Q. destruct (tree_input (d', rs)) as [t|] eqn:T'; [|discriminate]. assert (t = (d', rs)) by (unfold tree_input in T'; destruct (_ || _); congruence). subst t. cbn [bind fst snd] in Q. destruct (Nat.eqb_spec d' d); [|discriminate]. split; congruence. }
  destruct Eq as [-> ->]. destruct (knn_call dist tr y w k m K (One (SObj r)) rs) as [p0|] eqn:C; [|discriminate]. cbn [rmap] in H. assert (rows = rs /\ p0 = p) as [-> ->] by (split; congruence). clear H.
  split; [reflexivity|]. pose proof (queries dist tr k rs) as Q0. destruct (mapM (fun q => query Qltb dist tr q k) rs) as [nbs|e] eqn:E; [|unfold knn_call in C; rewrite E in C; discriminate].
  assert (B : Forall (ids_below (length y)) nbs) by (eapply RegrProps.below; eauto). assert (Lw' : forall w', w = Some w' -> length w' = length y) by (intros w' ->; rewrite Ly; now apply Lw).
  rewrite (knn_call_eq dist tr y w k m K (One (SObj r)) rs nbs E B Lw') in C. unfold apply_all in C. cbn [iter mapM create bind] in C.
  destruct (reduce r _ _ _) as [v|] eqn:R; [|discriminate]. cbn [rmap bind map snd] in C. injection C as <-. cbn [p_y p_named]. exists v. split; [reflexivity|]. split; [reflexivity|].
  destruct (rows_shape dist tr k rs nbs y w m K Q0) as (R1 & R2 & R3). intros i q Hq. apply mapM_Ok in E. destruct (F2_nth _ _ _ i q E Hq) as (nb & Hnb & Eq). destruct (F2_nth _ _ _ i q Q0 Hq) as (nb' & Hnb' & Nq). assert (nb' = nb) by congruence. subst nb'.
  destruct (reduce_rows r k _ _ _ v R1 R2 R3 R i (row_y y nb) (map_nth_error _ _ _ Hnb)) as (vi & Ei & Ri). exists nb, vi. split; [exact Eq|]. split; [exact Nq|]. split; [exact Ei|].
  rewrite <- Ri. f_equal.
  - unfold rows_w, opt_rows, row_at, weights_at, has_w, row_w. destruct w as [w|], K as [K|]; cbn [option_map]; try reflexivity; do 2 f_equal; (erewrite nth_error_nth; [|apply map_nth_error; exact Hnb]; reflexivity).
  - unfold rows_m, row_at. destruct m as [m|]; cbn [option_map]; [|reflexivity]. do 2 f_equal. erewrite nth_error_nth; [|apply map_nth_error; exact Hnb]. reflexivity.
Qed.
Print Assumptions C87_knn_values.
Theorem C87_knn_pointwise : forall dist x y w k m K r xp xp' rows rows' p p' d tr v v' i i' q, cvt_x x = Ok (d, tr) -> length y = length tr -> (forall w', w = Some w' -> length w' = length tr) ->
  by_knn dist x y w k m K (One (SObj r)) xp = Ok (rows, p) -> by_knn dist x y w k m K (One (SObj r)) xp' = Ok (rows', p') -> p_y p = [v] -> p_y p' = [v'] ->
  nth_error rows i = Some q -> nth_error rows' i' = Some q -> exists u, entry i v = Some u /\ entry i' v' = Some u.
Proof.
  intros dist x y w k m K r xp xp' rows rows' p p' d tr v v' i i' q Hx Ly Lw H H' V V' N N'.
  destruct (C87_knn_values _ _ _ _ _ _ _ _ _ _ _ _ _ Hx Ly Lw H) as (_ & v0 & E0 & _ & P). destruct (C87_knn_values _ _ _ _ _ _ _ _ _ _ _ _ _ Hx Ly Lw H') as (_ & v1 & E1 & _ & P').
  assert (v0 = v) by congruence. assert (v1 = v') by congruence. subst v0 v1. destruct (P i q N) as (nb & u & Q1 & _ & E & R). destruct (P' i' q N') as (nb' & u' & Q2 & _ & E' & R').
  assert (nb' = nb) by congruence. subst nb'. exists u. split; [exact E|]. congruence.
Qed.
Print Assumptions C87_knn_pointwise.
(** On the line the neighbours are those with the smallest |x - q|. *)
Theorem C87_knn_line : forall xs y w k m K r xp rows p, length y = length xs -> (forall w', w = Some w' -> length w' = length xs) ->
  by_knn line_dist (X1 xs) y w k m K (One (SObj r)) (X1 xp) = Ok (rows, p) ->
  rows = map (fun a => [a]) xp /\ exists v, p_y p = [v] /\
  forall i q, nth_error xp i = Some q -> exists nb vi, nearest Qltb (fun a b => Qabs (a - b)) xs q k nb /\ entry i v = Some vi /\
    reduce r (A1 (map (fun p => nth (snd p) y 0%Q) nb)) (option_map A1 (weights_at w K nb)) (option_map (fun m => A1 (map (fun p => Qltb (fst p) m) nb)) m) = Ok vi.
Proof.
  intros xs y w k m K r xp rows p Ly Lw H. destruct (C87_knn_values line_dist (X1 xs) y w k m K r (X1 xp) rows p 1 (map (fun a => [a]) xs) eq_refl) as (E & v & V & _ & P); [rewrite map_length; exact Ly|intros; rewrite map_length; auto|exact H|].
  injection E as <-. split; [reflexivity|]. exists v. split; [exact V|]. intros i q Hq. destruct (P i [q]) as (nb & vi & _ & N & Ev & R); [rewrite nth_error_map, Hq; reflexivity|].
  exists nb, vi. split; [apply nearest_line; exact N|]. auto.
Qed.
Print Assumptions C87_knn_line.

(** by_local_kernel: for every reduction asked for and every point, the reduction of the values of the training points within
    max_dx; by default max_dx is a tenth of the standard deviation of the points asked for, averaged over the coordinates. *)
Theorem C87_local_values : forall dist x y w dx K l xp rows p d tr, cvt_x x = Ok (d, tr) -> length y = length tr -> (forall w', w = Some w' -> length w' = length tr) ->
  by_local dist x y w dx K (Many l) xp = Ok (rows, p) ->
  cvt_x xp = Ok (d, rows) /\ length (p_y p) = length l /\
  forall j s, nth_error l j = Some s -> exists n r col, create s = Ok (n, r) /\ nth_error (p_y p) j = Some col /\ length col = length rows /\
  forall i q, nth_error rows i = Some q -> exists nb v, neighbours dist tr q nb /\
    (forall a t, nth_error tr a = Some t -> (In a (map snd nb) <->
       match dx with Some c => (dist q t <= c)%Q | None => (Q2R (dist q t) <= default_max_dx d (map (map Q2R) rows))%R end)) /\
    nth_error col i = Some v /\ reduce r (A1 (map (fun p => nth (snd p) y 0%Q) nb)) (option_map A1 (weights_at w K nb)) None = Ok v.
Proof.
  intros dist x y w dx K l xp rows p d tr Hx Ly Lw H. unfold by_local in H. rewrite Hx in H. cbn [bind] in H.
  destruct (tree_input (d, tr)) as [t|] eqn:T; [|discriminate]. assert (t = (d, tr)) by (unfold tree_input in T; destruct (_ || _); congruence). subst t. cbn [bind fst snd iter iter_again] in H.
  destruct (mapM create l) as [names|] eqn:C; [|discriminate]. cbn [bind] in H.
  destruct (cvt_x xp) as [[d' rs]|] eqn:Hp; [|discriminate]. cbn [bind] in H. destruct (query_input d (d', rs)) as [qs|] eqn:Q; [|discriminate]. cbn [bind] in H.
  assert (Eq : d' = d /\ qs = rs).
  { unfold query_input in Q. destruct (tree_input (d', rs)) as [t|] eqn:T'; [|discriminate]. assert (t = (d', rs)) by (unfold tree_input in T'; destruct (_ || _); congruence). subst t. cbn [bind fst snd] in Q. destruct (Nat.eqb_spec d' d); [|discriminate]. split; congruence. }
  destruct Eq as [-> ->]. destruct (local_by _ _ _ _ _ _ _ _ _) as [p0|] eqn:L; [|discriminate]. cbn [rmap] in H. assert (rows = rs /\ p0 = p) as [-> ->] by (split; congruence). clear H.
  split; [reflexivity|]. destruct (local_by_values _ _ _ _ _ _ _ _ _ Ly Lw L) as (Lp & _ & P). apply mapM_Ok in C. split; [rewrite Lp, (F2_len _ _ _ C); reflexivity|].
  intros j s Hs. destruct (F2_nth _ _ _ j s C Hs) as ([n r] & Hn & Cr). destruct (P j _ Hn) as (col & Hc & Lc & V). exists n, r, col. split; [exact Cr|]. split; [exact Hc|]. split; [exact Lc|].
  intros i q Hq. destruct (V i q Hq) as (v & Hv & Rv). destruct (near_spec dist tr (accepted dx d rs) q) as [N A]. exists (row_of dist tr (accepted dx d rs) q), v. split; [exact N|]. split; [|split; [exact Hv|]].
  - intros a t Ht. rewrite (A a t Ht). unfold accepted. destruct dx as [c|]; [apply Qle_bool_iff|]. unfold Rleb. destruct (Rle_dec _ _); split; auto; try discriminate; contradiction.
  - rewrite <- Rv. reflexivity.
Qed.
Print Assumptions C87_local_values.
(** With a given radius the result for a point does not depend on the other points asked for. *)
Theorem C87_local_pointwise : forall dist x y w c K l xp xp' rows rows' p p' d tr j col col' i i' q, cvt_x x = Ok (d, tr) -> length y = length tr -> (forall w', w = Some w' -> length w' = length tr) ->
  by_local dist x y w (Some c) K (Many l) xp = Ok (rows, p) -> by_local dist x y w (Some c) K (Many l) xp' = Ok (rows', p') ->
  nth_error (p_y p) j = Some col -> nth_error (p_y p') j = Some col' -> nth_error rows i = Some q -> nth_error rows' i' = Some q ->
  exists v, nth_error col i = Some v /\ nth_error col' i' = Some v.
Proof.
  intros dist x y w c K l xp xp' rows rows' p p' d tr j col col' i i' q Hx Ly Lw H H' Hc Hc' N N'.
  assert (G : forall xp rows p col i, by_local dist x y w (Some c) K (Many l) xp = Ok (rows, p) -> nth_error (p_y p) j = Some col -> nth_error rows i = Some q ->
    exists names n v, mapM create l = Ok names /\ nth_error names j = Some n /\ nth_error col i = Some v /\
      reduce (snd n) (A1 (row_y y (row_of dist tr (fun v => Qle_bool v c) q))) (option_map A1 (row_w w K (row_of dist tr (fun v => Qle_bool v c) q))) None = Ok v).
  { clear - Hx Ly Lw. intros xp rows p col i H Hc N. unfold by_local in H. rewrite Hx in H. cbn [bind] in H.
    destruct (tree_input (d, tr)) as [t|] eqn:T; [|discriminate]. assert (t = (d, tr)) by (unfold tree_input in T; destruct (_ || _); congruence). subst t. cbn [bind fst snd iter iter_again] in H.
    destruct (mapM create l) as [names|] eqn:C; [|discriminate]. cbn [bind] in H.
    destruct (bind (cvt_x xp) (query_input d)) as [qs|]; [|discriminate]. cbn [bind] in H. destruct (local_by _ _ _ _ _ _ _ _ _) as [p0|] eqn:L; [|discriminate]. cbn [rmap] in H. assert (rows = qs /\ p0 = p) as [-> ->] by (split; congruence). clear H.
    destruct (local_by_values _ _ _ _ _ _ _ _ _ Ly Lw L) as (Lp & _ & P). assert (Hj : j < length names) by (rewrite <- Lp; apply nth_error_Some; congruence).
    destruct (nth_error names j) as [n|] eqn:Hn; [|apply nth_error_None in Hn; lia]. destruct (P j n Hn) as (col0 & Hc0 & _ & V). assert (col0 = col) by congruence. subst col0. destruct (V i q N) as (v & Hv & Rv).
    exists names, n, v. split; [reflexivity|]. split; [exact Hn|]. split; [exact Hv|]. exact Rv. }
  destruct (G _ _ _ _ _ H Hc N) as (names & n & v & C & Hn & Hv & R). destruct (G _ _ _ _ _ H' Hc' N') as (names' & n' & v' & C' & Hn' & Hv' & R').
  assert (names' = names) by congruence. subst names'. assert (n' = n) by congruence. subst n'. exists v. split; [exact Hv|]. congruence.
Qed.
Print Assumptions C87_local_pointwise.
(** Finding: without a radius it does.  A single point is asked for with radius 0. *)
Theorem C87_default_single : forall dist x y w K a row d, by_local dist x y w None K a (X2 d [row]) = by_local dist x y w (Some 0%Q) K a (X2 d [row]).
Proof.
  intros dist x y w K a row d. unfold by_local. destruct (bind (cvt_x x) tree_input) as [[d0 tr]|]; [|reflexivity]. cbn [bind fst snd].
  destruct (mapM create (iter a)) as [names|]; [|reflexivity]. destruct (mapM create (iter_again a)) as [calls|]; [|reflexivity]. cbn [bind cvt_x].
  unfold query_input, tree_input. cbn [fst snd length Nat.eqb]. rewrite Bool.orb_false_r. destruct (Nat.eqb_spec d 0) as [->|Nd]; [reflexivity|]. cbn [bind fst snd]. destruct (Nat.eqb_spec d d0) as [<-|]; [|reflexivity]. cbn [bind].
  f_equal. apply local_by_ext. intros v. unfold accepted. rewrite <- Rleb_Q. f_equal.
  change (map (map Q2R) [row]) with (repeat (map Q2R row) 1). rewrite (proj2 (C69_zero_radius_refuted unit (fun _ _ => 0%R) d [tt] tt (map Q2R row) 0 ltac:(discriminate) ltac:(lia))). unfold Q2R. cbn. lra.
Qed.
Print Assumptions C87_default_single.

(** The same point 1/2 between training points 0 and 1: the filling value when asked for alone, the mean 1/2 beside the point 41/2. *)
Theorem C87_default_radius_refuted : exists p p' u,
  by_local line_dist (X1 [0; 1]%Q) [0; 1]%Q None None None (Many [SStr "mean"]) (X1 [1 # 2]%Q) = Ok ([[1 # 2]]%Q, p) /\ p_y p = [[VN (S0 (Fin (-10000000000)))]] /\
  by_local line_dist (X1 [0; 1]%Q) [0; 1]%Q None None None (Many [SStr "mean"]) (X1 [1 # 2; 41 # 2]%Q) = Ok ([[1 # 2]; [41 # 2]]%Q, p') /\
  p_y p' = [[VN (S0 (Fin u)); VN (S0 (Fin (-10000000000)))]] /\ (u == 1 # 2)%Q.
Proof.
  assert (A : by_local line_dist (X1 [0; 1]%Q) [0; 1]%Q None None None (Many [SStr "mean"]) (X1 [1 # 2]%Q) = by_local line_dist (X1 [0; 1]%Q) [0; 1]%Q None (Some 0%Q) None (Many [SStr "mean"]) (X1 [1 # 2]%Q)).
  { destruct (C87_columns line_dist [1 # 2]%Q [0; 1]%Q None 0 None None (Many [SStr "mean"]) (X1 [0; 1]%Q) (X1 [0; 1]%Q) None) as (_ & _ & _ & E). rewrite E. cbn [map]. rewrite C87_default_single. reflexivity. }
  assert (S1 : default_max_dx 1 (map (map Q2R) [[1 # 2]; [41 # 2]]%Q) = Q2R 1).
  { unfold default_max_dx, mean_of, std_of, column, mean_of. cbn [map seq length total fold_right nth INR].
    replace (sqrt _) with 10%R; [unfold Q2R; cbn; lra|]. symmetry. replace 10%R with (sqrt (10 * 10)) by (apply sqrt_square; lra). f_equal. unfold Q2R. cbn. lra. }
  assert (B : by_local line_dist (X1 [0; 1]%Q) [0; 1]%Q None None None (Many [SStr "mean"]) (X1 [1 # 2; 41 # 2]%Q) = by_local line_dist (X1 [0; 1]%Q) [0; 1]%Q None (Some 1%Q) None (Many [SStr "mean"]) (X1 [1 # 2; 41 # 2]%Q)).
  { unfold by_local. cbn [bind cvt_x map tree_input query_input fst snd length Nat.eqb orb]. destruct (mapM create (iter (Many [SStr "mean"]))) as [names|]; [|reflexivity]. destruct (mapM create (iter_again (Many [SStr "mean"]))) as [calls|]; [|reflexivity]. cbn [bind].
    f_equal. apply local_by_ext. intros v. unfold accepted. cbn [map] in S1. cbn [map]. rewrite S1. apply Rleb_Q. }
  rewrite A, B. do 3 eexists. split; [vm_compute; reflexivity|]. split; [vm_compute; reflexivity|]. split; [vm_compute; reflexivity|]. split; [vm_compute; reflexivity|]. vm_compute. reflexivity.
Qed.
Print Assumptions C87_default_radius_refuted.
(** Two of three points on a line; two queries, weights, a limit on the distance. *)
Example C87_example : exists p u v, by_knn line_dist (X1 [0; 1; 5]%Q) [10; 40; 7]%Q (Some [1; 2; 3]%Q) 2 (Some (3 # 2)%Q) None (One (SStr "mean")) (X1 [0; 5]%Q) = Ok ([[0]; [5]]%Q, p) /\
  p_y p = [VN (V1 [Fin u; Fin v])] /\ (u == 30)%Q /\ (v == 7)%Q /\ by_knn line_dist (X1 [0; 1; 5]%Q) [10; 40; 7]%Q None 2 None None (One (SStr "mean")) (X2 2 [[0; 0]]%Q) = Err ValueError.
Proof. do 3 eexists. split; [vm_compute; reflexivity|]. split; [vm_compute; reflexivity|]. split; [vm_compute; reflexivity|]. split; vm_compute; reflexivity. Qed.
