(** C69: density from neighbours (stats/density_estimation.py, DensityEstimationND.by_local_kernel and by_knn). *)
From Coq Require Import Reals Lra Lia.
From Verif Require Import Base OrderSpec BinModel NearSpec KernModel KernProofs NearModel NearProofs.
Local Open Scope list_scope. Local Open Scope R_scope.
Local Lemma map_repeat {A B} (f : A -> B) a n : map f (repeat a n) = repeat (f a) n.
Proof. induction n; cbn; congruence. Qed.

(** What the queries return, for every metric: k nearest in order of distance, or ValueError if there are fewer points;
    and exactly the points within the radius. *)
Theorem C69_query : forall X (dist : X -> X -> R) tr q k,
  match query Rltb dist tr q k with Ok nb => nearest Rltb dist tr q k nb | Err e => e = ValueError /\ (length tr < k)%nat end.
Proof. intros. apply query_nearest, R_weak_order. Qed.
Print Assumptions C69_query.
Theorem C69_radius : forall X (dist : X -> X -> R) tr q r, neighbours dist tr q (query_radius Rleb dist tr q r) /\
  forall i p, nth_error tr i = Some p -> (In i (map snd (query_radius Rleb dist tr q r)) <-> dist q p <= r).
Proof. intros. destruct (radius_spec Rleb dist tr q r) as [H1 H2]. split; [assumption|]. intros i p N. rewrite (H2 i p N). apply Rleb_le. Qed.
Print Assumptions C69_radius.

(** Without a kernel the density is the fraction of the total weight within the ball, over the ball's volume. *)
Theorem C69_local : forall X (dist : X -> X -> R) n tr w r q, usable tr w -> 0 < r ->
  by_local_kernel dist n tr w None r q =
  EFin (total (map snd (ball_members dist tr w q r)) / total (weights_or_1 tr w) / ball n r).
Proof.
  intros X dist n tr w r q U P. rewrite local_plain by assumption. pose proof (ball_pos n r P). unfold ediv. destruct (Req_EM_T (ball n r) 0); [lra|reflexivity].
Qed.
Print Assumptions C69_local.
(** With a kernel the weights are multiplied by the kernel values over their mean; an empty ball has density 0. *)
Theorem C69_local_kernel : forall X (dist : X -> X -> R) n tr w k r q, usable tr w -> 0 < r ->
  let m := ball_members dist tr w q r in let K p := kernel_at k (dist q (fst p)) in
  (m = [] -> by_local_kernel dist n tr w (Some k) r q = EFin 0) /\
  (m <> [] -> total (map K m) = 0 -> by_local_kernel dist n tr w (Some k) r q = ENaN) /\
  (m <> [] -> total (map K m) <> 0 -> by_local_kernel dist n tr w (Some k) r q =
     EFin (total (map (fun p => snd p * K p) m) / (total (map K m) / INR (length m)) / total (weights_or_1 tr w) / ball n r)).
Proof.
  intros X dist n tr w k r q U P m K. pose proof (ball_pos n r P) as V. rewrite local_kernel by assumption. fold m. unfold ediv.
  destruct (Req_EM_T (ball n r) 0); [lra|]. split; [|split].
  - intros ->. f_equal. unfold Rdiv. ring.
  - intros NE Z. destruct m; [congruence|]. destruct Req_EM_T; [reflexivity|contradiction].
  - intros NE Z. destruct m as [|p m'] eqn:Em; [congruence|]. rewrite <- Em in *. destruct Req_EM_T; [contradiction|reflexivity].
Qed.
Print Assumptions C69_local_kernel.
(** Finding: without weights the kernel has no influence on the result, unless all its values vanish. *)
Theorem C69_kernel_no_effect_refuted : forall X (dist : X -> X -> R) n tr k r q, tr <> [] -> 0 < r ->
  (total (map (fun p => kernel_at k (dist q (fst p))) (ball_members dist tr None q r)) <> 0 \/ ball_members dist tr None q r = []) ->
  by_local_kernel dist n tr None (Some k) r q = by_local_kernel dist n tr None None r q.
Proof.
  intros X dist n tr k r q NE P H. unfold by_local_kernel, local_density. pose proof (radius_neighbours dist tr q r) as N.
  set (nb := query_radius Rleb dist tr q r) in *. rewrite (uniform_weights dist tr q nb N).
  assert (L : length (weights_or_1 tr None) = length tr) by (apply usable_facts; split; [assumption|exact I]).
  pose proof (members_nb (fun d _ => kernel_at k d) dist tr None q r L) as E. fold nb in E.
  destruct nb as [|p nb'] eqn:Enb; [reflexivity|]. rewrite <- Enb in *.
  destruct H as [H|H]; [|rewrite H in E; rewrite Enb in E; discriminate]. rewrite <- E in H. cbn zeta. destruct Req_EM_T; [contradiction|]. f_equal. now apply kernel_drops.
Qed.
Print Assumptions C69_kernel_no_effect_refuted.
(** In particular a Gaussian kernel of any width never changes an unweighted estimate. *)
Theorem C69_gaussian_no_effect_refuted : forall X (dist : X -> X -> R) n tr sigma r q, tr <> [] -> 0 < r ->
  by_local_kernel dist n tr None (Some (Gaussian sigma)) r q = by_local_kernel dist n tr None None r q.
Proof.
  intros X dist n tr sigma r q NE P. apply C69_kernel_no_effect_refuted; auto.
  destruct (ball_members dist tr None q r) as [|p m]; [now right|]. left.
  assert (0 < total (map (fun p => kernel_at (Gaussian sigma) (dist q (fst p))) (p :: m))); [|lra].
  cbn [map total fold_right]. assert (0 <= fold_right Rplus 0 (map (fun p => kernel_at (Gaussian sigma) (dist q (fst p))) m)).
  { apply total_nonneg. rewrite Forall_forall. intros a Ha. apply in_map_iff in Ha as (x & <- & _). cbn [kernel_at]. left. apply exp_pos. }
  assert (0 < kernel_at (Gaussian sigma) (dist q (fst p))) by (cbn [kernel_at]; apply exp_pos). unfold total. lra.
Qed.
Print Assumptions C69_gaussian_no_effect_refuted.
(** Rescaling all weights does not matter, for either estimator. *)
Theorem C69_weight_scale : forall X (dist : X -> X -> R) n tr w c k r q nk m, total w <> 0 -> c <> 0 ->
  by_local_kernel dist n tr (Some (map (Rmult c) w)) k r q = by_local_kernel dist n tr (Some w) k r q /\
  by_knn dist n tr (Some (map (Rmult c) w)) nk m k q = by_knn dist n tr (Some w) nk m k q.
Proof.
  intros X dist n tr w c k r q nk m NZ NC. assert (E : fit_weights (length tr) (Some (map (Rmult c) w)) = fit_weights (length tr) (Some w)).
  { cbn [fit_weights]. rewrite map_map. pose proof (total_map_mul c (fun a => a) w) as T. rewrite map_id in T.
    rewrite (map_ext (fun a => c * a) (Rmult c)) in T by reflexivity. rewrite T. apply map_ext. intro a. field. split; assumption. }
  unfold by_local_kernel, by_knn. now rewrite E.
Qed.
Print Assumptions C69_weight_scale.
(** Radius 0: infinity at a training point, NaN elsewhere; and the default radius is 0 when all query points coincide, in
    particular for a single query point (finding). *)
Theorem C69_zero_radius_refuted : forall X (dist : X -> X -> R) n tr q row m, tr <> [] -> (0 < n)%nat ->
  by_local_kernel dist n tr None None 0 q = (if existsb (fun p => Rleb (dist q p) 0) tr then EPInf else ENaN) /\
  default_max_dx n (repeat row (S m)) = 0.
Proof.
  intros X dist n tr q row m NE Pn. split.
  - rewrite local_plain by (split; [assumption|exact I]).
    assert (V : ball n 0 = 0). { assert (E : ball n (0 * 1) = 0 ^ n * ball n 1) by apply ball_homogeneous. rewrite Rmult_0_l, pow_ne_zero, Rmult_0_l in E by lia. assumption. }
    rewrite V. unfold ediv. destruct (Req_EM_T 0 0) as [_|]; [|lra]. assert (TW : total (weights_or_1 tr None) = INR (length tr) * 1) by apply total_repeat. rewrite TW.
    assert (PN : 0 < INR (length tr)) by (apply lt_0_INR; destruct tr; [congruence|cbn; lia]).
    assert (E : total (map snd (ball_members dist tr None q 0)) = INR (length (filter (fun p => Rleb (dist q p) 0) tr))).
    { unfold ball_members, weights_or_1. clear. induction tr as [|x tr IH]; [reflexivity|]. cbn [length repeat combine filter fst].
      destruct (Rleb (dist q x) 0); [|exact IH]. cbn [map total fold_right snd length]. rewrite S_INR. unfold total in IH. rewrite IH. ring. }
    rewrite E. destruct (existsb (fun p => Rleb (dist q p) 0) tr) eqn:Ex.
    + assert (0 < INR (length (filter (fun p => Rleb (dist q p) 0) tr))).
      { apply lt_0_INR. apply existsb_exists in Ex as (p & Hp & Hd). assert (In p (filter (fun p => Rleb (dist q p) 0) tr)) by (apply filter_In; now split).
        destruct (filter (fun p => Rleb (dist q p) 0) tr); [contradiction|cbn; lia]. }
      assert (0 < INR (length (filter (fun p => Rleb (dist q p) 0) tr)) / (INR (length tr) * 1)) by (apply Rdiv_lt_0_compat; lra).
      destruct Req_EM_T; [lra|]. destruct Rlt_dec; [reflexivity|lra].
    + replace (filter (fun p => Rleb (dist q p) 0) tr) with (@nil X).
      * destruct Req_EM_T as [|n0]; [reflexivity|]. exfalso. apply n0. cbn. unfold Rdiv. ring.
      * clear -Ex. induction tr as [|x tr IH]; [reflexivity|]. cbn in *. apply Bool.orb_false_iff in Ex as [E1 E2]. rewrite E1. now apply IH.
  - unfold default_max_dx. assert (S0 : forall j, std_of (column (repeat row (S m)) j) = 0).
    { intro j. unfold column. assert (C : forall l c, l = repeat c (S m) -> std_of l = 0); [|apply (C _ (nth j row 0)); rewrite map_repeat; reflexivity].
      intros l c ->. assert (M : mean_of (repeat c (S m)) = c) by (unfold mean_of; rewrite total_repeat, repeat_length; field; apply not_0_INR; discriminate).
      unfold std_of. rewrite M, map_repeat. replace ((c - c) * (c - c)) with 0 by ring.
      unfold mean_of. rewrite total_repeat, Rmult_0_r. unfold Rdiv. rewrite Rmult_0_l. apply sqrt_0. }
    rewrite (map_ext _ (fun _ => 0)) by assumption. unfold mean_of. rewrite total_const. unfold Rdiv. ring.
Qed.
Print Assumptions C69_zero_radius_refuted.
(** The other entries: the number of neighbours and the largest distance (0 if there is none). *)
Theorem C69_neighbour_counts : forall X (dist : X -> X -> R) tr q r, let nb := query_radius Rleb dist tr q r in
  n_neighbors nb = length (filter (fun p => Rleb (dist q p) r) tr) /\
  (nb = [] -> neighbor_max_dx nb = 0) /\ (nb <> [] -> In (neighbor_max_dx nb) (map (dist q) tr) /\ neighbor_max_dx nb <= r) /\
  (forall p, In p tr -> dist q p <= r -> dist q p <= neighbor_max_dx nb).
Proof.
  intros X dist tr q r nb. destruct (max_dx_spec nb) as (M1 & M2 & M3). split; [|split; [assumption|split]].
  - unfold n_neighbors, nb, query_radius, dist_pairs. generalize 0%nat. clear. induction tr as [|x tr IH]; intro s; [reflexivity|]. cbn [map length seq combine filter fst].
    specialize (IH (S s)). destruct (Rleb (dist q x) r); cbn [length]; rewrite IH; reflexivity.
  - intro NE. specialize (M2 NE). apply in_map_iff in M2 as ([d i] & E & H). cbn in E. subst d. unfold nb in H. apply filter_In in H as [H L]. cbn in L.
    apply pairs_spec in H as (p & Np & Ed). fold nb in Ed, L. apply Rleb_le in L. split; [|assumption]. rewrite Ed. apply in_map. now apply nth_error_In in Np.
  - intros p Hp L. apply In_nth_error in Hp as (i & Np). apply M3. apply in_map_iff. exists (dist q p, i). split; [reflexivity|]. apply filter_In. split; [|now apply Rleb_le].
    apply pairs_spec. now exists p.
Qed.
Print Assumptions C69_neighbour_counts.

(** k nearest neighbours: the radius is the k-th distance, cut at [max_dx]; only neighbours strictly closer than [max_dx]
    count; the density is their share of the weight over the volume of that radius. *)
Theorem C69_knn : forall X (dist : X -> X -> R) n tr w k m q h cnt r, usable tr w -> (1 <= k)%nat -> by_knn dist n tr w k m None q = Ok (h, cnt, r) ->
  exists nb, nearest Rltb dist tr q k nb /\
    let kept := match m with Some m => filter (fun p => Rltb (fst p) m) nb | None => nb end in
    cnt = length kept /\ (exists far, In far (map fst nb) /\ (forall d, In d (map fst nb) -> d <= far) /\ r = match m with Some m => Rmin far m | None => far end) /\
    (0 < r -> h = EFin (total (map (fun p => nth (snd p) (weights_or_1 tr w) 0) kept) / total (weights_or_1 tr w) / ball n r)).
Proof.
  intros X dist n tr w k m q h cnt r U K H. unfold by_knn in H. pose proof (query_nearest Rltb dist tr q k R_weak_order) as Q.
  destruct (query Rltb dist tr q k) as [nb|] eqn:E; [|discriminate]. apply (f_equal (fun x => match x with Ok a => a | Err _ => (h, cnt, r) end)) in H. cbn [rmap] in H.
  exists nb. split; [assumption|]. destruct Q as (L & N & _). destruct (max_dx_spec nb) as (_ & M2 & M3). destruct (usable_facts tr w U) as [Lw NZ].
  assert (NE : nb <> []) by (intros ->; cbn in L; lia).
  unfold knn_density in H. set (kept := match m with Some m => filter (fun p => Rltb (fst p) m) nb | None => nb end) in *. cbn zeta.
  assert (Eh : h = ediv (total (map (fun p => at_id (fit_weights (length tr) w) (snd p)) kept)) (ball n r)) by congruence.
  assert (Er : r = match m with Some m => Rmin (neighbor_max_dx nb) m | None => neighbor_max_dx nb end) by congruence.
  split; [congruence|]. split; [exists (neighbor_max_dx nb); auto|]. intro P. rewrite Eh. pose proof (ball_pos n r P). unfold ediv. destruct Req_EM_T; [lra|]. f_equal. f_equal.
  rewrite (total_ext _ (fun p => / total (weights_or_1 tr w) * nth (snd p) (weights_or_1 tr w) 0)).
  - rewrite total_map_mul. unfold Rdiv. ring.
  - intros p Ip. rewrite fit_at; [unfold at_id, Rdiv; ring|assumption|]. apply (ids_valid dist tr q nb p N). unfold kept in Ip. destruct m; [|assumption]. now apply filter_In in Ip as [Ip _].
Qed.
Print Assumptions C69_knn.
(** Unweighted and without [max_dx]: k / N over the volume reaching to the k-th neighbour. *)
Theorem C69_knn_plain : forall X (dist : X -> X -> R) n tr k q h cnt r, (1 <= k)%nat -> by_knn dist n tr None k None None q = Ok (h, cnt, r) ->
  cnt = k /\ (0 < r -> h = EFin (INR k / INR (length tr) / ball n r)).
Proof.
  intros X dist n tr k q h cnt r K H. pose proof (query_nearest Rltb dist tr q k R_weak_order) as Q0.
  assert (NE : tr <> []).
  { intros ->. unfold by_knn, query in H. cbn in H. destruct (Nat.leb_spec k 0); [lia|discriminate]. }
  assert (U : usable tr None) by (split; [assumption|exact I]).
  destruct (C69_knn X dist n tr None k None q h cnt r U K H) as (nb & (L & N & _) & -> & _ & Hh). split; [assumption|]. intro P. rewrite (Hh P). f_equal. f_equal.
  unfold weights_or_1. rewrite total_repeat, Rmult_1_r. f_equal. rewrite (total_ext _ (fun _ => 1)).
  - rewrite total_const, L. ring.
  - intros p Ip. pose proof (ids_valid dist tr q nb p N Ip). rewrite (nth_indep _ 0 1) by (rewrite repeat_length; lia). apply nth_repeat.
Qed.
Print Assumptions C69_knn_plain.
(** The kernel has no influence here either. *)
Theorem C69_knn_kernel_no_effect_refuted : forall X (dist : X -> X -> R) n tr k m sigma q,
  by_knn dist n tr None k m (Some (Gaussian sigma)) q = by_knn dist n tr None k m None q.
Proof.
  intros X dist n tr k m sigma q. unfold by_knn. pose proof (query_nearest Rltb dist tr q k R_weak_order) as Q.
  destruct (query Rltb dist tr q k) as [nb|]; [|reflexivity]. cbn [rmap]. f_equal. destruct Q as (_ & N & _).
  unfold knn_density. set (kept := match m with Some m => filter (fun p => Rltb (fst p) m) nb | None => nb end).
  assert (W : map (fun p => at_id (fit_weights (length tr) None) (snd p)) kept = map (fun _ => 1 / INR (length tr)) kept).
  { apply map_ext_in. intros p I. apply fit_uniform. apply (ids_valid dist tr q nb p N). unfold kept in I. destruct m; [|assumption]. now apply filter_In in I as [I _]. }
  cbn zeta. rewrite W. f_equal. f_equal. destruct kept as [|p kept'] eqn:Ek; [reflexivity|]. rewrite <- Ek.
  assert (S0 : 0 < total (map (fun p => kernel_at (Gaussian sigma) (fst p)) kept)).
  { rewrite Ek. cbn [map total fold_right]. assert (0 <= fold_right Rplus 0 (map (fun p => kernel_at (Gaussian sigma) (fst p)) kept')).
    { apply total_nonneg. rewrite Forall_forall. intros a Ha. apply in_map_iff in Ha as (x & <- & _). cbn [kernel_at]. left. apply exp_pos. }
    assert (0 < kernel_at (Gaussian sigma) (fst p)) by (cbn [kernel_at]; apply exp_pos). unfold total. lra. }
  destruct Req_EM_T; [lra|]. f_equal. apply kernel_drops. lra.
Qed.
Print Assumptions C69_knn_kernel_no_effect_refuted.

(** Three points on a line, ball of radius 1 around 0 holding two of them: (2/3) / 2. *)
Example ex_line : by_local_kernel (fun a b => Rabs (a - b)) 1 [0; 1; 5] None None 1 0 = EFin (1 / 3).
Proof.
  rewrite C69_local; [|split; [discriminate|exact I]|lra]. f_equal. unfold ball_members, weights_or_1, Rleb. cbn [length repeat combine filter fst].
  repeat match goal with |- context [Rle_dec (Rabs ?x) ?y] => destruct (Rle_dec (Rabs x) y) as [|n0]; [|try (exfalso; apply n0; unfold Rabs; destruct Rcase_abs; lra)] end.
  - exfalso. revert r1. unfold Rabs. destruct Rcase_abs; lra.
  - cbn. field.
Qed.
Example ex_usable : usable [0; 1; 5] (Some [1; 2; 3]).
Proof. split; [discriminate|]. split; [reflexivity|]. cbn. lra. Qed.
(** The radius used when none is given: a tenth of the standard deviation of the query points, averaged over the dimensions. *)
Theorem C69_default_radius : forall n rows, (0 < n)%nat -> rows <> [] -> exists mu : nat -> R,
  (forall j, mu j * INR (length rows) = total (map (fun r => nth j r 0) rows)) /\
  10 * INR n * default_max_dx n rows = total (map (fun j => sqrt (total (map (fun r => (nth j r 0 - mu j) ^ 2) rows) / INR (length rows))) (seq 0 n)) /\ 0 <= default_max_dx n rows.
Proof.
  intros n rows Pn NE. assert (L : 0 < INR (length rows)) by (apply lt_0_INR; destruct rows; [congruence|cbn; lia]). assert (Ln : 0 < INR n) by (apply lt_0_INR; lia).
  exists (fun j => mean_of (column rows j)). split; [|split].
  - intros j. unfold mean_of, column. rewrite map_length. field. lra.
  - unfold default_max_dx, mean_of at 1. rewrite map_length, seq_length.
    replace (map (fun j => sqrt (total (map (fun r => (nth j r 0 - mean_of (column rows j)) ^ 2) rows) / INR (length rows))) (seq 0 n)) with (map (fun j => std_of (column rows j)) (seq 0 n)); [field; lra|].
    apply map_ext. intros j. unfold std_of. generalize (mean_of (column rows j)). intros mu. unfold mean_of, column. rewrite !map_map, !map_length. f_equal. f_equal. f_equal. apply map_ext. intros r. ring.
  - unfold default_max_dx, mean_of at 1. rewrite map_length, seq_length. apply Rmult_le_pos; [apply Rmult_le_pos|lra]; [|left; apply Rinv_0_lt_compat, Ln].
    generalize (seq 0 n). intros l. induction l as [|j l IH]; cbn [map total fold_right]; [lra|]. unfold total in IH. pose proof (sqrt_pos (mean_of (map (fun a => (a - mean_of (column rows j)) * (a - mean_of (column rows j))) (column rows j)))) as S. change (0 <= std_of (column rows j)) in S. lra.
Qed.
Print Assumptions C69_default_radius.
Example C69_default_radius_case : 10 * default_max_dx 1 [[0]; [4]] = 2.
Proof.
  destruct (C69_default_radius 1 [[0]; [4]]) as (mu & M & E & _); [lia|discriminate|]. specialize (M 0%nat). cbn in M, E.
  assert (M0 : mu 0%nat = 2) by lra. rewrite M0 in E. replace ((0 - 2) * ((0 - 2) * 1) + ((4 - 2) * ((4 - 2) * 1) + 0)) with 8 in E by ring.
  replace (8 / (1 + 1)) with (2 * 2) in E by field. rewrite sqrt_square in E by lra. lra.
Qed.
