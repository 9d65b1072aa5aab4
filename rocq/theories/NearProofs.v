From Coq Require Import Reals Lra Lia Permutation.
From Verif Require Import Base OrderSpec BinModel BinProofs BinProofs2 NearSpec KernModel NearModel.
Local Open Scope list_scope. Local Open Scope nat_scope.

Lemma Rltb_lt a b : Rltb a b = true <-> (a < b)%R.
Proof. unfold Rltb. destruct (Rlt_dec a b); split; intros; auto; discriminate. Qed.
Lemma Rltb_ge a b : Rltb a b = false <-> (b <= a)%R.
Proof. unfold Rltb. destruct (Rlt_dec a b); split; intros; auto; try discriminate; lra. Qed.
Lemma Rleb_le a b : Rleb a b = true <-> (a <= b)%R.
Proof. unfold Rleb. destruct (Rle_dec a b); split; intros; auto; discriminate. Qed.
Lemma R_weak_order : weak_order Rltb.
Proof. constructor; intros *; rewrite ?Rltb_lt, ?Rltb_ge; lra. Qed.
Lemma fst_weak_order {T} (lt : T -> T -> bool) : weak_order lt -> weak_order (fun a b : T * nat => lt (fst a) (fst b)).
Proof. intros [H1 H2 H3]. constructor; intros; eauto. Qed.

Lemma pairs_spec {X T} (dist : X -> X -> T) tr q d i : In (d, i) (dist_pairs dist tr q) <-> exists p, nth_error tr i = Some p /\ d = dist q p.
Proof.
  unfold dist_pairs. assert (G : forall s, In (d, i) (combine (map (dist q) tr) (seq s (length tr))) <-> s <= i /\ exists p, nth_error tr (i - s) = Some p /\ d = dist q p).
  { induction tr as [|a tr IH]; intro s; cbn [map length seq combine].
    - split; [intros []|]. intros [_ (p & H & _)]. destruct (i - s); discriminate.
    - cbn [In]. rewrite (IH (S s)). split.
      + intros [E|[L (p & H & ->)]].
        * inversion E; subst. split; [lia|]. exists a. rewrite Nat.sub_diag. now split.
        * split; [lia|]. exists p. split; [|reflexivity]. replace (i - s) with (S (i - S s)) by lia. assumption.
      + intros [L (p & H & ->)]. destruct (Nat.eq_dec i s) as [->|].
        * rewrite Nat.sub_diag in H. cbn in H. left. congruence.
        * right. split; [lia|]. exists p. split; [|reflexivity]. replace (i - s) with (S (i - S s)) in H by lia. assumption. }
  rewrite G, Nat.sub_0_r. intuition lia.
Qed.
Lemma pairs_ids {X T} (dist : X -> X -> T) tr q : map snd (dist_pairs dist tr q) = seq 0 (length tr).
Proof.
  unfold dist_pairs. generalize 0. induction tr as [|a tr IH]; intro s; cbn; [reflexivity|]. now rewrite IH.
Qed.
Lemma pairs_length {X T} (dist : X -> X -> T) tr q : length (dist_pairs dist tr q) = length tr.
Proof. unfold dist_pairs. now rewrite combine_length, map_length, seq_length, Nat.min_id. Qed.

Lemma NoDup_firstn {A} k (l : list A) : NoDup l -> NoDup (firstn k l).
Proof.
  intro N. revert k. induction N as [|a l Na N IH]; intros [|k]; cbn; try constructor; auto. intro H. apply Na. rewrite <- (firstn_skipn k l). apply in_or_app. now left.
Qed.
Lemma asc_firstn {T} (lt : T -> T -> bool) k l : ascending lt l -> ascending lt (firstn k l).
Proof.
  intros A i j a b L Ha Hb. apply (A i j a b L).
  - rewrite <- (firstn_skipn k l). rewrite nth_error_app1; [assumption|]. apply nth_error_Some. congruence.
  - rewrite <- (firstn_skipn k l). rewrite nth_error_app1; [assumption|]. apply nth_error_Some. congruence.
Qed.
Lemma query_nearest {X T} (lt : T -> T -> bool) (dist : X -> X -> T) tr q k : weak_order lt ->
  match query lt dist tr q k with Ok l => nearest lt dist tr q k l | Err e => e = ValueError /\ length tr < k end.
Proof.
  intro W. unfold query. destruct (Nat.leb_spec k (length tr)) as [L|L]; [|now split].
  pose proof (fst_weak_order lt W) as W2.
  set (lt2 := fun a b : T * nat => lt (fst a) (fst b)) in *. set (s := np_sort lt2 (dist_pairs dist tr q)).
  pose proof (sort_perm lt2 (dist_pairs dist tr q)) as P. fold s in P. pose proof (sort_asc lt2 (dist_pairs dist tr q) W2) as A. fold s in A.
  assert (Ls : length s = length tr) by (rewrite (Permutation_length P); apply pairs_length).
  assert (ND : NoDup (map snd s)) by (apply (Permutation_NoDup (l := map snd (dist_pairs dist tr q))); [apply Permutation_sym, Permutation_map, P|rewrite pairs_ids; apply seq_NoDup]).
  split; [rewrite firstn_length; lia|]. split; [|split].
  - split; [rewrite firstn_map_comm || rewrite <- firstn_map; now apply NoDup_firstn|].
    intros d i H. apply (pairs_spec dist tr q). apply (Permutation_in _ P). rewrite <- (firstn_skipn k s). apply in_or_app. now left.
  - rewrite <- firstn_map. apply asc_firstn. intros i j a b Lij Ha Hb. rewrite nth_error_map in Ha, Hb.
    destruct (nth_error s i) as [x|] eqn:Ni; [|discriminate]. destruct (nth_error s j) as [y|] eqn:Nj; [|discriminate]. cbn in Ha, Hb.
    specialize (A i j x y Lij Ni Nj). unfold lt2 in A. congruence.
  - intros i p Np NI d Hd. apply in_map_iff in Hd as ([d' i'] & E & Hd). cbn in E. subst d'.
    assert (I : In (dist q p, i) s) by (apply (Permutation_in _ (Permutation_sym P)); apply pairs_spec; now exists p).
    rewrite <- (firstn_skipn k s) in I. apply in_app_iff in I as [I|I]; [exfalso; apply NI; apply in_map_iff; now exists (dist q p, i)|].
    apply In_nth_error in I as (b & Nb). apply In_nth_error in Hd as (a & Na).
    assert (La : a < k) by (assert (a < length (firstn k s)) by (apply nth_error_Some; congruence); rewrite firstn_length in *; lia).
    assert (Na' : nth_error s a = Some (d, i')) by (rewrite <- (firstn_skipn k s); rewrite nth_error_app1; [assumption|apply nth_error_Some; congruence]).
    assert (Nb' : nth_error s (length (firstn k s) + b) = Some (dist q p, i)).
    { rewrite <- (firstn_skipn k s) at 1. rewrite nth_error_app2 by lia. replace (length (firstn k s) + b - length (firstn k s)) with b by lia. assumption. }
    rewrite firstn_length in Nb'. specialize (A a (Nat.min k (length s) + b) (d, i') (dist q p, i)). unfold lt2 in A. apply A; auto. lia.
Qed.
Lemma radius_spec {X T} (le : T -> T -> bool) (dist : X -> X -> T) tr q r :
  neighbours dist tr q (query_radius le dist tr q r) /\
  forall i p, nth_error tr i = Some p -> (In i (map snd (query_radius le dist tr q r)) <-> le (dist q p) r = true).
Proof.
  unfold query_radius. split; [split|].
  - assert (N : NoDup (map snd (dist_pairs dist tr q))) by (rewrite pairs_ids; apply seq_NoDup). revert N. generalize (dist_pairs dist tr q). clear.
    induction l as [|a l IH]; cbn; intro N; [constructor|]. inversion N; subst. destruct (le (fst a) r); cbn; auto. constructor; auto.
    intro H. apply H1. apply in_map_iff in H as (x & E & Hx). apply filter_In in Hx as [Hx _]. apply in_map_iff. now exists x.
  - intros d i H. apply filter_In in H as [H _]. now apply pairs_spec.
  - intros i p Np. rewrite in_map_iff. split.
    + intros ([d j] & E & H). cbn in E. subst j. apply filter_In in H as [H L]. apply pairs_spec in H as (p' & Np' & ->). cbn in L. congruence.
    + intro L. exists (dist q p, i). split; [reflexivity|]. apply filter_In. split; [|assumption]. apply pairs_spec. now exists p.
Qed.

Local Open Scope R_scope.
(** ** sums *)
Lemma total_map_mul {A} c (f : A -> R) l : total (map (fun a => c * f a) l) = c * total (map f l).
Proof. induction l; cbn; [ring|]. unfold total in IHl. rewrite IHl. ring. Qed.
Lemma total_repeat c n : total (repeat c n) = INR n * c.
Proof. induction n; [cbn; ring|]. rewrite S_INR. cbn [repeat total fold_right]. unfold total in IHn. rewrite IHn. ring. Qed.
Lemma total_const {A} c (l : list A) : total (map (fun _ => c) l) = INR (length l) * c.
Proof. induction l; [cbn; ring|]. cbn [length]. rewrite S_INR. cbn [map total fold_right]. unfold total in IHl. rewrite IHl. ring. Qed.
Lemma total_ext {A} (f g : A -> R) l : (forall a, In a l -> f a = g a) -> total (map f l) = total (map g l).
Proof. intro H. f_equal. now apply map_ext_in. Qed.
Lemma total_nonneg l : Forall (fun a => 0 <= a) l -> 0 <= total l.
Proof. induction 1; cbn; [lra|]. unfold total in *. lra. Qed.
Lemma total_zip {A} (f g : A -> R) (h : R -> R -> R) l : zipwith h (map f l) (map g l) = map (fun a => h (f a) (g a)) l.
Proof. induction l; cbn; [reflexivity|]. now rewrite IHl. Qed.
Lemma weights_sum n w : (0 < n)%nat -> (match w with Some w => length w = n /\ total w <> 0 | None => True end) ->
  length (fit_weights n w) = n /\ total (fit_weights n w) = 1.
Proof.
  intros P H. assert (0 < INR n) by now apply lt_0_INR. destruct w as [w|]; cbn [fit_weights].
  - destruct H as [L NZ]. rewrite map_length. split; [assumption|]. 
    rewrite (total_ext _ (fun a => / total w * a)) by (intros; unfold Rdiv; ring). rewrite total_map_mul, map_id. field. assumption.
  - rewrite repeat_length, total_repeat. split; [reflexivity|]. field. lra.
Qed.
Lemma fit_uniform n i : (i < n)%nat -> at_id (fit_weights n None) i = 1 / INR n.
Proof. intro L. unfold at_id, fit_weights. apply nth_repeat || (rewrite nth_indep with (d' := 1 / INR n) by (rewrite repeat_length; lia); apply nth_repeat). Qed.
Lemma ids_valid {X} (dist : X -> X -> R) tr q nb p : neighbours dist tr q nb -> In p nb -> (snd p < length tr)%nat.
Proof. intros [_ H] I. destruct p as [d i]. destruct (H d i I) as (x & N & _). apply nth_error_Some. cbn. congruence. Qed.
Lemma uniform_weights {X} (dist : X -> X -> R) tr q nb : neighbours dist tr q nb ->
  map (fun p => at_id (fit_weights (length tr) None) (snd p)) nb = map (fun _ => 1 / INR (length tr)) nb.
Proof. intro N. apply map_ext_in. intros p I. apply fit_uniform. now apply (ids_valid dist tr q nb). Qed.
(** The kernel drops out when all weights are the same. *)
Lemma kernel_drops c (k : kernel) (l : list (R * nat)) : total (map (fun p => kernel_at k (fst p)) l) <> 0 ->
  total (zipwith (fun a b => a * (b * (INR (length l) / total (map (fun p => kernel_at k (fst p)) l)))) (map (fun _ => c) l) (map (fun p => kernel_at k (fst p)) l))
  = total (map (fun _ => c) l).
Proof.
  intro NZ. set (s := total (map (fun p => kernel_at k (fst p)) l)) in *. rewrite total_zip.
  rewrite (total_ext _ (fun p => (c * INR (length l) / s) * kernel_at k (fst p))) by (intros; field; assumption).
  rewrite total_map_mul. fold s. rewrite total_const. field. assumption.
Qed.
Lemma max_dx_spec nb : (nb = [] -> neighbor_max_dx nb = 0) /\
  (nb <> [] -> In (neighbor_max_dx nb) (map fst nb)) /\ (forall d, In d (map fst nb) -> d <= neighbor_max_dx nb).
Proof.
  destruct nb as [|p nb]; [split; [reflexivity|split; [congruence|intros d []]]|]. split; [discriminate|]. cbn [neighbor_max_dx].
  assert (G : forall m, m <= fold_left (fun m p => Rmax m (fst p)) nb m /\ (fold_left (fun m p => Rmax m (fst p)) nb m = m \/ In (fold_left (fun m p => Rmax m (fst p)) nb m) (map fst nb)) /\ (forall d, In d (map fst nb) -> d <= fold_left (fun m p => Rmax m (fst p)) nb m)).
  { induction nb as [|a nb IH]; intro m; cbn [fold_left map]; [split; [lra|split; [now left|intros d []]]|].
    destruct (IH (Rmax m (fst a))) as (G1 & G2 & G3). pose proof (Rmax_l m (fst a)). pose proof (Rmax_r m (fst a)). split; [lra|]. split.
    - destruct G2 as [E|E]; [|right; now right]. rewrite E. unfold Rmax. destruct (Rle_dec m (fst a)); [right; now left|now left].
    - intros d [<-|Hd]; [lra|]. now apply G3. }
  destruct (G (fst p)) as (G1 & G2 & G3). split.
  - intros _. cbn [map]. destruct G2 as [E|E]; [left; congruence|now right].
  - intros d [<-|Hd]; [lra|now apply G3].
Qed.
Lemma members_nb {X B} (f : R -> R -> B) (dist : X -> X -> R) tr w q r : length (weights_or_1 tr w) = length tr ->
  map (fun p => f (fst p) (at_id (weights_or_1 tr w) (snd p))) (query_radius Rleb dist tr q r) =
  map (fun p => f (dist q (fst p)) (snd p)) (ball_members dist tr w q r).
Proof.
  unfold query_radius, dist_pairs, ball_members. generalize (weights_or_1 tr w) as ws. intros ws L.
  assert (G : forall pre : list R, map (fun p => f (fst p) (at_id (pre ++ ws) (snd p))) (filter (fun p => Rleb (fst p) r) (combine (map (dist q) tr) (seq (length pre) (length tr))))
    = map (fun p => f (dist q (fst p)) (snd p)) (filter (fun p => Rleb (dist q (fst p)) r) (combine tr ws))).
  { revert ws L. induction tr as [|x tr IH]; intros [|a ws] L pre; try discriminate; [reflexivity|]. cbn [map length seq combine filter fst].
    specialize (IH ws (f_equal pred L) (pre ++ [a])). rewrite app_length, Nat.add_1_r, <- app_assoc in IH. cbn [app] in IH.
    destruct (Rleb (dist q x) r); cbn [map fst snd]; rewrite IH; [|reflexivity]. f_equal. f_equal. unfold at_id. rewrite app_nth2, Nat.sub_diag by lia. reflexivity. }
  exact (G []).
Qed.
Lemma fit_at {X} (tr : list X) w i : usable tr w -> (i < length tr)%nat -> at_id (fit_weights (length tr) w) i = at_id (weights_or_1 tr w) i / total (weights_or_1 tr w).
Proof.
  intros [NE U] L. unfold weights_or_1. destruct w as [w|].
  - destruct U as [Lw _]. unfold at_id, fit_weights. rewrite <- (map_nth (fun a => a / total w)). apply nth_indep. rewrite map_length. lia.
  - rewrite fit_uniform by assumption. rewrite total_repeat, Rmult_1_r. f_equal. unfold at_id. rewrite (nth_indep _ 0 1) by (rewrite repeat_length; lia). symmetry. apply nth_repeat.
Qed.
Lemma usable_facts {X} (tr : list X) w : usable tr w -> length (weights_or_1 tr w) = length tr /\ total (weights_or_1 tr w) <> 0.
Proof.
  intros [NE U]. unfold weights_or_1. destruct w as [w|]; [assumption|]. rewrite repeat_length, total_repeat. split; [reflexivity|].
  rewrite Rmult_1_r. apply not_0_INR. destruct tr; [congruence|discriminate].
Qed.
Lemma radius_neighbours {X} (dist : X -> X -> R) tr q r : neighbours dist tr q (query_radius Rleb dist tr q r).
Proof. apply radius_spec. Qed.
Lemma local_plain {X} (dist : X -> X -> R) n tr w r q : usable tr w ->
  by_local_kernel dist n tr w None r q = ediv (total (map snd (ball_members dist tr w q r)) / total (weights_or_1 tr w)) (ball n r).
Proof.
  intro U. destruct (usable_facts tr w U) as [L NZ]. unfold by_local_kernel, local_density. f_equal.
  pose proof (radius_neighbours dist tr q r) as N.
  rewrite (map_ext_in _ (fun p => / total (weights_or_1 tr w) * at_id (weights_or_1 tr w) (snd p))).
  - rewrite total_map_mul, (members_nb (fun _ a => a)) by assumption. unfold Rdiv. ring_simplify. f_equal.
  - intros p I. rewrite fit_at by (auto; now apply (ids_valid dist tr q _ p N)). unfold Rdiv. ring.
Qed.
Lemma local_kernel {X} (dist : X -> X -> R) n tr w k r q : usable tr w -> let m := ball_members dist tr w q r in
  let s := total (map (fun p => kernel_at k (dist q (fst p))) m) in
  by_local_kernel dist n tr w (Some k) r q =
  match m with [] => ediv 0 (ball n r) | _ => if Req_EM_T s 0 then ENaN
    else ediv (total (map (fun p => snd p * kernel_at k (dist q (fst p))) m) / (s / INR (length m)) / total (weights_or_1 tr w)) (ball n r) end.
Proof.
  intros U m s. destruct (usable_facts tr w U) as [L NZ]. pose proof (radius_neighbours dist tr q r) as N.
  unfold by_local_kernel, local_density. set (nb := query_radius Rleb dist tr q r) in *.
  assert (Lm : length nb = length m) by (pose proof (f_equal (@length R) (members_nb (fun _ a => a) dist tr w q r L)) as E; now rewrite !map_length in E).
  assert (Es : total (map (fun p => kernel_at k (fst p)) nb) = s) by (unfold s; f_equal; exact (members_nb (fun d _ => kernel_at k d) dist tr w q r L)).
  destruct nb as [|p0 nb'] eqn:Enb.
  - destruct m; [reflexivity|discriminate].
  - destruct m as [|m0 m'] eqn:Em; [discriminate|]. cbn zeta. rewrite <- Enb in *. rewrite Es. destruct (Req_EM_T s 0) as [|Ns]; [reflexivity|]. f_equal.
    rewrite total_zip.
    rewrite (total_ext _ (fun p => (INR (length nb) / s / total (weights_or_1 tr w)) * (at_id (weights_or_1 tr w) (snd p) * kernel_at k (fst p)))).
    2:{ intros p I. rewrite fit_at by (auto; now apply (ids_valid dist tr q _ p N)). field. split; assumption. }
    rewrite total_map_mul, Lm. rewrite <- Em.
    replace (total (map (fun p => at_id (weights_or_1 tr w) (snd p) * kernel_at k (fst p)) nb)) with (total (map (fun p => snd p * kernel_at k (dist q (fst p))) m)).
    + assert (INR (length m) <> 0) by (apply not_0_INR; rewrite Em; discriminate). rewrite <- Em in *. field. repeat split; assumption.
    + f_equal. rewrite Enb. rewrite <- Em in *. symmetry. rewrite <- Enb. unfold m. rewrite <- (members_nb (fun d a => a * kernel_at k d) dist tr w q r L). fold nb. now rewrite Enb.
Qed.
