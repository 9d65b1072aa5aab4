(** C40: the periodic tree (kd_tree.py) over the real numbers.  Vocabulary: TreeSpec.v. *)
From Coq Require Import Reals Lra Lia List.
From Verif Require Import Base FrameSpec FrameModel FrameProofs TreeSpec TreeModel TreeProofs.
Import ListNotations.
Local Open Scope R_scope. Local Open Scope list_scope.

(** The distance reported for two points of the box is the distance to the nearest periodic image. *)
Theorem C40_min_image l a b : 0 < l -> length a = length b -> in_cube l a -> in_cube l b -> nearest_image l a b (pdist l a b).
Proof.
  intros Hl L Ha Hb. split.
  - intros k Lk. rewrite <- norm_euclid. apply pdist_min; assumption.
  - destruct (pdist_attained l a b Hl L Ha Hb) as (k & Lk & E). exists k. split; [exact Lk|]. rewrite <- norm_euclid. exact E.
Qed.
Print Assumptions C40_min_image.
(** It is a metric on the box. *)
Theorem C40_metric l a b c : 0 < l -> length a = length b -> length b = length c -> in_cube l a -> in_cube l b -> in_cube l c ->
  0 <= pdist l a b /\ (pdist l a b = 0 <-> a = b) /\ pdist l a b = pdist l b a /\ pdist l a c <= pdist l a b + pdist l b c.
Proof.
  intros Hl L1 L2 Ha Hb Hc. split; [apply norm_nonneg|]. split; [apply pdist_zero; assumption|]. split; [apply pdist_sym; assumption|]. apply pdist_tri; assumption.
Qed.
Print Assumptions C40_metric.
(** At most half the box per axis. *)
Theorem C40_bound l a b : 0 < l -> length a = length b -> in_cube l a -> in_cube l b -> pdist l a b * pdist l a b <= INR (length a) * (l / 2 * (l / 2)).
Proof. exact (pdist_half l a b). Qed.
Print Assumptions C40_bound.
(** The query: a centre outside the box is rejected; inside, with scipy's ball query returning exactly the points whose
    nearest image is within r, the result lists exactly those, and the distances asked for are the nearest-image
    distances, hence at most r. *)
Theorem C40_query ball l data x r return_d : 0 < l -> (forall p, In p data -> length p = length x /\ in_cube l p) ->
  (forall i, In i (ball x r) <-> exists p, nth_error data i = Some p /\ exists d, nearest_image l x p d /\ d <= r) ->
  match query_r_1 ball l data x r return_d with
  | Ok (ids, ds) => in_cube l x /\ (forall i, In i ids <-> exists p, nth_error data i = Some p /\ exists d, nearest_image l x p d /\ d <= r) /\
      match ds with
      | None => return_d = false
      | Some ds => return_d = true /\ length ds = length ids /\
          forall j i d, nth_error ids j = Some i -> nth_error ds j = Some d -> exists p, nth_error data i = Some p /\ nearest_image l x p d /\ d <= r
      end
  | Err e => e = AssertionError /\ ~ in_cube l x
  end.
Proof.
  intros Hl Hd Hb. unfold query_r_1. destruct (in_box l x) eqn:B.
  - pose proof (proj1 (in_box_spec l x) B) as Hx. split; [exact Hx|]. split; [exact Hb|]. destruct return_d; [|reflexivity]. split; [reflexivity|]. split; [apply map_length|].
    intros j i d Hi Hdj. rewrite nth_error_map, Hi in Hdj. simpl in Hdj. injection Hdj as <-.
    destruct (proj1 (Hb i) (nth_error_In _ _ Hi)) as (p & Hp & d & (D1 & D2) & Dr). exists p. split; [exact Hp|]. rewrite (nth_error_nth _ _ _ Hp).
    destruct (Hd p (nth_error_In _ _ Hp)) as [Lp Cp]. pose proof (C40_min_image l x p Hl (eq_sym Lp) Hx Cp) as M. split; [exact M|].
    destruct M as (_ & k & Lk & Ek). destruct D2 as (k' & Lk' & Ek'). pose proof (pdist_min l x p k' Hl (eq_sym Lp) Lk' Hx Cp) as Q. rewrite norm_euclid, <- Ek' in Q. lra.
  - split; [reflexivity|]. intros Hx. apply (proj2 (in_box_spec l x)) in Hx. congruence.
Qed.
Print Assumptions C40_query.
(** Non-vacuous: in a box of 10, the points 9 and 1 are 2 apart. *)
Example C40_nonvacuous : pdist 10 [9] [1] = 2 /\ in_cube 10 [9] /\ in_cube 10 [1].
Proof.
  split; [|split; intros v [<-|[]]; lra]. unfold pdist, sub_vec, norm. simpl. unfold min_image. destruct (Rlt_dec (/ 2 * 10) (1 - 9)); [lra|]. destruct (Rlt_dec (1 - 9) (- (/ 2 * 10))); [|lra].
  simpl. replace ((1 - 9 + 10) * (1 - 9 + 10) + 0) with (2 * 2) by lra. apply sqrt_square. lra.
Qed.
