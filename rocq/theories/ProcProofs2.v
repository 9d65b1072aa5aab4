From Coq Require Import QArith Lqa Qabs Qminmax.
From Verif Require Import Base OrderSpec BinSpec BinModel BinProofs BinProofs2 BinProofs3 ProcSpec ProcModel ProcProofs.
Local Open Scope list_scope. Local Open Scope nat_scope.

(** ** num.py *)
Ltac num_cases := repeat match goal with
  | H : context[Qltb ?a ?b] |- _ => rewrite Qltb_lt in H
  | |- context[Qltb ?a ?b] => let E := fresh in destruct (Qltb a b) eqn:E; [rewrite Qltb_lt in E|rewrite <- not_true_iff_false, Qltb_lt in E]
  end.
Lemma bound_array_map lo hi copy x : bound_array lo hi copy x = (map (bound_scalar lo hi) x, if copy then x else map (bound_scalar lo hi) x).
Proof.
  assert (G : (match hi with Some hi => map (fun v => if nlt hi v then hi else v) (match lo with Some lo => map (fun v => if nlt v lo then lo else v) x | None => x end)
     | None => match lo with Some lo => map (fun v => if nlt v lo then lo else v) x | None => x end end) = map (bound_scalar lo hi) x).
  { destruct lo as [lo|], hi as [hi|]; unfold bound_scalar; rewrite ?map_map; try reflexivity. symmetry. apply map_id. }
  unfold bound_array. rewrite G. reflexivity.
Qed.
Lemma nlt_irrefl a : nlt a a = false.
Proof. destruct a; simpl; try reflexivity. apply not_true_iff_false. rewrite Qltb_lt. lra. Qed.
Lemma nlt_trans a b c : nlt a b = true -> nlt b c = true -> nlt a c = true.
Proof. destruct a, b, c; simpl; try discriminate; try reflexivity. rewrite !Qltb_lt. intros; lra. Qed.
Lemma nlt_negtrans a b c : b <> NaN -> nlt a b = false -> nlt b c = false -> nlt a c = false.
Proof. intros N. destruct a, b, c; simpl; try discriminate; try reflexivity; try congruence. rewrite <- !not_true_iff_false, !Qltb_lt. intros; lra. Qed.
Lemma nle_spec a b : nle a b = true <-> a <> NaN /\ b <> NaN /\ nlt b a = false.
Proof. destruct a, b; simpl; split; intros H; try discriminate; try reflexivity; repeat split; try congruence; try (destruct H as (? & ? & ?); congruence);
  try (apply negb_true_iff in H; exact H). destruct H as (_ & _ & H). rewrite H. reflexivity. Qed.
(** Result of bounding: in the interval, unless the input is NaN, which is passed through. *)
Lemma bound_in lo hi x : lo <> Some NaN -> hi <> Some NaN -> (forall l h, lo = Some l -> hi = Some h -> nlt h l = false) ->
  let r := bound_scalar lo hi x in
  (r = NaN <-> x = NaN) /\ (forall l, lo = Some l -> nlt r l = false) /\ (forall h, hi = Some h -> nlt h r = false) /\
  ((forall l, lo = Some l -> nlt x l = false) -> (forall h, hi = Some h -> nlt h x = false) -> r = x).
Proof.
  intros Nl Nh LH. unfold bound_scalar. destruct lo as [l|], hi as [h|].
  - specialize (LH l h eq_refl eq_refl). assert (l <> NaN) by congruence. assert (h <> NaN) by congruence.
    destruct (nlt x l) eqn:E1.
    + rewrite LH. split; [split; [congruence|intros ->; discriminate]|]. split; [intros l' E; injection E as <-; apply nlt_irrefl|].
      split; [intros h' E; injection E as <-; exact LH|]. intros A _. specialize (A l eq_refl). congruence.
    + destruct (nlt h x) eqn:E2.
      * split; [split; [congruence|intros ->; destruct h; discriminate]|]. split; [intros l' E; injection E as <-; exact LH|].
        split; [intros h' E; injection E as <-; apply nlt_irrefl|]. intros _ A. specialize (A h eq_refl). congruence.
      * split; [tauto|]. split; [intros l' E; injection E as <-; exact E1|]. split; [intros h' E; injection E as <-; exact E2|reflexivity].
  - assert (l <> NaN) by congruence. destruct (nlt x l) eqn:E1.
    + split; [split; [congruence|intros ->; discriminate]|]. split; [intros l' E; injection E as <-; apply nlt_irrefl|]. split; [discriminate|].
      intros A _. specialize (A l eq_refl). congruence.
    + split; [tauto|]. split; [intros l' E; injection E as <-; exact E1|]. split; [discriminate|reflexivity].
  - assert (h <> NaN) by congruence. destruct (nlt h x) eqn:E2.
    + split; [split; [congruence|intros ->; destruct h; discriminate]|]. split; [discriminate|].
      split; [intros h' E; injection E as <-; apply nlt_irrefl|]. intros _ A. specialize (A h eq_refl). congruence.
    + split; [tauto|]. split; [discriminate|]. split; [intros h' E; injection E as <-; exact E2|reflexivity].
  - split; [tauto|]. split; [discriminate|]. split; [discriminate|reflexivity].
Qed.
Lemma bound_idem lo hi x : lo <> Some NaN -> hi <> Some NaN -> (forall l h, lo = Some l -> hi = Some h -> nlt h l = false) ->
  bound_scalar lo hi (bound_scalar lo hi x) = bound_scalar lo hi x.
Proof.
  intros A B C. destruct (bound_in lo hi x A B C) as (_ & L & H & _). destruct (bound_in lo hi (bound_scalar lo hi x) A B C) as (_ & _ & _ & I). auto.
Qed.
Lemma bound_mono lo hi x y : lo <> Some NaN -> hi <> Some NaN -> nle x y = true -> nle (bound_scalar lo hi x) (bound_scalar lo hi y) = true.
Proof.
  intros Nl Nh. rewrite !nle_spec. intros (Nx & Ny & L).
  assert (S1 : forall m x y, m <> NaN -> x <> NaN -> y <> NaN -> nlt y x = false ->
     let x' := if nlt x m then m else x in let y' := if nlt y m then m else y in x' <> NaN /\ y' <> NaN /\ nlt y' x' = false).
  { clear. intros m x y Nm Nx Ny L. simpl. destruct (nlt x m) eqn:E1, (nlt y m) eqn:E2; repeat split; try assumption; try apply nlt_irrefl.
    eapply nlt_negtrans; [exact Nx| |exact E1] || idtac.
    destruct (nlt m x) eqn:E3; [|reflexivity]. rewrite (nlt_trans y m x E2 E3) in L. discriminate. }
  assert (S2 : forall m x y, m <> NaN -> x <> NaN -> y <> NaN -> nlt y x = false ->
     let x' := if nlt m x then m else x in let y' := if nlt m y then m else y in x' <> NaN /\ y' <> NaN /\ nlt y' x' = false).
  { clear. intros m x y Nm Nx Ny L. simpl. destruct (nlt m x) eqn:E1, (nlt m y) eqn:E2; repeat split; try assumption; try apply nlt_irrefl.
    destruct (nlt y m) eqn:E3; [|reflexivity]. rewrite (nlt_trans y m x E3 E1) in L. discriminate. }
  unfold bound_scalar. destruct lo as [l|], hi as [h|]; auto.
  - destruct (S1 l x y) as (P1 & P2 & P3); [congruence|assumption..|]. apply (S2 h); [congruence|assumption..].
  - apply (S1 l); [congruence|assumption..].
  - apply (S2 h); [congruence|assumption..].
Qed.

(** ** filter.py *)
Lemma range_filter_eq min max x : range_filter min max x = filter (range_mask min max) x.
Proof.
  unfold range_filter. induction x as [|a x IH]; [reflexivity|]. cbn [map combine filter snd]. destruct (range_mask min max a); cbn [map fst]; rewrite IH; reflexivity.
Qed.

(** ** frame.py PeriodicBox *)
Lemma masked_map_nth {A} (f : A -> A) m x i : length m = length x ->
  nth_error (masked_map f m x) i = match nth_error x i with Some v => Some (if nth i m false then f v else v) | None => None end.
Proof.
  intros L. unfold masked_map. rewrite nth_error_map. destruct (nth_error x i) as [v|] eqn:E.
  - assert (i < length x) by (apply nth_error_Some; congruence).
    rewrite (nth_error_combine x m i v (nth i m false) E) by (apply nth_error_nth'; lia). reflexivity.
  - apply nth_error_None in E. replace (nth_error (combine x m) i) with (@None (A * bool)); [reflexivity|].
    symmetry. apply nth_error_None. rewrite combine_length. lia.
Qed.
Lemma masked_map_len {A} (f : A -> A) m x : length m = length x -> length (masked_map f m x) = length x.
Proof. intros L. unfold masked_map. rewrite map_length, combine_length. lia. Qed.
Lemma combine_mask_len m w : (forall l, w = Some l -> length l = length m) -> length (combine_mask m w) = length m.
Proof. intros H. destruct w as [w|]; [|reflexivity]. simpl. rewrite map_length, combine_length, (H w eq_refl). lia. Qed.
Lemma combine_mask_nth m w i : (forall l, w = Some l -> length l = length m) -> i < length m -> nth i (combine_mask m w) false = nth i m false && sel_at w i.
Proof.
  intros H L. destruct w as [w|]; simpl; [|rewrite andb_true_r; reflexivity].
  apply nth_error_nth. rewrite nth_error_map.
  rewrite (nth_error_combine m w i (nth i m false) (nth i w false)); [reflexivity| |]; apply nth_error_nth'; [assumption|]. rewrite (H w eq_refl). assumption.
Qed.
(** One coordinate of shift_in. *)
Definition shift_in1 {T} (A : arith T) l v : T :=
  let v1 := if a_lt A v (a_zero A) then a_add A v l else v in if a_le A l v1 then a_sub A v1 l else v1.
Lemma shift_in_nth {T} (A : arith T) l w copy x i : (forall m, w = Some m -> length m = length x) ->
  nth_error (fst (shift_in A l w copy x)) i = option_map (fun v => if sel_at w i then shift_in1 A l v else v) (nth_error x i).
Proof.
  intros H. unfold shift_in. cbn [fst]. set (m1 := combine_mask (map (fun v => a_lt A v (a_zero A)) x) w).
  assert (L1 : length m1 = length x) by (unfold m1; rewrite combine_mask_len; rewrite map_length; auto).
  set (x1 := masked_map _ m1 x). assert (Lx : length x1 = length x) by (apply masked_map_len; assumption).
  set (m2 := combine_mask _ w).
  assert (L2 : length m2 = length x1) by (unfold m2; rewrite combine_mask_len; rewrite map_length; [reflexivity|rewrite Lx; auto]).
  rewrite masked_map_nth by assumption. unfold x1 at 1. rewrite masked_map_nth by assumption.
  destruct (nth_error x i) as [v|] eqn:E; [|reflexivity]. cbn [option_map].
  assert (Li : i < length x) by (apply nth_error_Some; congruence).
  assert (E1 : nth i m1 false = a_lt A v (a_zero A) && sel_at w i).
  { unfold m1. rewrite combine_mask_nth by (rewrite map_length; auto). f_equal. apply nth_error_nth. rewrite nth_error_map, E. reflexivity. }
  assert (Ex1 : nth_error x1 i = Some (if nth i m1 false then a_add A v l else v)) by (unfold x1; rewrite masked_map_nth by assumption; rewrite E; reflexivity).
  assert (E2 : nth i m2 false = a_le A l (if nth i m1 false then a_add A v l else v) && sel_at w i).
  { unfold m2. rewrite combine_mask_nth by (rewrite map_length, Lx; auto). f_equal. apply nth_error_nth. rewrite nth_error_map, Ex1. reflexivity. }
  rewrite E2, E1. unfold shift_in1. destruct (sel_at w i); rewrite ?andb_true_r, ?andb_false_r; reflexivity.
Qed.
Lemma shift_in_len {T} (A : arith T) l w copy x : (forall m, w = Some m -> length m = length x) -> length (fst (shift_in A l w copy x)) = length x.
Proof.
  intros H. unfold shift_in. cbn [fst]. set (m1 := combine_mask (map (fun v => a_lt A v (a_zero A)) x) w).
  assert (L1 : length m1 = length x) by (unfold m1; rewrite combine_mask_len; rewrite map_length; auto).
  assert (Lx : length (masked_map (fun v => a_add A v l) m1 x) = length x) by (apply masked_map_len; assumption).
  rewrite masked_map_len; [assumption|]. rewrite combine_mask_len; rewrite map_length; [reflexivity|]. rewrite Lx. auto.
Qed.
Lemma shift_in1_exact l v : (0 < l)%Q ->
  let r := shift_in1 arithQ l v in
  (exists k, (k = -1 \/ k = 0 \/ k = 1)%Z /\ (r == v + inject_Z k * l)%Q) /\
  ((- l <= v)%Q -> (v < 2 * l)%Q -> (0 <= r)%Q /\ (r < l)%Q) /\ ((0 <= v)%Q -> (v < l)%Q -> r = v).
Proof.
  intros Hl. unfold shift_in1, arithQ; cbn [a_lt a_le a_add a_sub a_zero].
  destruct (Qltb v 0) eqn:E1.
  - rewrite Qltb_lt in E1. destruct (Qle_bool l (v + l)) eqn:E2.
    + apply Qle_bool_iff in E2. lra.
    + rewrite <- not_true_iff_false, Qle_bool_iff in E2. split; [exists 1%Z; split; [auto|change (inject_Z 1) with 1%Q; lra]|]. split; intros; lra.
  - rewrite <- not_true_iff_false, Qltb_lt in E1. destruct (Qle_bool l v) eqn:E2.
    + apply Qle_bool_iff in E2. split; [exists (-1)%Z; split; [auto|change (inject_Z (-1)) with (-1#1)%Q; lra]|]. split; intros; lra.
    + rewrite <- not_true_iff_false, Qle_bool_iff in E2. split; [exists 0%Z; split; [auto|change (inject_Z 0) with 0%Q; lra]|]. split; intros; [lra|reflexivity].
Qed.
Definition shift_to1 {T} (A : arith T) l r v : T :=
  let dx := a_sub A v r in
  let v1 := if a_lt A dx (a_opp A (a_half A l)) then a_add A v l else v in if a_le A (a_half A l) dx then a_sub A v1 l else v1.
Lemma shift_to_nth {T} (A : arith T) ref l w copy x i v r : length ref = length x -> (forall m, w = Some m -> length m = length x) ->
  nth_error x i = Some v -> nth_error ref i = Some r ->
  nth_error (fst (shift_to A ref l w copy x)) i = Some (if sel_at w i then shift_to1 A l r v else v).
Proof.
  intros LR H Ev Er. unfold shift_to. cbn [fst].
  set (dx := map (fun '(v, r) => a_sub A v r) (combine x ref)).
  assert (Ld : length dx = length x) by (unfold dx; rewrite map_length, combine_length; lia).
  assert (Ed : nth_error dx i = Some (a_sub A v r)) by (unfold dx; rewrite nth_error_map, (nth_error_combine _ _ _ _ _ Ev Er); reflexivity).
  set (m1 := combine_mask (map (fun d => a_lt A d _) dx) w). set (m2 := combine_mask _ w).
  assert (L1 : length m1 = length x) by (unfold m1; rewrite combine_mask_len; rewrite map_length; rewrite ?Ld; auto).
  assert (L2 : length m2 = length x) by (unfold m2; rewrite combine_mask_len; rewrite map_length; rewrite ?Ld; auto).
  rewrite masked_map_nth by (rewrite masked_map_len; assumption). rewrite masked_map_nth by assumption. rewrite Ev.
  assert (Li : i < length x) by (apply nth_error_Some; congruence).
  assert (E1 : nth i m1 false = a_lt A (a_sub A v r) (a_opp A (a_half A l)) && sel_at w i).
  { unfold m1. rewrite combine_mask_nth by (rewrite map_length, Ld; auto). f_equal. apply nth_error_nth. rewrite nth_error_map, Ed. reflexivity. }
  assert (E2 : nth i m2 false = a_le A (a_half A l) (a_sub A v r) && sel_at w i).
  { unfold m2. rewrite combine_mask_nth by (rewrite map_length, Ld; auto). f_equal. apply nth_error_nth. rewrite nth_error_map, Ed. reflexivity. }
  rewrite E2, E1. unfold shift_to1. destruct (sel_at w i); rewrite ?andb_true_r, ?andb_false_r; reflexivity.
Qed.
Lemma inject_nonzero_cases k : (k = 0 \/ 1 <= k \/ k <= -1)%Z.
Proof. lia. Qed.
Lemma shift_to1_exact l r v : (0 < l)%Q ->
  let o := shift_to1 arithQ l r v in
  (exists k, (k = -1 \/ k = 0 \/ k = 1)%Z /\ (o == v + inject_Z k * l)%Q) /\
  ((- (3 # 2) * l <= v - r)%Q -> (v - r < (3 # 2) * l)%Q ->
     (- (1 # 2) * l <= o - r)%Q /\ (o - r < (1 # 2) * l)%Q /\ forall k, (Qabs (o - r) <= Qabs (o + inject_Z k * l - r))%Q).
Proof.
  intros Hl. cbn zeta. set (o := shift_to1 arithQ l r v).
  assert (A : (exists k, (k = -1 \/ k = 0 \/ k = 1)%Z /\ (o == v + inject_Z k * l)%Q) /\
    ((- (3 # 2) * l <= v - r)%Q -> (v - r < (3 # 2) * l)%Q -> (- (1 # 2) * l <= o - r)%Q /\ (o - r < (1 # 2) * l)%Q)).
  { unfold o, shift_to1, arithQ; cbn [a_lt a_le a_add a_sub a_zero a_half a_opp].
    destruct (Qltb (v - r) _) eqn:E1; [rewrite Qltb_lt in E1|rewrite <- not_true_iff_false, Qltb_lt in E1];
    destruct (Qle_bool _ (v - r)) eqn:E2; [rewrite Qle_bool_iff in E2|rewrite <- not_true_iff_false, Qle_bool_iff in E2|rewrite Qle_bool_iff in E2|rewrite <- not_true_iff_false, Qle_bool_iff in E2].
    - lra.
    - split; [exists 1%Z; split; [auto|change (inject_Z 1) with 1%Q; lra]|]. intros; lra.
    - split; [exists (-1)%Z; split; [auto|change (inject_Z (-1)) with (-1#1)%Q; lra]|]. intros; lra.
    - split; [exists 0%Z; split; [auto|change (inject_Z 0) with 0%Q; lra]|]. intros; lra. }
  destruct A as [A1 A2]. split; [exact A1|]. intros H1 H2. destruct (A2 H1 H2) as [B1 B2]. split; [exact B1|]. split; [exact B2|].
  intros k. destruct (inject_nonzero_cases k) as [->|[K|K]].
  - change (inject_Z 0) with 0%Q. setoid_replace (o + 0 * l - r)%Q with (o - r)%Q by ring. apply Qle_refl.
  - assert (1 <= inject_Z k)%Q by (change 1%Q with (inject_Z 1); rewrite <- Zle_Qle; assumption).
    assert (l <= inject_Z k * l)%Q by nra. apply Qabs_case; intros; apply Qabs_case; intros; lra.
  - assert (inject_Z k <= -1 # 1)%Q by (change (-1 # 1)%Q with (inject_Z (-1)); rewrite <- Zle_Qle; assumption).
    assert (inject_Z k * l <= - l)%Q by nra. apply Qabs_case; intros; apply Qabs_case; intros; lra.
Qed.
Lemma test_bound_spec l w x : (forall m, w = Some m -> length m = length x) ->
  (test_bound arithQ l w x = true <-> forall i v, nth_error x i = Some v -> sel_at w i = true -> (0 <= v)%Q /\ (v < l)%Q).
Proof.
  intros H. unfold test_bound. destruct w as [w|]; simpl sel_at.
  - rewrite forallb_forall. split.
    + intros F i v Hv Hw. assert (Hi : i < length x) by (apply nth_error_Some; congruence).
      specialize (F v). rewrite andb_true_iff in F. cbn [a_le a_lt a_zero arithQ] in F. rewrite Qle_bool_iff, Qltb_lt in F. apply F.
      apply in_map_iff. exists (v, true). split; [reflexivity|]. apply filter_In. split; [|reflexivity].
      eapply nth_error_In. apply nth_error_combine; [eassumption|]. rewrite <- Hw. apply nth_error_nth'. rewrite (H w eq_refl). assumption.
    + intros F v Hv. apply in_map_iff in Hv. destruct Hv as ([v' b] & E & Hin). simpl in E. subst v'. apply filter_In in Hin. destruct Hin as [Hin Hb].
      simpl in Hb. subst b. apply In_nth_error in Hin. destruct Hin as [i Hi]. apply nth_error_combine_inv in Hi. destruct Hi as [Hi1 Hi2]. simpl in *.
      rewrite andb_true_iff, Qle_bool_iff, Qltb_lt. eapply F; [eassumption|]. apply nth_error_nth. assumption.
  - rewrite forallb_forall. split.
    + intros F i v Hv _. specialize (F v (nth_error_In _ _ Hv)). cbn [a_le a_lt a_zero arithQ] in F. rewrite andb_true_iff, Qle_bool_iff, Qltb_lt in F. exact F.
    + intros F v Hv. apply In_nth_error in Hv. destruct Hv as [i Hi]. cbn [a_le a_lt a_zero arithQ]. rewrite andb_true_iff, Qle_bool_iff, Qltb_lt. eapply F; eauto.
Qed.
Lemma shift_to_shape {T} (A : arith T) ref l w copy x : length ref = length x -> (forall m, w = Some m -> length m = length x) ->
  let '(out, after) := shift_to A ref l w copy x in length out = length x /\ after = if copy then x else out.
Proof.
  intros LR Hw. unfold shift_to. split; [|reflexivity].
  set (dx := map (fun '(v, r) => a_sub A v r) (combine x ref)).
  assert (Ld : length dx = length x) by (unfold dx; rewrite map_length, combine_length; lia).
  assert (forall f, length (combine_mask (map f dx) w) = length x) by (intros f; rewrite combine_mask_len; rewrite map_length; rewrite ?Ld; auto).
  rewrite masked_map_len; rewrite masked_map_len; auto.
Qed.
