From Coq Require Import QArith Qround Qabs Qminmax Lqa Permutation.
From Verif Require Import Base OrderSpec BinSpec BinModel BinProofs.
Local Open Scope list_scope. Local Open Scope nat_scope.

(** ** the common interface *)
Lemma asc_map_Fin es : ascending Qltb es -> ascending np_lt (map Fin es).
Proof.
  intros H i j a b L Ha Hb. rewrite nth_error_map in Ha, Hb.
  destruct (nth_error es i) as [p|] eqn:E1; [|discriminate]. destruct (nth_error es j) as [q|] eqn:E2; [|discriminate].
  injection Ha as <-. injection Hb as <-. simpl. eapply H; eassumption.
Qed.
Lemma made_edges b : made b -> length (x_edges b) = S (Z.to_nat (n_bins b)) /\ (1 <= n_bins b)%Z /\ ascending Qltb (x_edges b).
Proof.
  intros [(lo & hi & n & H)|(es & H)].
  - unfold make_es in H. destruct (es_new lo hi n) as [s|] eqn:E; [|discriminate]. injection H as <-.
    apply es_new_Ok in E. destruct E as (H1 & H2 & ->). simpl. unfold es_edges. simpl. rewrite linspace_length. split; [lia|]. split; [lia|].
    intros i j a c L Ha Hc. apply linspace_nth in Ha, Hc. destruct Ha as [Li ->], Hc as [Lj ->]. apply Qltb_ge.
    replace (Z.of_nat (Z.to_nat n + 1 - 1)) with n by lia.
    assert (inject_Z (Z.of_nat i) <= inject_Z (Z.of_nat j))%Q by (apply (proj1 (inject_le _ _)); lia).
    pose proof (step_pos lo hi n H1 H2). nra.
  - unfold make_bs in H. pose proof (bs_new_spec Qltb es Q_weak_order) as S. destruct (bs_new Qltb es) as [e|] eqn:E; [|discriminate].
    injection H as <-. destruct S as (P & A & L & _). simpl. apply Permutation_length in P. split; [lia|]. split; [lia|assumption].
Qed.
Lemma locate_index b x : made b -> castable b x -> bin_index np_lt (map Fin (x_edges b)) x (locate b x).
Proof.
  intros M C. destruct M as [(lo & hi & n & H)|(es & H)].
  - unfold make_es in H. destruct (es_new lo hi n) as [s|] eqn:E; [|discriminate]. injection H as <-.
    destruct C as (q & -> & C). pose proof E as E0. apply es_new_Ok in E0. destruct E0 as (H1 & H2 & Hs).
    assert (C' : (- 2 ^ 63 <= Qfloor ((q - lo) / ((hi - lo) / inject_Z n)) < 2 ^ 63)%Z) by (subst s; exact C).
    destruct (es_index lo hi n s q E C') as (_ & _ & [R B]). split; [rewrite map_length; exact R|].
    intros j e Hj. rewrite nth_error_map in Hj. destruct (nth_error (x_edges (ES s)) j) as [y|] eqn:Ey; [|discriminate].
    injection Hj as <-. apply (B j y Ey).
  - destruct (made_edges b (or_intror (ex_intro _ es H))) as (_ & _ & A).
    unfold make_bs in H. destruct (bs_new Qltb es) as [e|]; [|discriminate]. injection H as <-. simpl in *.
    apply ss_index; [apply np_weak_order|apply asc_map_Fin; assumption].
Qed.
Lemma locate_range b x : made b -> (-1 <= locate b x <= n_bins b)%Z.
Proof.
  intros M. destruct (made_edges b M) as (L & N & _). destruct b as [s|es]; simpl in *.
  - unfold es_locate, zclip. lia.
  - unfold bs_locate. pose proof (ss_le np_lt (map Fin es) x). rewrite map_length in H. lia.
Qed.
(** What the index means for a finite sample, edge by edge. *)
Lemma locate_cases b q : made b -> castable b (Fin q) ->
  (locate b (Fin q) = (-1)%Z /\ exists e0, nth_error (x_edges b) 0 = Some e0 /\ (q < e0)%Q) \/
  (locate b (Fin q) = n_bins b /\ exists en, nth_error (x_edges b) (Z.to_nat (n_bins b)) = Some en /\ (en <= q)%Q) \/
  (exists i lo hi, locate b (Fin q) = Z.of_nat i /\ (Z.of_nat i < n_bins b)%Z /\ nth_error (x_edges b) i = Some lo /\
     nth_error (x_edges b) (S i) = Some hi /\ (lo <= q)%Q /\ (q < hi)%Q).
Proof.
  intros M C. destruct (locate_index b _ M C) as [R B]. pose proof (locate_range b (Fin q) M) as R2.
  destruct (made_edges b M) as (L & N & _). rewrite map_length in R.
  assert (G : forall j e, nth_error (x_edges b) j = Some e -> (Z.of_nat j <= locate b (Fin q))%Z <-> (e <= q)%Q).
  { intros j e He. rewrite (B j (Fin e)) by (rewrite nth_error_map, He; reflexivity). simpl. apply Qltb_ge. }
  assert (X : forall j, j <= Z.to_nat (n_bins b) -> exists e, nth_error (x_edges b) j = Some e).
  { intros j Hj. destruct (nth_error (x_edges b) j) as [e|] eqn:E; [eauto|]. apply nth_error_None in E. lia. }
  set (i := locate b (Fin q)) in *.
  destruct (Z.eq_dec i (-1)) as [E1|E1].
  - left. split; [assumption|]. destruct (X 0 ltac:(lia)) as [e0 He]. exists e0. split; [assumption|].
    apply Qnot_le_lt. intros Hq. apply (G 0 e0 He) in Hq. simpl in Hq. lia.
  - destruct (Z.eq_dec i (n_bins b)) as [E2|E2].
    + right; left. split; [assumption|]. destruct (X (Z.to_nat (n_bins b)) ltac:(lia)) as [en He]. exists en. split; [assumption|].
      apply (G _ _ He). lia.
    + right; right. destruct (X (Z.to_nat i) ltac:(lia)) as [lo Hlo]. destruct (X (S (Z.to_nat i)) ltac:(lia)) as [hi Hhi].
      exists (Z.to_nat i), lo, hi. repeat split; try assumption; try lia.
      * apply (G _ _ Hlo). lia.
      * apply Qnot_le_lt. intros Hq. apply (G _ _ Hhi) in Hq. lia.
Qed.

Lemma locate_bound_spec b lower upper x : made b ->
  let i := locate_bound b lower upper x in
  (-1 <= i <= n_bins b)%Z /\ (lower = true -> (0 <= i)%Z) /\ (upper = true -> (i < n_bins b)%Z) /\
  ((0 <= locate b x < n_bins b)%Z -> i = locate b x) /\ (lower = false -> locate b x = (-1)%Z -> i = (-1)%Z) /\
  (upper = false -> locate b x = n_bins b -> i = n_bins b) /\
  (lower = true -> locate b x = (-1)%Z -> i = 0%Z) /\ (upper = true -> locate b x = n_bins b -> i = (n_bins b - 1)%Z).
Proof.
  intros M. destruct (made_edges b M) as (_ & N & _). pose proof (locate_range b x M) as R. cbv zeta. unfold locate_bound.
  destruct lower, upper; repeat split; intros; try discriminate; lia.
Qed.

Lemma edge_at_nth b i e : nth_error (x_edges b) i = Some e -> edge_at b (Z.of_nat i) = e.
Proof. intros H. unfold edge_at. rewrite Nat2Z.id. apply nth_error_nth. assumption. Qed.

Lemma locate_nearest_spec b q : made b -> castable b (Fin q) ->
  exists i e, locate_nearest b q = Z.of_nat i /\ nth_error (x_edges b) i = Some e /\
    forall j y, nth_error (x_edges b) j = Some y -> (Qabs (q - e) <= Qabs (q - y))%Q.
Proof.
  intros M C. destruct (made_edges b M) as (L & N & A). unfold locate_nearest, locate_bound.
  assert (X : forall j, j <= Z.to_nat (n_bins b) -> exists e, nth_error (x_edges b) j = Some e).
  { intros j Hj. destruct (nth_error (x_edges b) j) as [e|] eqn:E; [eauto|]. apply nth_error_None in E. lia. }
  (* the chosen lower edge index *)
  assert (P : exists i lo hi, Z.min (Z.max (locate b (Fin q)) 0) (n_bins b - 1) = Z.of_nat i /\
     nth_error (x_edges b) i = Some lo /\ nth_error (x_edges b) (S i) = Some hi /\
     (forall j y, nth_error (x_edges b) j = Some y -> j <= i -> ((lo <= q)%Q \/ i = 0) /\ (y <= lo)%Q) /\
     (forall j y, nth_error (x_edges b) j = Some y -> i < j -> ((q < hi)%Q \/ S i = Z.to_nat (n_bins b)) /\ (hi <= y)%Q)).
  { assert (U : forall i lo hi, nth_error (x_edges b) i = Some lo -> nth_error (x_edges b) (S i) = Some hi ->
       (forall j y, nth_error (x_edges b) j = Some y -> j <= i -> (y <= lo)%Q) /\ (forall j y, nth_error (x_edges b) j = Some y -> i < j -> (hi <= y)%Q)).
    { intros i lo hi H1 H2. split; intros j y Hy Lj.
      - destruct (Nat.eq_dec j i) as [->|]; [rewrite H1 in Hy; injection Hy as <-; apply Qle_refl|]. apply Qltb_ge. apply (A j i); [lia|assumption|assumption].
      - destruct (Nat.eq_dec j (S i)) as [->|]; [rewrite H2 in Hy; injection Hy as <-; apply Qle_refl|]. apply Qltb_ge. apply (A (S i) j); [lia|assumption|assumption]. }
    destruct (locate_cases b q M C) as [(E & e0 & H1 & H2)|[(E & en & H1 & H2)|(i & lo & hi & E & Li & H1 & H2 & H3 & H4)]].
    - destruct (X 1 ltac:(lia)) as [e1 He1]. exists 0, e0, e1. destruct (U 0 e0 e1 H1 He1) as [U1 U2].
      split; [lia|]. split; [assumption|]. split; [assumption|]. split; intros j y Hy Lj.
      + split; [right; reflexivity|apply (U1 j y Hy Lj)].
      + split; [left|apply (U2 j y Hy Lj)]. apply Qlt_le_trans with e0; [assumption|]. apply Qltb_ge. apply (A 0 1); [lia|assumption|assumption].
    - set (m := Z.to_nat (n_bins b)) in *. destruct (X (m - 1) ltac:(lia)) as [el Hel].
      assert (H1' : nth_error (x_edges b) (S (m - 1)) = Some en) by (replace (S (m - 1)) with m by lia; assumption).
      exists (m - 1), el, en. destruct (U (m - 1) el en Hel H1') as [U1 U2].
      split; [lia|]. split; [assumption|]. split; [assumption|]. split; intros j y Hy Lj.
      + split; [left|apply (U1 j y Hy Lj)]. apply Qle_trans with en; [|assumption]. apply Qltb_ge. apply (A (m - 1) m); [lia|assumption|assumption].
      + split; [right; lia|apply (U2 j y Hy Lj)].
    - exists i, lo, hi. destruct (U i lo hi H1 H2) as [U1 U2].
      split; [lia|]. split; [assumption|]. split; [assumption|]. split; intros j y Hy Lj.
      + split; [left; assumption|apply (U1 j y Hy Lj)].
      + split; [left; assumption|apply (U2 j y Hy Lj)]. }
  destruct P as (i & lo & hi & E & H1 & H2 & P1 & P2). rewrite E.
  replace (Z.of_nat i + 1)%Z with (Z.of_nat (S i)) by lia. rewrite (edge_at_nth _ _ _ H1), (edge_at_nth _ _ _ H2).
  assert (Hlh : (lo <= hi)%Q) by (apply Qltb_ge; apply (A i (S i)); [lia|assumption|assumption]).
  destruct (Qltb (q - lo) (hi - q)) eqn:D.
  - exists i, lo. split; [reflexivity|]. split; [assumption|]. intros j y Hy. apply Qltb_lt in D.
    destruct (le_gt_dec j i) as [Lj|Lj].
    + destruct (P1 j y Hy Lj) as [[Sx|Sx] T].
      * rewrite (Qabs_pos (q - lo)), (Qabs_pos (q - y)) by lra. lra.
      * subst i. assert (j = 0) by lia. subst j. rewrite H1 in Hy. injection Hy as <-. apply Qle_refl.
    + destruct (P2 j y Hy Lj) as [_ T]. rewrite (Qabs_neg (q - y)) by lra. apply Qabs_Qle_condition. lra.
  - exists (S i), hi. split; [reflexivity|]. split; [assumption|]. intros j y Hy. apply Qltb_ge in D.
    destruct (le_gt_dec j i) as [Lj|Lj].
    + destruct (P1 j y Hy Lj) as [_ T]. rewrite (Qabs_pos (q - y)) by lra. apply Qabs_Qle_condition. lra.
    + destruct (P2 j y Hy Lj) as [[Sx|Sx] T].
      * rewrite (Qabs_neg (q - y)), (Qabs_neg (q - hi)) by lra. lra.
      * assert (j < length (x_edges b)) by (apply nth_error_Some; congruence). assert (j = S i) by lia. subst j. rewrite H2 in Hy.
        injection Hy as <-. apply Qle_refl.
Qed.

Lemma zipwith_nth {A B C} (f : A -> B -> C) l l' i c : nth_error (zipwith f l l') i = Some c <->
  exists a b, nth_error l i = Some a /\ nth_error l' i = Some b /\ c = f a b.
Proof.
  revert l' i. induction l as [|a l IH]; intros [|b l'] [|i]; simpl; split; try discriminate; try (intros (x & y & H1 & H2 & H3); discriminate).
  - intros H; injection H as <-; eauto.
  - intros (x & y & H1 & H2 & H3). congruence.
  - apply IH.
  - apply IH.
Qed.
Lemma zipwith_length {A B C} (f : A -> B -> C) l l' : length (zipwith f l l') = Nat.min (length l) (length l').
Proof. revert l'. induction l as [|a l IH]; intros [|b l']; simpl; auto. Qed.
Lemma removelast_nth {A} (l : list A) i a : nth_error (removelast l) i = Some a <-> nth_error l i = Some a /\ S i < length l.
Proof.
  revert i. induction l as [|x l IH]; intros i; simpl.
  - split; [intros H; destruct i; discriminate|intros [_ H]; lia].
  - destruct l as [|y l'].
    + split; [intros H; destruct i; discriminate|intros [_ H]; simpl in H; lia].
    + destruct i as [|i]; cbn [nth_error].
      * split; [intros H; split; [assumption|simpl; lia]|tauto].
      * rewrite IH. simpl. split; intros [H1 H2]; split; auto; lia.
Qed.
Lemma removelast_len {A} (l : list A) : length (removelast l) = length l - 1.
Proof.
  induction l as [|x l IH]; [reflexivity|]. destruct l as [|y l']; [reflexivity|].
  change (removelast (x :: y :: l')) with (x :: removelast (y :: l')). cbn [length]. rewrite IH. simpl. lia.
Qed.
Lemma tl_nth {A} (l : list A) i : nth_error (tl l) i = nth_error l (S i).
Proof. destruct l; [destruct i; reflexivity|reflexivity]. Qed.
Lemma tl_len {A} (l : list A) : length (tl l) = length l - 1.
Proof. destruct l; simpl; lia. Qed.

Lemma x_centers_spec b : made b -> length (x_centers b) = Z.to_nat (n_bins b) /\
  forall i c, nth_error (x_centers b) i = Some c -> exists lo hi, nth_error (x_edges b) i = Some lo /\
    nth_error (x_edges b) (S i) = Some hi /\ (c == (lo + hi) / 2)%Q /\ (lo <= c)%Q /\ (c <= hi)%Q /\
    ((lo < hi)%Q -> castable b (Fin c) -> locate b (Fin c) = Z.of_nat i).
Proof.
  intros M. destruct (made_edges b M) as (L & N & A). unfold x_centers. split.
  - rewrite zipwith_length, removelast_len, tl_len. lia.
  - intros i c H. apply zipwith_nth in H. destruct H as (lo & hi & H1 & H2 & ->). apply removelast_nth in H1. destruct H1 as [H1 Li].
    rewrite tl_nth in H2. exists lo, hi. assert (lo <= hi)%Q by (apply Qltb_ge; apply (A i (S i)); [lia|assumption|assumption]).
    repeat split; try assumption; [field|lra|lra|]. intros Hlt C.
    eapply bin_index_unique; [apply locate_index; eassumption|]. split; [rewrite map_length; lia|].
    intros j e Hj. rewrite nth_error_map in Hj. destruct (nth_error (x_edges b) j) as [y|] eqn:Ey; [|discriminate]. injection Hj as <-.
    simpl. rewrite Qltb_ge. split; intros Hle.
    + destruct (Nat.eq_dec j i) as [->|]; [rewrite H1 in Ey; injection Ey as <-; lra|].
      assert (y <= lo)%Q by (apply Qltb_ge; apply (A j i); [lia|assumption|assumption]). lra.
    + destruct (Z_le_gt_dec (Z.of_nat j) (Z.of_nat i)) as [|Hg]; [assumption|]. exfalso.
      destruct (Nat.eq_dec j (S i)) as [->|]; [rewrite H2 in Ey; injection Ey as <-; lra|].
      assert (hi <= y)%Q by (apply Qltb_ge; apply (A (S i) j); [lia|assumption|assumption]). lra.
Qed.

(** ** BinnedData *)
Lemma add_at_length d i w : length (add_at d i w) = length d.
Proof. unfold add_at. destruct (_ && _)%bool; [apply upd_nth_length|reflexivity]. Qed.
Lemma add_at_nth d i w k v : nth_error d k = Some v ->
  nth_error (add_at d i w) k = Some (if (i =? Z.of_nat k)%Z then v + w else v)%Q.
Proof.
  intros H. assert (L : k < length d) by (apply nth_error_Some; congruence). unfold add_at.
  destruct ((0 <=? i)%Z && (i <? Z.of_nat (length d))%Z) eqn:E.
  - apply andb_prop in E. destruct E as [E1 E2]. apply Z.leb_le in E1. apply Z.ltb_lt in E2.
    destruct (Z.eqb_spec i (Z.of_nat k)) as [->|Ne].
    + rewrite Nat2Z.id, upd_nth_same by assumption. rewrite (nth_error_nth _ _ _ H). reflexivity.
    + rewrite upd_nth_other by lia. assumption.
  - destruct (Z.eqb_spec i (Z.of_nat k)) as [->|Ne]; [|assumption].
    apply andb_false_iff in E. destruct E as [E|E]; [apply Z.leb_gt in E|apply Z.ltb_ge in E]; lia.
Qed.
Lemma fold_add_nth {X} (idx : X -> Z) (w : X -> Q) l d k v : nth_error d k = Some v ->
  exists v', nth_error (fold_left (fun d p => add_at d (idx p) (w p)) l d) k = Some v' /\
    (v' == v + Qsum (map w (filter (fun p => (idx p =? Z.of_nat k)%Z) l)))%Q.
Proof.
  revert d v. induction l as [|p l IH]; intros d v H; simpl.
  - exists v. split; [assumption|ring].
  - pose proof (add_at_nth d (idx p) (w p) k v H) as H2. destruct (IH _ _ H2) as (v' & E & S). exists v'. split; [exact E|].
    rewrite S. destruct (idx p =? Z.of_nat k)%Z; simpl; ring.
Qed.
Lemma fold_add_length {X} (idx : X -> Z) (w : X -> Q) l d : length (fold_left (fun d p => add_at d (idx p) (w p)) l d) = length d.
Proof. revert d. induction l as [|p l IH]; intros d; simpl; [reflexivity|]. rewrite IH. apply add_at_length. Qed.

Lemma Qsum_app l l' : (Qsum (l ++ l') == Qsum l + Qsum l')%Q.
Proof. induction l as [|a l IH]; simpl; [ring|]. rewrite IH. ring. Qed.

Lemma bd_step_nth s c k v : nth_error (bd_data s) k = Some v ->
  exists v', nth_error (bd_data (bd_step s c)) k = Some v' /\
    (v' == v + weight_where (fun x => (locate (bd_bins s) x =? Z.of_nat k)%Z) (call_samples c))%Q.
Proof.
  intros H. unfold bd_step, bd_add, call_samples, weight_where. destruct c as [x [w|]]; cbn [fst snd].
  - rewrite map_length. destruct (Nat.eqb (length x) (length w)) eqn:E; cbn [bd_data].
    + destruct (fold_add_nth (X := Z * Q) fst snd (combine (map (locate (bd_bins s)) x) w) _ _ _ H) as (v' & E1 & E2). exists v'. split; [exact E1|].
      rewrite E2. apply Qplus_comp; [reflexivity|]. clear. revert w. induction x as [|a x IH]; intros [|b w]; simpl; try reflexivity.
      destruct (locate (bd_bins s) a =? Z.of_nat k)%Z; simpl; rewrite IH; reflexivity.
    + exists v. split; [assumption|]. simpl. ring.
  - cbn [bd_data]. destruct (fold_add_nth (X := Z) (fun i => i) (fun _ => 1%Q) (map (locate (bd_bins s)) x) _ _ _ H) as (v' & E1 & E2). exists v'. split; [exact E1|].
    rewrite E2. apply Qplus_comp; [reflexivity|]. clear. induction x as [|a x IH]; simpl; try reflexivity.
    destruct (locate (bd_bins s) a =? Z.of_nat k)%Z; simpl; rewrite IH; reflexivity.
Qed.
Lemma bd_step_bins s c : bd_bins (bd_step s c) = bd_bins s.
Proof. unfold bd_step, bd_add. destruct c as [x [w|]]; simpl; [destruct (Nat.eqb _ _)|]; reflexivity. Qed.
Lemma bd_step_len s c : length (bd_data (bd_step s c)) = length (bd_data s).
Proof.
  unfold bd_step, bd_add. destruct c as [x [w|]]; simpl; [destruct (Nat.eqb _ _)|]; simpl; try reflexivity.
  - apply (fold_add_length (X := Z * Q) fst snd).
  - apply (fold_add_length (X := Z) (fun i => i) (fun _ => 1%Q)).
Qed.
Lemma bd_run_gen s h k v : nth_error (bd_data s) k = Some v ->
  exists v', nth_error (bd_data (bd_run s h)) k = Some v' /\
    (v' == v + weight_where (fun x => (locate (bd_bins s) x =? Z.of_nat k)%Z) (samples h))%Q.
Proof.
  revert s v. induction h as [|c h IH]; intros s v H; unfold bd_run, samples; simpl.
  - exists v. split; [assumption|]. unfold weight_where. simpl. ring.
  - destruct (bd_step_nth s c k v H) as (v1 & H1 & E1). destruct (IH _ _ H1) as (v2 & H2 & E2). exists v2. split; [exact H2|].
    rewrite E2, E1, bd_step_bins. unfold weight_where, samples. rewrite filter_app, map_app, Qsum_app. ring.
Qed.
Lemma bd_run_len s h : length (bd_data (bd_run s h)) = length (bd_data s) /\ bd_bins (bd_run s h) = bd_bins s.
Proof.
  revert s. induction h as [|c h IH]; intros s; unfold bd_run; simpl; [auto|].
  destruct (IH (bd_step s c)) as [H1 H2]. unfold bd_run in *. rewrite H1, H2, bd_step_len, bd_step_bins. auto.
Qed.
Lemma filter_ext_in2 {A} (f g : A -> bool) l : (forall a, In a l -> f a = g a) -> filter f l = filter g l.
Proof. induction l as [|a l IH]; simpl; intros H; [reflexivity|]. rewrite (H a) by auto. rewrite IH; [reflexivity|intros; apply H; auto]. Qed.

Lemma locate_in_bin b x k : made b -> castable b x -> (Z.of_nat k < n_bins b)%Z ->
  (locate b x =? Z.of_nat k)%Z = in_bin (x_edges b) k x.
Proof.
  intros M C Lk. destruct (made_edges b M) as (L & N & A). destruct (locate_index b x M C) as [R B].
  destruct (nth_error (x_edges b) k) as [lo|] eqn:E1; [|apply nth_error_None in E1; lia].
  destruct (nth_error (x_edges b) (S k)) as [hi|] eqn:E2; [|apply nth_error_None in E2; lia].
  assert (B1 := B k (Fin lo) ltac:(rewrite nth_error_map, E1; reflexivity)).
  assert (B2 := B (S k) (Fin hi) ltac:(rewrite nth_error_map, E2; reflexivity)).
  unfold in_bin. rewrite E1, E2.
  assert (EQ : (locate b x =? Z.of_nat k)%Z = (negb (np_lt x (Fin lo)) && np_lt x (Fin hi))%bool).
  { destruct (np_lt x (Fin lo)) eqn:F1, (np_lt x (Fin hi)) eqn:F2; simpl.
    - apply Z.eqb_neq. intros Hk. assert (true = false) by (apply B1; lia). discriminate.
    - apply Z.eqb_neq. intros Hk. assert (true = false) by (apply B1; lia). discriminate.
    - apply Z.eqb_eq. assert (Z.of_nat k <= locate b x)%Z by (apply B1; reflexivity).
      destruct (Z_le_gt_dec (Z.of_nat (S k)) (locate b x)) as [G|G]; [apply B2 in G; discriminate|lia].
    - apply Z.eqb_neq. intros Hk. assert (Z.of_nat (S k) <= locate b x)%Z by (apply B2; reflexivity). lia. }
  rewrite EQ. destruct x as [q| | |]; simpl; try reflexivity. unfold Qltb at 1. rewrite negb_involutive. reflexivity.
Qed.

Lemma bd_run_spec b h : made b -> (forall x w, In (x, w) (samples h) -> castable b x) ->
  let s := bd_run (bd_new b) h in
  length (bd_data s) = Z.to_nat (n_bins b) /\
  forall k v, nth_error (bd_data s) k = Some v -> (v == weight_where (in_bin (x_edges b) k) (samples h))%Q.
Proof.
  intros M C. cbv zeta. destruct (bd_run_len (bd_new b) h) as [L _]. unfold bd_new in L at 2. simpl in L. rewrite repeat_length in L. split; [exact L|].
  intros k v H. assert (Lk : k < Z.to_nat (n_bins b)) by (rewrite <- L; apply nth_error_Some; congruence).
  assert (Z0 : nth_error (bd_data (bd_new b)) k = Some 0%Q).
  { simpl. rewrite (nth_error_nth' _ 0%Q) by (rewrite repeat_length; lia). rewrite nth_repeat. reflexivity. }
  destruct (bd_run_gen _ h k _ Z0) as (v' & E1 & E2). rewrite E1 in H. injection H as <-. rewrite E2, Qplus_0_l. unfold weight_where. cbn [bd_new bd_bins].
  rewrite (filter_ext_in2 (fun p => (locate b (fst p) =? Z.of_nat k)%Z) (fun p => in_bin (x_edges b) k (fst p))); [reflexivity|].
  intros [x w] Hin. simpl. apply locate_in_bin; [assumption|eapply C; eassumption|lia].
Qed.
