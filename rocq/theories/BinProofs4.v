From Coq Require Import QArith Qround Qabs Qminmax Lqa Permutation.
From Verif Require Import Base OrderSpec BinSpec BinModel BinProofs BinProofs2 BinProofs3.
Local Open Scope list_scope. Local Open Scope nat_scope.

(** ** np.histogram and overlapped windows *)
Lemma hist_index_spec lo hi n x : (lo < hi)%Q -> (0 < n)%Z -> (lo <= x)%Q -> (x <= hi)%Q ->
  (0 <= hist_index lo hi n x < n)%Z /\
  forall k, (0 <= k < n)%Z -> ((k <= hist_index lo hi n x)%Z <-> (lo + inject_Z k * ((hi - lo) / inject_Z n) <= x)%Q).
Proof.
  intros H Hn H1 H2. unfold hist_index. set (f := Qfloor ((x - lo) / (hi - lo) * inject_Z n)).
  assert (Np := inject_pos n Hn). assert (Sp := step_pos lo hi n H Hn).
  assert (F : forall k, (k <= f)%Z <-> (lo + inject_Z k * ((hi - lo) / inject_Z n) <= x)%Q).
  { intros k. unfold f. rewrite Qfloor_spec.
    assert (E1 : ((x - lo) / (hi - lo) * inject_Z n * ((hi - lo) / inject_Z n) == x - lo)%Q) by (field; split; lra).
    split; intros G.
    - assert (inject_Z k * ((hi - lo) / inject_Z n) <= (x - lo) / (hi - lo) * inject_Z n * ((hi - lo) / inject_Z n))%Q
        by (apply Qmult_le_compat_r; [assumption|lra]). lra.
    - apply Qnot_lt_le. intros G2. apply (Qmult_lt_compat_r _ _ _ Sp) in G2. lra. }
  assert (F0 : (0 <= f)%Z). { apply F. change (inject_Z 0) with 0%Q. lra. }
  assert (Fn : (f <= n)%Z).
  { destruct (Z_le_gt_dec f n) as [|G]; [assumption|]. assert (n + 1 <= f)%Z by lia. apply F in H0.
    rewrite inject_Z_plus in H0. assert ((inject_Z n + inject_Z 1) * ((hi - lo) / inject_Z n) == (hi - lo) + (hi - lo) / inject_Z n)%Q as E.
    { change (inject_Z 1) with 1%Q. field. lra. } rewrite E in H0. lra. }
  destruct (Z.eqb_spec f n) as [E|E].
  - split; [lia|]. intros k Hk. rewrite <- F. lia.
  - split; [lia|]. intros k Hk. rewrite <- F. lia.
Qed.

Lemma map_repeat_len {A} (l : list A) w : length (match w with None => repeat 1%Q (length l) | Some w => w end) = length l \/ exists w', w = Some w'.
Proof. destruct w; [right; eauto|left; apply repeat_length]. Qed.
Lemma filter_filter {A} (f g : A -> bool) l : filter f (filter g l) = filter (fun a => g a && f a) l.
Proof. induction l as [|a l IH]; simpl; [reflexivity|]. destruct (g a) eqn:E; simpl; [destruct (f a); rewrite IH; reflexivity|assumption]. Qed.

Lemma np_hist_spec x n lo hi w h e : np_histogram x n lo hi w = Ok (h, e) ->
  (1 <= n)%Z /\ (lo <= hi)%Q /\ (forall w', w = Some w' -> length w' = length x) /\
  length h = Z.to_nat n /\ length e = S (Z.to_nat n) /\
  ((lo < hi)%Q -> e = linspace lo hi (Z.to_nat n + 1)) /\ ((lo == hi)%Q -> e = linspace (lo - (1 # 2)) (hi + (1 # 2)) (Z.to_nat n + 1)) /\
  exists a c, (a < c)%Q /\ e = linspace a c (Z.to_nat n + 1) /\
  h = fold_left (fun d p => add_at d (hist_index a c n (fst p)) (snd p))
        (filter (fun p => Qle_bool a (fst p) && Qle_bool (fst p) c) (hist_samples x w)) (repeat 0%Q (Z.to_nat n)).
Proof.
  unfold np_histogram, hist_samples. set (ws := match w with None => repeat 1%Q (length x) | Some w => w end).
  destruct (Nat.eqb_spec (length x) (length ws)) as [L|]; simpl negb; [|discriminate]. cbv iota.
  destruct (Z.ltb_spec n 1); [discriminate|]. destruct (Qltb hi lo) eqn:E1; [discriminate|]. apply Qltb_ge in E1.
  assert (Lw : forall w', w = Some w' -> length w' = length x) by (intros w' ->; subst ws; congruence).
  destruct (Qeq_bool lo hi) eqn:E2; intros E; apply Ok_inj in E; inversion E; subst h e; clear E.
  - apply Qeq_bool_iff in E2. split; [lia|]. split; [assumption|]. split; [assumption|].
    rewrite (fold_add_length (X := Q * Q)), repeat_length, linspace_length. split; [reflexivity|]. split; [lia|].
    split; [intros; lra|]. split; [reflexivity|]. exists (lo - (1 # 2))%Q, (hi + (1 # 2))%Q. split; [lra|]. split; reflexivity.
  - apply Qeq_bool_neq in E2. assert (lo < hi)%Q by (apply Qle_lteq in E1; destruct E1; [assumption|contradiction]).
    split; [lia|]. split; [assumption|]. split; [assumption|].
    rewrite (fold_add_length (X := Q * Q)), repeat_length, linspace_length. split; [reflexivity|]. split; [lia|].
    split; [reflexivity|]. split; [intros; lra|]. exists lo, hi. split; [lra|]. split; reflexivity.
Qed.
Lemma weight_split {X} (idx : X -> Z) (w : X -> Q) (i : Z) s l :
  (Qsum (map (fun j => Qsum (map w (filter (fun p => (idx p =? i + Z.of_nat j)%Z) l))) (seq 0 s)) ==
   Qsum (map w (filter (fun p => (i <=? idx p) && (idx p <? i + Z.of_nat s))%Z l)))%Q.
Proof.
  induction s as [|s IH].
  - simpl. replace (filter _ l) with (@nil X); [reflexivity|]. symmetry. induction l as [|p l IHl]; simpl; [reflexivity|].
    destruct (Z.leb_spec i (idx p)), (Z.ltb_spec (idx p) (i + 0)); simpl; try lia; assumption.
  - rewrite seq_S, map_app, Qsum_app, IH. clear IH. cbn [map Qsum]. rewrite Qplus_0_r, Nat.add_0_l.
    induction l as [|p l IHl]; simpl; [ring|].
    destruct (Z.leb_spec i (idx p)), (Z.ltb_spec (idx p) (i + Z.of_nat s)), (Z.eqb_spec (idx p) (i + Z.of_nat s)), (Z.ltb_spec (idx p) (i + Z.pos (Pos.of_succ_nat s)));
      simpl; try lia; rewrite <- ?IHl; ring.
Qed.
Lemma Qsum_ext {A} (f g : A -> Q) l : (forall a, In a l -> f a == g a)%Q -> (Qsum (map f l) == Qsum (map g l))%Q.
Proof. induction l as [|a l IH]; simpl; intros H; [reflexivity|]. rewrite (H a), IH by auto. reflexivity. Qed.
Lemma firstn_skipn_seq (h : list Q) i s : i + s <= length h -> firstn s (skipn i h) = map (fun j => nth (i + j) h 0%Q) (seq 0 s).
Proof.
  revert i. induction s as [|s IH]; intros i H; [reflexivity|].
  destruct (skipn i h) as [|a l] eqn:E; [exfalso; apply (f_equal (@length Q)) in E; rewrite skipn_length in E; simpl in E; lia|].
  cbn [firstn seq map]. f_equal.
  - replace (i + 0) with i by lia. symmetry. apply nth_error_nth. replace i with (i + 0) by lia. rewrite <- nth_error_skipn, E. reflexivity.
  - rewrite <- seq_shift, map_map.
    replace l with (skipn (S i) h).
    + rewrite IH by lia. apply map_ext. intros j. f_equal. lia.
    + clear -E. revert i E. induction h as [|b h IHh]; intros [|i] E; simpl in *; try discriminate; [congruence|]. apply IHh. assumption.
Qed.

Lemma window_weight x n lo hi w h e i s : np_histogram x n lo hi w = Ok (h, e) -> i + s <= Z.to_nat n -> 1 <= s ->
  (Qsum (firstn s (skipn i h)) == weight_where (in_window e i (i + s)) (hist_samples x w))%Q.
Proof.
  intros H Hi Hs. apply np_hist_spec in H. destruct H as (Hn & _ & _ & Lh & Le & _ & _ & a & c & Hac & Ee & Eh).
  rewrite firstn_skipn_seq by lia.
  set (kept := filter (fun p => Qle_bool a (fst p) && Qle_bool (fst p) c) (hist_samples x w)) in *.
  transitivity (Qsum (map (fun j => Qsum (map snd (filter (fun p => (hist_index a c n (fst p) =? Z.of_nat i + Z.of_nat j)%Z) kept))) (seq 0 s))).
  { apply Qsum_ext. intros j Hj. apply in_seq in Hj.
    assert (Z0 : nth_error (repeat 0%Q (Z.to_nat n)) (i + j) = Some 0%Q).
    { rewrite (nth_error_nth' _ 0%Q) by (rewrite repeat_length; lia). rewrite nth_repeat. reflexivity. }
    destruct (fold_add_nth (X := Q * Q) (fun p => hist_index a c n (fst p)) snd kept _ _ _ Z0) as (v & Hv & Ev).
    rewrite <- Eh in Hv. rewrite (nth_error_nth _ _ _ Hv), Ev, Qplus_0_l.
    replace (Z.of_nat (i + j)) with (Z.of_nat i + Z.of_nat j)%Z by lia. reflexivity. }
  rewrite (weight_split (X := Q * Q) (fun p => hist_index a c n (fst p)) snd (Z.of_nat i) s kept).
  unfold kept, weight_where. rewrite filter_filter.
  rewrite (filter_ext_in2 _ (fun p => in_window e i (i + s) (fst p))); [reflexivity|].
  intros [q wq] _. cbn [fst]. unfold in_window.
  destruct (nth_error e i) as [ei|] eqn:E1; [|apply nth_error_None in E1; lia].
  destruct (nth_error e (i + s)) as [ej|] eqn:E2; [|apply nth_error_None in E2; lia].
  assert (Ee' := Ee). rewrite Ee' in E1, E2. apply linspace_nth in E1, E2. destruct E1 as [_ E1], E2 as [_ E2].
  replace (Z.of_nat (Z.to_nat n + 1 - 1)) with n in * by lia.
  assert (Np := inject_pos n ltac:(lia)). assert (Sp := step_pos a c n Hac ltac:(lia)).
  assert (Ec : (a + inject_Z n * ((c - a) / inject_Z n) == c)%Q) by (field; lra).
  assert (Ei0 : (a <= ei)%Q). { subst ei. assert (0 <= inject_Z (Z.of_nat i))%Q by (apply (proj1 (inject_le 0 _)); lia). nra. }
  assert (Ejc : (ej <= c)%Q). { subst ej. assert (inject_Z (Z.of_nat (i + s)) <= inject_Z n)%Q by (apply (proj1 (inject_le _ _)); lia). nra. }
  destruct (Qle_bool a q) eqn:F1; cbn [andb].
  2:{ symmetry. apply andb_false_iff. left. apply not_true_is_false. intros G. apply Qle_bool_iff in G.
      apply not_true_iff_false in F1. apply F1. apply Qle_bool_iff. lra. }
  apply Qle_bool_iff in F1.
  destruct (Qle_bool q c) eqn:F2; cbn [andb].
  2:{ symmetry. apply andb_false_iff. right. apply not_true_iff_false in F2. apply orb_false_iff. split.
      - apply Qltb_ge. apply Qnot_lt_le. intros G. apply F2. apply Qle_bool_iff. lra.
      - apply andb_false_iff. right. apply not_true_is_false. intros G. apply Qle_bool_iff in G. apply F2. apply Qle_bool_iff. lra. }
  apply Qle_bool_iff in F2.
  destruct (hist_index_spec a c n q Hac ltac:(lia) F1 F2) as [R S].
  f_equal.
  - apply eq_true_iff_eq. rewrite Z.leb_le, Qle_bool_iff, S by lia. rewrite E1. reflexivity.
  - rewrite Le. destruct (Nat.eqb_spec (Datatypes.S (i + s)) (Datatypes.S (Z.to_nat n))) as [El|El]; cbn [andb].
    + replace (Qle_bool q ej) with true.
      * rewrite orb_true_r. apply Z.ltb_lt. lia.
      * symmetry. apply Qle_bool_iff. rewrite E2. replace (Z.of_nat (i + s)) with n by lia. lra.
    + rewrite orb_false_r. apply eq_true_iff_eq. rewrite Z.ltb_lt, Qltb_lt.
      replace (Z.of_nat i + Z.of_nat s)%Z with (Z.of_nat (i + s)) by lia.
      assert (G := S (Z.of_nat (i + s)) ltac:(lia)). rewrite <- E2 in G. split; intros K.
      * apply Qnot_le_lt. intros K2. apply G in K2. lia.
      * destruct (Z_lt_le_dec (hist_index a c n q) (Z.of_nat (i + s))) as [|K2]; [assumption|]. apply G in K2. lra.
Qed.

Lemma overlapped_spec x n s lo hi w r : from_overlapped_bins x n s lo hi w = Ok r ->
  1 <= s <= Z.to_nat n /\ length (h_sub_e r) = S (Z.to_nat n) /\
  length (h_h r) = Z.to_nat n - s + 1 /\ length (h_x r) = length (h_h r) /\ length (h_dx r) = length (h_h r) /\
  forall i, i < length (h_h r) -> exists a b c d v, nth_error (h_sub_e r) i = Some a /\ nth_error (h_sub_e r) (i + s) = Some b /\
    nth_error (h_x r) i = Some c /\ nth_error (h_dx r) i = Some d /\ nth_error (h_h r) i = Some v /\
    (c == (a + b) / 2)%Q /\ (d == b - a)%Q /\ (v == weight_where (in_window (h_sub_e r) i (i + s)) (hist_samples x w))%Q.
Proof.
  unfold from_overlapped_bins. destruct (np_histogram x n lo hi w) as [[h0 e]|] eqn:H; [|discriminate]. cbn [bind].
  destruct (edges_to_centers e s) as [c|] eqn:Ec; [|discriminate]. cbn [bind]. destruct (edges_to_widths e s) as [d|] eqn:Ed; [|discriminate]. cbn [bind].
  pose proof (combine_spec h0 (Z.of_nat s)) as K. destruct (combine_adjacent_bins h0 (Z.of_nat s)) as [h|] eqn:Eh; [|discriminate]. cbn [bind].
  intros E. apply Ok_inj in E. subst r. cbn [h_x h_dx h_h h_sub_e]. destruct K as (K1 & K2 & K3).
  pose proof (np_hist_spec _ _ _ _ _ _ _ H) as (Hn & _ & _ & Lh & Le & _).
  assert (Hs1 : 1 <= s) by lia.
  destruct (strided_nth _ _ _ _ Hs1 Ec) as [Lc Nc]. destruct (strided_nth _ _ _ _ Hs1 Ed) as [Ld Nd].
  split; [lia|]. split; [assumption|]. split; [lia|]. split; [lia|]. split; [lia|].
  intros i Hi. destruct (nth_error e i) as [a|] eqn:E1; [|apply nth_error_None in E1; lia].
  destruct (nth_error e (i + s)) as [b|] eqn:E2; [|apply nth_error_None in E2; lia].
  destruct (nth_error h i) as [v|] eqn:E3; [|apply nth_error_None in E3; lia].
  exists a, b, ((1 # 2) * (a + b))%Q, (b - a)%Q, v.
  split; [first [reflexivity|assumption]|]. split; [first [reflexivity|assumption]|]. split; [apply Nc; eauto|]. split; [apply Nd; eauto|]. split; [reflexivity|].
  split; [field|]. split; [reflexivity|].
  rewrite (K3 _ _ E3), Nat2Z.id. eapply window_weight; [eassumption|lia|lia].
Qed.
(** The entry named sub_h is the combined histogram again, not the fine one. *)
Lemma overlapped_sub_h x n s lo hi w r : from_overlapped_bins x n s lo hi w = Ok r -> h_sub_h r = h_h r.
Proof.
  unfold from_overlapped_bins. destruct (np_histogram x n lo hi w) as [[h0 e]|]; [|discriminate]. cbn [bind].
  destruct (edges_to_centers e s); [|discriminate]. cbn [bind]. destruct (edges_to_widths e s); [|discriminate]. cbn [bind].
  destruct (combine_adjacent_bins h0 (Z.of_nat s)); [|discriminate]. intros E. apply Ok_inj in E. subst r. reflexivity.
Qed.

(** ** grids *)
Lemma nondec_spec l : nondecreasing l = true <-> ascending Qltb l.
Proof.
  unfold nondecreasing. rewrite forallb_forall. split.
  - intros H. apply asc_adjacent. intros i a b Ha Hb. apply Qle_bool_iff. apply H. eapply nth_error_In with (n := i). apply zipwith_nth.
    exists a, b. split; [apply removelast_nth; split; [assumption|apply nth_error_Some; congruence]|]. split; [rewrite tl_nth; assumption|reflexivity].
  - intros H v Hv. apply In_nth_error in Hv. destruct Hv as [i Hv]. apply zipwith_nth in Hv. destruct Hv as (a & b & Ha & Hb & ->).
    apply removelast_nth in Ha. rewrite tl_nth in Hb. apply Qle_bool_iff. apply Qltb_ge. apply (H i (S i)); [lia|tauto|assumption].
Qed.
Lemma grid1d_Ok l g : grid1d l = Ok g <-> g = l /\ l <> [] /\ ascending Qltb l.
Proof.
  unfold grid1d. rewrite <- nondec_spec. destruct l as [|a l].
  - simpl. split; [discriminate|]. intros (_ & H & _). congruence.
  - destruct (nondecreasing (a :: l)); simpl; split; try discriminate.
    + intros H; injection H as <-. split; [reflexivity|]. split; [discriminate|reflexivity].
    + intros (-> & _). reflexivity.
    + intros (_ & _ & H). discriminate.
Qed.
Lemma grid1d_Err l e : grid1d l = Err e -> e = AssertionError.
Proof. unfold grid1d. destruct (_ && _)%bool; [discriminate|]. congruence. Qed.
Lemma grid_centers_spec l : ascending Qltb l -> l <> [] ->
  (length l = 1 -> grid_centers l = Err AssertionError) /\
  (2 <= length l -> exists c, grid_centers l = Ok c /\ length c = length l - 1 /\ ascending Qltb c /\
     forall i a b m, nth_error l i = Some a -> nth_error l (S i) = Some b -> nth_error c i = Some m -> (m == (a + b) / 2)%Q /\ (a <= m)%Q /\ (m <= b)%Q).
Proof.
  intros A Hne. unfold grid_centers. set (c := zipwith (fun l r => (1 # 2) * (l + r))%Q (removelast l) (tl l)).
  assert (Lc : length c = length l - 1) by (unfold c; rewrite zipwith_length, removelast_len, tl_len; lia).
  assert (V : forall i m, nth_error c i = Some m -> exists a b, nth_error l i = Some a /\ nth_error l (S i) = Some b /\ m = ((1 # 2) * (a + b))%Q).
  { intros i m H. apply zipwith_nth in H. destruct H as (a & b & Ha & Hb & ->). apply removelast_nth in Ha. rewrite tl_nth in Hb. exists a, b. tauto. }
  split; intros L.
  - destruct c; [reflexivity|simpl in Lc; lia].
  - exists c. assert (Ac : ascending Qltb c).
    { apply asc_adjacent. intros i m1 m2 H1 H2. destruct (V _ _ H1) as (a & b & Ha & Hb & ->). destruct (V _ _ H2) as (b' & d & Hb' & Hd & ->).
      rewrite Hb in Hb'. injection Hb' as <-. assert (a <= b)%Q by (apply Qltb_ge; apply (A i (S i)); [lia|assumption|assumption]).
      assert (b <= d)%Q by (apply Qltb_ge; apply (A (S i) (S (S i))); [lia|assumption|assumption]). lra. }
    split; [apply grid1d_Ok; split; [reflexivity|]; split; [destruct c; [simpl in Lc; lia|discriminate]|assumption]|].
    split; [assumption|]. split; [assumption|]. intros i a b m Ha Hb Hm. destruct (V _ _ Hm) as (a' & b' & Ha' & Hb' & ->).
    assert (a' = a /\ b' = b) as [-> ->] by (split; congruence).
    assert (a <= b)%Q by (apply Qltb_ge; apply (A i (S i)); [lia|assumption|assumption]). split; [field|]. lra.
Qed.
Lemma grid_extent_spec l : ascending Qltb l -> l <> [] ->
  In (fst (grid_extent l)) l /\ In (snd (grid_extent l)) l /\ forall x, In x l -> (fst (grid_extent l) <= x /\ x <= snd (grid_extent l))%Q.
Proof.
  intros A H. unfold grid_extent. simpl. assert (L : 0 < length l) by (destruct l; [congruence|simpl; lia]).
  assert (E0 : nth_error l 0 = Some (nth 0 l 0%Q)) by (apply nth_error_nth'; lia).
  assert (E1 := last_nth_error l 0%Q H). split; [eapply nth_error_In; exact E0|]. split; [eapply nth_error_In; exact E1|].
  intros x Hx. apply In_nth_error in Hx. destruct Hx as [i Hx]. assert (i < length l) by (apply nth_error_Some; congruence). split.
  - destruct i as [|i]; [rewrite E0 in Hx; injection Hx as <-; apply Qle_refl|]. apply Qltb_ge. apply (A 0 (S i)); [lia|assumption|assumption].
  - destruct (Nat.eq_dec i (length l - 1)) as [->|]; [rewrite E1 in Hx; injection Hx as <-; apply Qle_refl|]. apply Qltb_ge. apply (A i (length l - 1)); [lia|assumption|assumption].
Qed.
Lemma grid_locate_spec l x : ascending Qltb l -> bin_index np_lt (map Fin l) x (grid_locate l x).
Proof. intros A. apply ss_index; [apply np_weak_order|apply asc_map_Fin; assumption]. Qed.
Lemma gridmd_Ok ls gs : gridmd ls = Ok gs <-> gs = ls /\ ls <> [] /\ forall l, In l ls -> l <> [] /\ ascending Qltb l.
Proof.
  unfold gridmd. split.
  - destruct (mapM grid1d ls) as [bs|] eqn:E; [|discriminate]. cbn [bind]. intros H. apply mapM_Ok in E.
    assert (bs = ls /\ forall l, In l ls -> l <> [] /\ ascending Qltb l) as [-> P].
    { clear H. induction E as [|a b ls bs Hab E IH]; [split; [reflexivity|intros l []]|]. destruct IH as [-> P]. apply grid1d_Ok in Hab. destruct Hab as (-> & N & A).
      split; [reflexivity|]. intros l [<-|Hl]; auto. }
    destruct ls; [discriminate|]. apply Ok_inj in H. subst gs. split; [reflexivity|]. split; [discriminate|assumption].
  - intros (-> & N & P). replace (mapM grid1d ls) with (Ok ls); [destruct ls; [congruence|reflexivity]|]. symmetry. apply mapM_Ok. clear N.
    induction ls as [|l ls IH]; constructor; [apply grid1d_Ok; split; [reflexivity|]; apply P; left; reflexivity|apply IH; intros; apply P; right; assumption].
Qed.

Definition vol (shape : list nat) : nat := fold_right Nat.mul 1 shape.
Lemma flat_map_const_nth {A B} (f : A -> list B) l m i k : (forall a, length (f a) = m) -> k < m ->
  nth_error (flat_map f l) (i * m + k) = match nth_error l i with Some a => nth_error (f a) k | None => None end.
Proof.
  intros H Hk. rewrite flat_map_concat_map. rewrite (concat_const_nth _ m i k).
  - rewrite nth_error_map. destruct (nth_error l i); reflexivity.
  - intros x Hx. apply in_map_iff in Hx. destruct Hx as (a & <- & _). apply H.
  - assumption.
Qed.
Lemma flat_map_const_len {A B} (f : A -> list B) l m : (forall a, length (f a) = m) -> length (flat_map f l) = length l * m.
Proof. intros H. induction l as [|a l IH]; simpl; [reflexivity|]. rewrite app_length, H, IH. reflexivity. Qed.
Lemma cart_len gs : length (cart gs) = vol (md_n_locs gs).
Proof.
  induction gs as [|g gs IH]; simpl; [reflexivity|]. rewrite (flat_map_const_len _ _ (vol (md_n_locs gs))); [reflexivity|].
  intros a. rewrite map_length. exact IH.
Qed.
Lemma ravel_lt shape idx : Forall2 lt idx shape -> ravel shape idx < vol shape.
Proof.
  intros H. induction H as [|i n idx shape Hi H IH]; simpl; [lia|]. fold (vol shape).
  assert (i * vol shape + ravel shape idx < (i + 1) * vol shape) by lia. nia.
Qed.
Lemma cart_nth gs idx pt : Forall2 (fun (i : nat * Q) g => nth_error g (fst i) = Some (snd i)) (combine idx pt) gs -> length idx = length gs -> length pt = length gs ->
  nth_error (cart gs) (ravel (md_n_locs gs) idx) = Some pt.
Proof.
  revert idx pt. induction gs as [|g gs IH]; intros [|i idx] [|a pt] H L1 L2; simpl in *; try discriminate; [reflexivity|].
  inversion H as [|? ? ? ? H1 H2]; subst. simpl in H1. fold (vol (md_n_locs gs)).
  specialize (IH idx pt H2 ltac:(lia) ltac:(lia)).
  rewrite (flat_map_const_nth (fun a0 => map (cons a0) (cart gs)) g (vol (md_n_locs gs))).
  - rewrite H1, nth_error_map, IH. reflexivity.
  - intros b. rewrite map_length. apply cart_len.
  - rewrite <- cart_len. apply nth_error_Some. rewrite IH. discriminate.
Qed.
Lemma cart_xy_nth g0 g1 gs i j idx a b pt :
  nth_error g0 i = Some a -> nth_error g1 j = Some b -> length idx = length gs -> length pt = length gs ->
  Forall2 (fun (i : nat * Q) g => nth_error g (fst i) = Some (snd i)) (combine idx pt) gs ->
  nth_error (cart_xy (g0 :: g1 :: gs)) (ravel (length g1 :: length g0 :: md_n_locs gs) (j :: i :: idx)) = Some (a :: b :: pt).
Proof.
  intros Ha Hb L1 L2 H. pose proof (cart_nth gs idx pt H L1 L2) as C. cbn [cart_xy ravel fold_right]. fold (vol (md_n_locs gs)).
  assert (Li : i < length g0) by (apply nth_error_Some; congruence).
  assert (Lr : ravel (md_n_locs gs) idx < vol (md_n_locs gs)) by (rewrite <- cart_len; apply nth_error_Some; congruence).
  rewrite (flat_map_const_nth _ g1 (length g0 * vol (md_n_locs gs)) j).
  - rewrite Hb. rewrite (flat_map_const_nth _ g0 (vol (md_n_locs gs)) i).
    + rewrite Ha, nth_error_map, C. reflexivity.
    + intros x. rewrite map_length. apply cart_len.
    + assumption.
  - intros y. apply flat_map_const_len. intros x. rewrite map_length. apply cart_len.
  - nia.
Qed.
