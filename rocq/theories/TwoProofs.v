From Coq Require Import QArith Lqa Permutation.
From Verif Require Import Base OrderSpec BinSpec BinModel BinProofs BinProofs2 BinProofs3 BinProofs4 BinProofs5 TwoSpec TwoModel.
Local Open Scope list_scope. Local Open Scope nat_scope.

(** ** The histogram *)
Lemma dd_window e v i : ascending Qltb e -> S i < length e -> Z.eqb (dd_index e v) (Z.of_nat i) = in_window e i (S i) v.
Proof.
  intros A Hi. unfold in_window. destruct (nth_error e i) as [a|] eqn:Ea; [|apply nth_error_None in Ea; lia].
  destruct (nth_error e (S i)) as [b|] eqn:Eb; [|apply nth_error_None in Eb; lia].
  pose proof (ss_index Qltb e v Q_weak_order A) as [R B]. unfold bs_locate in *. set (c := searchsorted_right Qltb e v) in *.
  assert (Hl : nth_error e (length e - 1) = Some (last e 0%Q)) by (apply last_nth_error; intros ->; simpl in Hi; lia).
  pose proof (B _ _ Ea) as Ba. pose proof (B _ _ Eb) as Bb. pose proof (B _ _ Hl) as Bl. rewrite Qltb_ge in Ba, Bb, Bl.
  unfold dd_index. fold c. apply eq_true_iff_eq. rewrite Z.eqb_eq, andb_true_iff, orb_true_iff, andb_true_iff, Nat.eqb_eq, !Qle_bool_iff, Qltb_lt.
  destruct (Qeq_bool v (last e 0%Q)) eqn:Ev.
  - apply Qeq_bool_iff in Ev. assert (HC : Z.of_nat c = Z.of_nat (length e)) by (assert (HL : (last e 0 <= v)%Q) by lra; apply Bl in HL; lia).
    split.
    + intros H. assert (Li : S (S i) = length e) by lia. replace (length e - 1) with (S i) in Hl by lia. assert (b = last e 0%Q) by congruence. subst b. split; [apply Ba; lia|]. right. split; [exact Li|lra].
    + intros [H1 [H2|[H2 H3]]]; [|lia]. assert (HN : ~ (b <= v)%Q) by lra. rewrite <- Bb in HN. lia.
  - assert (Nv : ~ (v == last e 0)%Q) by (intros Z; apply Qeq_bool_iff in Z; congruence). split.
    + intros H. split; [apply Ba; lia|]. left. apply Qnot_le_lt. intros Z. apply Bb in Z. lia.
    + intros [H1 [H2|[H2 H3]]].
      * apply Ba in H1. assert (HN : ~ (b <= v)%Q) by lra. rewrite <- Bb in HN. lia.
      * replace (length e - 1) with (S i) in Hl by lia. assert (b = last e 0%Q) by congruence. subst b. apply Ba in H1. assert (HN : ~ (last e 0 <= v)%Q) by lra. rewrite <- Bb in HN. lia.
Qed.
Lemma cell_is xe ye s i j : ascending Qltb xe -> ascending Qltb ye -> S i < length xe -> S j < length ye -> dd_cell xe ye s i j = cell_weight xe ye s i j.
Proof.
  intros A1 A2 H1 H2. unfold dd_cell, cell_weight. apply weight_ext. intros p _. rewrite !dd_window by assumption. reflexivity.
Qed.
Lemma weight_and {X} (f g : X -> bool) (s : list (X * Q)) : weight_where (fun x => f x && g x) s = weight_where g (filter (fun p => f (fst p)) s).
Proof. unfold weight_where. rewrite filter_filter. reflexivity. Qed.
Lemma box_sum xe ye s : ascending Qltb xe -> ascending Qltb ye -> 2 <= length xe -> 2 <= length ye ->
  (Qsum (map (fun i => Qsum (map (cell_weight xe ye s i) (seq 0 (length ye - 1)))) (seq 0 (length xe - 1))) == box_weight xe ye s)%Q.
Proof.
  intros A1 A2 H1 H2. unfold box_weight.
  rewrite (Qsum_ext _ (fun i => weight_where (fun p => in_window xe (0 + i) (S (0 + i)) (fst p)) (filter (fun p => in_window ye 0 (length ye - 1) (snd (fst p))) s))).
  - rewrite (window_sum_by fst xe _ A1 (length xe - 1) 0) by lia.
    rewrite (weight_ext (fun p => in_window xe 0 (length xe - 1) (fst p) && _) (fun p : Q * Q => in_window ye 0 (length ye - 1) (snd p) && in_window xe 0 (length xe - 1) (fst p))) by (intros; apply andb_comm).
    rewrite (weight_and (fun p : Q * Q => in_window ye 0 (length ye - 1) (snd p))). reflexivity.
  - intros i _. unfold cell_weight.
    rewrite (Qsum_ext _ (fun j => weight_where (fun p => in_window ye (0 + j) (S (0 + j)) (snd p)) (filter (fun p => in_window xe i (S i) (fst (fst p))) s))).
    + rewrite (window_sum_by snd ye _ A2 (length ye - 1) 0) by lia. cbn [Nat.add].
      rewrite <- (weight_and (fun p : Q * Q => in_window xe i (S i) (fst p))), <- (weight_and (fun p : Q * Q => in_window ye 0 (length ye - 1) (snd p))).
      rewrite (weight_ext (fun x => in_window xe i (S i) (fst x) && _) (fun p : Q * Q => in_window ye 0 (length ye - 1) (snd p) && in_window xe i (S i) (fst p))) by (intros; apply andb_comm). reflexivity.
    + intros j _. cbn [Nat.add]. rewrite (weight_and (fun p : Q * Q => in_window xe i (S i) (fst p))). reflexivity.
Qed.
Lemma nth_map_seq {A} (f : nat -> A) n k d : k < n -> nth k (map f (seq 0 n)) d = f k.
Proof. intros H. apply nth_error_nth. rewrite nth_error_map_seq. destruct (Nat.ltb_spec k n); [reflexivity|lia]. Qed.
Lemma at2_table n m f i j : i < n -> j < m -> at2 (table n m f) i j = f i j.
Proof. intros Hi Hj. unfold at2, table. rewrite (nth_map_seq (fun i => map (f i) (seq 0 m))) by exact Hi. apply nth_map_seq. exact Hj. Qed.
Lemma table_total n m f : Qsum (map Qsum (table n m f)) = Qsum (map (fun i => Qsum (map (f i) (seq 0 m))) (seq 0 n)).
Proof. unfold table. rewrite map_map. reflexivity. Qed.

Lemma linspace_val lo hi n i v : (0 < n)%Z -> nth_error (linspace lo hi (Z.to_nat n + 1)) i = Some v -> (v == lo + inject_Z (Z.of_nat i) * ((hi - lo) / inject_Z n))%Q.
Proof.
  intros P H. apply linspace_nth in H. destruct H as [_ H]. subst v. replace (Z.to_nat n + 1 - 1) with (Z.to_nat n) by lia. rewrite Z2Nat.id by lia. reflexivity.
Qed.
Lemma linspace_incr lo hi n : (0 < n)%Z -> (lo < hi)%Q -> increasing Qltb (linspace lo hi (Z.to_nat n + 1)).
Proof.
  intros P L i j a b Hij Ha Hb. apply Qltb_lt. apply linspace_val in Ha; [|exact P]. apply linspace_val in Hb; [|exact P]. rewrite Ha, Hb.
  pose proof (step_pos lo hi n L P) as St. set (d := ((hi - lo) / inject_Z n)%Q) in *.
  assert (inject_Z (Z.of_nat i) < inject_Z (Z.of_nat j))%Q by (rewrite <- Zlt_Qlt; lia). nra.
Qed.
Lemma axis_asc bins range e : axis_edges bins range = Ok e -> ascending Qltb e.
Proof.
  unfold axis_edges. destruct bins as [n|e0].
  - destruct (n <? 1)%Z eqn:N; [discriminate|]. apply Z.ltb_ge in N. destruct (Qltb (snd range) (fst range)) eqn:L; [discriminate|]. apply Qltb_ge in L.
    destruct range as [lo hi]. cbn [fst snd] in *. destruct (Qeq_bool lo hi) eqn:E; intros H; apply Ok_inj in H; subst e.
    + apply increasing_ascending; [apply Q_weak_order|]. apply linspace_incr; [lia|lra].
    + apply increasing_ascending; [apply Q_weak_order|]. apply linspace_incr; [lia|]. assert (~ (lo == hi)%Q) by (intros Z; apply Qeq_bool_iff in Z; congruence). lra.
  - destruct (nondecreasing e0) eqn:N; [|discriminate]. intros H. apply Ok_inj in H. subst. apply nondec_spec. exact N.
Qed.
Lemma fit_spec xb yb xr yr x y w h : h2_fit xb yb xr yr x y w = Ok h ->
  length x = length y /\ axis_edges xb xr = Ok (h2_xe h) /\ axis_edges yb yr = Ok (h2_ye h) /\
  let n := length (h2_xe h) - 1 in let m := length (h2_ye h) - 1 in
  exists s, (2 <= length (h2_xe h) -> 2 <= length (h2_ye h) -> (s == box_weight (h2_xe h) (h2_ye h) (samples2 x y w))%Q) /\
  h2_z h = table n m (fun i j => at2 (table n m (dd_cell (h2_xe h) (h2_ye h) (samples2 x y w))) i j / width (h2_xe h) i / width (h2_ye h) j / s)%Q.
Proof.
  unfold h2_fit. destruct (Nat.eqb_spec (length x) (length y)) as [L|]; cbn [negb]; [|discriminate]. destruct (Nat.eqb (length x) _); cbn [negb]; [|discriminate].
  destruct (axis_edges xb xr) as [ex|] eqn:E1; cbn [bind]; [|discriminate]. destruct (axis_edges yb yr) as [ey|] eqn:E2; cbn [bind]; [|discriminate].
  intros H. apply Ok_inj in H. subst h. cbn [h2_xe h2_ye h2_z]. split; [exact L|]. split; [reflexivity|]. split; [reflexivity|]. cbv zeta.
  eexists. split; [|reflexivity]. intros H1 H2. rewrite table_total. rewrite <- box_sum; [|eapply axis_asc; eassumption|eapply axis_asc; eassumption|assumption|assumption].
  apply Qsum_ext. intros i Hi. apply in_seq in Hi. apply Qsum_ext. intros j Hj. apply in_seq in Hj. rewrite cell_is; [reflexivity|eapply axis_asc; eassumption|eapply axis_asc; eassumption|lia|lia].
Qed.

(** ** Reading *)
Lemma ssl_right_closed e i x : ascending Qltb e -> right_closed e i x -> searchsorted_left Qltb e x = S i.
Proof.
  intros A (a & b & Ha & Hb & L1 & L2). apply ssl_unique; [apply Q_weak_order|exact A| | |].
  - apply nth_error_Some. congruence.
  - intros k c Hk Hle. apply Qltb_lt. destruct (Nat.eq_dec k i) as [->|N]; [assert (c = a) by congruence; subst; assumption|].
    assert (Hki : k < i) by lia. pose proof (A _ _ _ _ Hki Hk Ha) as Q. apply Qltb_ge in Q. lra.
  - intros k c Hk Hle. apply Qltb_ge. destruct (Nat.eq_dec k (S i)) as [->|N]; [assert (c = b) by congruence; subst; assumption|].
    assert (Hki : S i < k) by lia. pose proof (A _ _ _ _ Hki Hb Hk) as Q. apply Qltb_ge in Q. lra.
Qed.
Lemma ssl_below e x a : ascending Qltb e -> nth_error e 0 = Some a -> (x <= a)%Q -> searchsorted_left Qltb e x = 0.
Proof.
  intros A Ha L. apply ssl_unique; [apply Q_weak_order|exact A|lia|intros; lia|]. intros k c Hk _. apply Qltb_ge. destruct k as [|k]; [assert (c = a) by congruence; subst; assumption|].
  pose proof (A 0 (S k) _ _ ltac:(lia) Ha Hk) as Q. apply Qltb_ge in Q. lra.
Qed.
Lemma ssl_above e x b : ascending Qltb e -> nth_error e (length e - 1) = Some b -> (b < x)%Q -> searchsorted_left Qltb e x = length e.
Proof.
  intros A Hb L. apply ssl_unique; [apply Q_weak_order|exact A|lia| |intros k c Hk H; assert (k < length e) by (apply nth_error_Some; congruence); lia].
  intros k c Hk Hl. apply Qltb_lt. destruct (Nat.eq_dec k (length e - 1)) as [->|N]; [assert (c = b) by congruence; subst; assumption|].
  pose proof (A k (length e - 1) _ _ ltac:(lia) Hk Hb) as Q. apply Qltb_ge in Q. lra.
Qed.
Lemma clip_nearest e i x : ascending Qltb e -> 2 <= length e -> nearest_cell e i x ->
  zclip 0 (Z.of_nat (length e - 1) - 1) (Z.of_nat (searchsorted_left Qltb e x) - 1) = Z.of_nat i.
Proof.
  intros A L [H|[(-> & a & Ha & H)|(Hi & b & Hb & H)]]; unfold zclip.
  - rewrite (ssl_right_closed e i x A H). destruct H as (a & b & _ & Hb & _). assert (S i < length e) by (apply nth_error_Some; congruence). lia.
  - rewrite (ssl_below e x a A Ha H). lia.
  - replace (S i) with (length e - 1) in Hb by lia. rewrite (ssl_above e x b A Hb H). lia.
Qed.
Lemma clip_inside e i x : ascending Qltb e -> right_closed e i x -> (Z.of_nat (searchsorted_left Qltb e x) - 1 = Z.of_nat i)%Z.
Proof. intros A H. rewrite (ssl_right_closed e i x A H). lia. Qed.
Lemma clip_outside e x : ascending Qltb e -> 2 <= length e -> outside e x ->
  zclip 0 (Z.of_nat (length e - 1) - 1) (Z.of_nat (searchsorted_left Qltb e x) - 1) <> (Z.of_nat (searchsorted_left Qltb e x) - 1)%Z.
Proof.
  intros A L [(a & Ha & H)|(b & Hb & H)]; unfold zclip; [rewrite (ssl_below e x a A Ha H)|rewrite (ssl_above e x b A Hb H)]; lia.
Qed.

(** ** Meshes *)
Lemma mesh_flat_nth {A} (on : Q -> Q -> A) (l l' : list Q) (f : Q -> Q -> Q * Q) i j a b : nth_error l j = Some b -> nth_error l' i = Some a ->
  nth_error (flat_map (fun b => map (fun a => f a b) l') l) (j * length l' + i) = Some (f a b).
Proof.
  intros Hb Ha. rewrite (flat_map_const_nth (fun b => map (fun a => f a b) l') l (length l') j i).
  - rewrite Hb. rewrite nth_error_map, Ha. reflexivity.
  - intros. apply map_length.
  - apply nth_error_Some. congruence.
Qed.
Lemma reshape_nth {A} rows cols (l : list A) r c : r < rows -> c < cols -> exists row, nth_error (reshape rows cols l) r = Some row /\ nth_error row c = nth_error l (r * cols + c).
Proof.
  intros Hr Hc. unfold reshape. rewrite nth_error_map_seq. destruct (Nat.ltb_spec r rows); [|lia]. eexists. split; [reflexivity|].
  rewrite nth_error_firstn. destruct (Nat.ltb_spec c cols); [|lia]. apply nth_error_skipn.
Qed.

(** ** Levels *)
Lemma cumsum_nth l : forall acc k, k < length l -> exists v, nth_error (cumsum_from acc l) k = Some v /\ (v == acc + Qsum (firstn (S k) l))%Q.
Proof.
  induction l as [|a l IH]; intros acc k Hk; cbn [length] in Hk; [lia|]. destruct k as [|k]; cbn [cumsum_from nth_error].
  - exists (acc + a)%Q. split; [reflexivity|]. cbn [firstn Qsum]. ring.
  - destruct (IH (acc + a)%Q k ltac:(lia)) as (v & E & H). exists v. split; [exact E|]. rewrite H. change (firstn (S (S k)) (a :: l)) with (a :: firstn (S k) l). cbn [Qsum]. ring.
Qed.
Lemma cumsum_len l : forall acc, length (cumsum_from acc l) = length l.
Proof. induction l as [|a l IH]; intros acc; cbn [cumsum_from length]; [reflexivity|rewrite IH; reflexivity]. Qed.
Lemma Qsum_perm l l' : Permutation l l' -> (Qsum l == Qsum l')%Q.
Proof. induction 1; cbn [Qsum]; [reflexivity|rewrite IHPermutation; reflexivity|ring|rewrite IHPermutation1; assumption]. Qed.
Lemma filter_perm {A} (f : A -> bool) l l' : Permutation l l' -> Permutation (filter f l) (filter f l').
Proof. induction 1; cbn [filter]; [reflexivity|destruct (f x); auto|destruct (f x); destruct (f y); try reflexivity; apply perm_swap|etransitivity; eassumption]. Qed.
Lemma mass_perm f l l' : Permutation l l' -> (mass_where f l == mass_where f l')%Q.
Proof. intros H. apply Qsum_perm, filter_perm, H. Qed.
Lemma mass_app f l l' : (mass_where f (l ++ l') == mass_where f l + mass_where f l')%Q.
Proof. unfold mass_where. rewrite filter_app. apply Qsum_app. Qed.
Lemma mass_all f l : (forall a, In a l -> f a = true) -> mass_where f l = Qsum l.
Proof. unfold mass_where. induction l as [|a l IH]; intros H; cbn [filter]; [reflexivity|]. rewrite (H a (or_introl eq_refl)). cbn [Qsum]. rewrite IH; [reflexivity|]. intros b Hb. apply H. right. exact Hb. Qed.
Lemma mass_none f l : (forall a, In a l -> f a = false) -> mass_where f l = 0%Q.
Proof. unfold mass_where. induction l as [|a l IH]; intros H; cbn [filter]; [reflexivity|]. rewrite (H a (or_introl eq_refl)). apply IH. intros b Hb. apply H. right. exact Hb. Qed.
Lemma mass_nonneg f l : Forall (fun a => 0 <= a)%Q l -> (0 <= mass_where f l)%Q.
Proof. unfold mass_where. induction 1 as [|a l H F IH]; cbn [filter Qsum]; [lra|]. destruct (f a); cbn [Qsum]; lra. Qed.
Lemma mass_le f l : Forall (fun a => 0 <= a)%Q l -> (mass_where f l <= Qsum l)%Q.
Proof. unfold mass_where. induction 1 as [|a l H F IH]; cbn [filter Qsum]; [lra|]. destruct (f a); cbn [Qsum]; lra. Qed.
Lemma Qsum_nonneg l : Forall (fun a => 0 <= a)%Q l -> (0 <= Qsum l)%Q.
Proof. induction 1; cbn [Qsum]; lra. Qed.

Section levels.
Context (zs : list Q) (NE : zs <> []).
Let l := np_sort Qltb zs.
Let T := last (cumsum_from 0 l) 0%Q.
Let prob := map (fun v => v / T)%Q (cumsum_from 0 l).
Lemma lev_perm : Permutation l zs.
Proof. apply sort_perm. Qed.
Lemma lev_len : length l = length zs /\ 0 < length l.
Proof. pose proof (Permutation_length lev_perm). split; [exact H|]. destruct zs; [congruence|cbn in *; lia]. Qed.
Lemma lev_asc : ascending Qltb l.
Proof. apply sort_asc, Q_weak_order. Qed.
Lemma lev_T : (T == Qsum zs)%Q.
Proof.
  rewrite <- (Qsum_perm _ _ lev_perm). destruct lev_len as [_ P]. destruct (cumsum_nth l 0 (length l - 1) ltac:(lia)) as (v & E & H).
  assert (L : nth_error (cumsum_from 0 l) (length (cumsum_from 0 l) - 1) = Some T) by (apply last_nth_error; intros Z; pose proof (cumsum_len l 0) as C; rewrite Z in C; cbn in C; lia).
  rewrite cumsum_len in L. assert (v = T) by congruence. subst v. rewrite H. replace (S (length l - 1)) with (length l) by lia. rewrite firstn_all. ring.
Qed.
Lemma prob_nth k : k < length l -> exists v, nth_error prob k = Some v /\ (v == Qsum (firstn (S k) l) / T)%Q.
Proof.
  intros H. destruct (cumsum_nth l 0 k H) as (v & E & Q). unfold prob. rewrite nth_error_map, E. eexists. split; [reflexivity|]. rewrite Q. unfold Qdiv. ring.
Qed.
Lemma prob_len : length prob = length l.
Proof. unfold prob. rewrite map_length. apply cumsum_len. Qed.
Definition lev_id (p : Q) (sh : Z) : nat := Z.to_nat (zclip 0 (Z.of_nat (length prob) - 1) (Z.of_nat (searchsorted_left Qltb prob (1 - p)%Q) + sh)).
Lemma lev_is p sh : z_level zs p sh = nth (lev_id p sh) l 0%Q.
Proof. reflexivity. Qed.
Lemma lev_id_lt p sh : lev_id p sh < length l.
Proof. unfold lev_id, zclip. rewrite prob_len. pose proof lev_len. lia. Qed.
Lemma lev_mono_id i j : i <= j -> j < length l -> (nth i l 0 <= nth j l 0)%Q.
Proof.
  intros Hij Hj. destruct (Nat.eq_dec i j) as [->|N]; [lra|]. assert (Lt : i < j) by lia.
  pose proof (lev_asc i j (nth i l 0%Q) (nth j l 0%Q) Lt (nth_error_nth' l 0%Q (Nat.lt_trans _ _ _ Lt Hj)) (nth_error_nth' l 0%Q Hj)) as Q. apply Qltb_ge in Q. exact Q.
Qed.
Lemma ssl_mono (es : list Q) a b : (a <= b)%Q -> searchsorted_left Qltb es a <= searchsorted_left Qltb es b.
Proof.
  intros L. induction es as [|e es IH]; cbn [searchsorted_left]; [lia|]. destruct (Qltb e a) eqn:E1; [|lia].
  apply Qltb_lt in E1. assert (E2 : Qltb e b = true) by (apply Qltb_lt; lra). rewrite E2. lia.
Qed.
Lemma lev_mono p q sh : (p <= q)%Q -> (z_level zs q sh <= z_level zs p sh)%Q.
Proof.
  intros H. rewrite !lev_is. apply lev_mono_id; [|apply lev_id_lt]. unfold lev_id, zclip.
  pose proof (ssl_mono prob (1 - q)%Q (1 - p)%Q ltac:(lra)). lia.
Qed.
Lemma lev_shift p : (z_level zs p (-1) <= z_level zs p 0)%Q.
Proof. rewrite !lev_is. apply lev_mono_id; [|apply lev_id_lt]. unfold lev_id, zclip. lia. Qed.
Lemma lev_in p sh : In (z_level zs p sh) zs.
Proof. rewrite lev_is. apply (Permutation_in _ lev_perm). apply nth_In. apply lev_id_lt. Qed.
Context (F : Forall (fun a => 0 <= a)%Q zs) (P : (0 < Qsum zs)%Q).
Lemma lev_nonneg : Forall (fun a => 0 <= a)%Q l.
Proof. rewrite Forall_forall in *. intros a Ha. apply F. apply (Permutation_in _ lev_perm). exact Ha. Qed.
Lemma sub_nonneg n : Forall (fun a => 0 <= a)%Q (firstn n l) /\ Forall (fun a => 0 <= a)%Q (skipn n l).
Proof. pose proof lev_nonneg as H. rewrite <- (firstn_skipn n l) in H. apply Forall_app in H. exact H. Qed.
Lemma prob_asc : ascending Qltb prob.
Proof.
  apply asc_adjacent. intros i a b Ha Hb. assert (Hi : S i < length l) by (rewrite <- prob_len; apply nth_error_Some; congruence).
  destruct (prob_nth i ltac:(lia)) as (v & E & Q). destruct (prob_nth (S i) Hi) as (v' & E' & Q'). assert (a = v) by congruence. assert (b = v') by congruence. subst. rewrite Q, Q'.
  apply Qmult_le_compat_r; [|apply Qinv_le_0_compat; rewrite lev_T; lra].
  assert (Ef : firstn (S (S i)) l = firstn (S i) l ++ firstn 1 (skipn (S i) l)).
  { rewrite <- (firstn_skipn (S i) (firstn (S (S i)) l)), firstn_firstn, firstn_skipn_comm. replace (Nat.min (S i) (S (S i))) with (S i) by lia. replace (S i + 1) with (S (S i)) by lia. reflexivity. }
  rewrite Ef, Qsum_app. assert (0 <= Qsum (firstn 1 (skipn (S i) l)))%Q; [|lra].
  apply Qsum_nonneg. pose proof (proj2 (sub_nonneg (S i))) as H. rewrite <- (firstn_skipn 1 (skipn (S i) l)) in H. apply Forall_app in H. apply H.
Qed.
Lemma lev_mass p : (0 <= p)%Q -> (p <= 1)%Q -> let L := z_level zs p 0 in
  (p * Qsum zs <= mass_where (fun v => Qle_bool L v) zs)%Q /\ (mass_where (fun v => Qltb L v) zs <= p * Qsum zs)%Q.
Proof.
  intros H0 H1. cbv zeta. rewrite lev_is. set (c := searchsorted_left Qltb prob (1 - p)%Q).
  pose proof (ssl_spec Qltb prob (1 - p)%Q Q_weak_order prob_asc) as [_ S]. fold c in S. pose proof lev_T as HT. destruct lev_len as [_ Pl].
  assert (Hc : c < length l).
  { destruct (Nat.ltb_spec c (length l)) as [|H]; [assumption|exfalso]. destruct (prob_nth (length l - 1) ltac:(lia)) as (v & E & Q).
    pose proof (S _ _ E) as Q'. destruct (Nat.ltb_spec (length l - 1) c) as [_|]; [|lia]. apply Qltb_lt in Q'. rewrite Q in Q'.
    replace (Datatypes.S (length l - 1)) with (length l) in Q' by lia. rewrite firstn_all, (Qsum_perm _ _ lev_perm), <- HT in Q'.
    assert (T / T == 1)%Q by (field; lra). lra. }
  assert (Ei : lev_id p 0 = c) by (unfold lev_id, zclip; fold c; rewrite prob_len; lia). rewrite Ei. set (L := nth c l 0%Q).
  assert (Tot : forall n, (Qsum zs == Qsum (firstn n l) + Qsum (skipn n l))%Q) by (intros n; rewrite <- Qsum_app, firstn_skipn; symmetry; apply Qsum_perm, lev_perm).
  split.
  - rewrite <- (mass_perm _ _ _ lev_perm). rewrite <- (firstn_skipn c l) at 1. rewrite mass_app. pose proof (mass_nonneg (fun v => Qle_bool L v) _ (proj1 (sub_nonneg c))).
    rewrite (mass_all _ (skipn c l)).
    + specialize (Tot c). assert (Hp1 : (p * Qsum zs <= Qsum zs)%Q) by (rewrite <- (Qmult_1_l (Qsum zs)) at 2; apply Qmult_le_compat_r; lra). destruct c as [|k] eqn:Ck; [cbn [firstn Qsum] in Tot; lra|].
      destruct (prob_nth k ltac:(lia)) as (v & E & Q). pose proof (S _ _ E) as Q'. destruct (Nat.ltb_spec k (Datatypes.S k)) as [_|]; [|lia]. apply Qltb_lt in Q'. rewrite Q in Q'.
      assert (Qsum (firstn (Datatypes.S k) l) <= (1 - p) * T)%Q; [|nra]. assert (Qsum (firstn (Datatypes.S k) l) == (Qsum (firstn (Datatypes.S k) l) / T) * T)%Q by (field; lra). nra.
    + intros a Ha. apply Qle_bool_iff. apply In_nth_error in Ha. destruct Ha as [k Hk]. rewrite nth_error_skipn in Hk.
      assert (c + k < length l) by (apply nth_error_Some; congruence). pose proof (lev_mono_id c (c + k) ltac:(lia) ltac:(assumption)) as M. rewrite (nth_error_nth _ _ 0%Q Hk) in M. exact M.
  - rewrite <- (mass_perm _ _ _ lev_perm). rewrite <- (firstn_skipn (Datatypes.S c) l) at 1. rewrite mass_app. rewrite (mass_none _ (firstn _ _)).
    + pose proof (mass_le (fun v => Qltb L v) _ (proj2 (sub_nonneg (Datatypes.S c)))) as M. specialize (Tot (Datatypes.S c)).
      destruct (prob_nth c Hc) as (v & E & Q). pose proof (S _ _ E) as Q'. destruct (Nat.ltb_spec c c) as [|_]; [lia|]. apply Qltb_ge in Q'. rewrite Q in Q'.
      assert ((1 - p) * T <= Qsum (firstn (Datatypes.S c) l))%Q; [|nra]. assert (Qsum (firstn (Datatypes.S c) l) == (Qsum (firstn (Datatypes.S c) l) / T) * T)%Q by (field; lra). nra.
    + intros a Ha. apply Qltb_ge. apply In_nth_error in Ha. destruct Ha as [k Hk]. rewrite nth_error_firstn in Hk. destruct (Nat.ltb_spec k (Datatypes.S c)); [|discriminate].
      pose proof (lev_mono_id k c ltac:(lia) Hc) as M. rewrite (nth_error_nth _ _ 0%Q Hk) in M. exact M.
Qed.
End levels.
