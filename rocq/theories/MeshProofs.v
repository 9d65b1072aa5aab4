From Coq Require Import QArith Qround Qabs Qminmax Lqa Permutation.
From Verif Require Import Base OrderSpec BinSpec BinModel BinProofs BinProofs2 BinProofs3 MeshSpec ProcModel ProcProofs MeshModel.
Local Open Scope list_scope. Local Open Scope nat_scope.

(** ** cells *)
Lemma flat_range n i0 i1 i2 : (0 <= i0 < n)%Z -> (0 <= i1 < n)%Z -> (0 <= i2 < n)%Z -> (0 <= flat n i0 i1 i2 < n * n * n)%Z.
Proof. unfold flat. intros. nia. Qed.
Lemma flat_inj n i0 i1 i2 j0 j1 j2 : (0 <= i1 < n)%Z -> (0 <= i2 < n)%Z -> (0 <= j1 < n)%Z -> (0 <= j2 < n)%Z ->
  flat n i0 i1 i2 = flat n j0 j1 j2 -> i0 = j0 /\ i1 = j1 /\ i2 = j2.
Proof.
  assert (G : forall a b i j, (0 <= i < n)%Z -> (0 <= j < n)%Z -> (a * n + i = b * n + j)%Z -> a = b /\ i = j).
  { intros a b i j Hi Hj E. apply (Z.div_mod_unique n a b i j); lia. }
  unfold flat. intros H1 H2 H3 H4 E. apply G in E; [|assumption..]. destruct E as [E ->]. apply G in E; [|assumption..]. destruct E as [-> ->]. auto.
Qed.
Lemma x2xi_f_range m x : (0 < n_grids m)%Z -> (0 <= x2xi_f m x < n_grids m * n_grids m * n_grids m)%Z.
Proof. intros H. destruct x as [[x0 x1] x2]. unfold x2xi_f. apply flat_range; apply Z.mod_pos_bound; assumption. Qed.

(** ** filling the cell table *)
Definition splits (xi : list Z) (c : Z) (b : nat) : Prop := b <= length xi /\ forall p k, nth_error xi p = Some k -> (p < b <-> (k < c)%Z).
Definition nondec (xi : list Z) : Prop := forall p q k k', p <= q -> nth_error xi p = Some k -> nth_error xi q = Some k' -> (k <= k')%Z.
Lemma advance_spec i_f l e : exists d, advance i_f l e = e + d /\ d <= length l /\ (forall p k, p < d -> nth_error l p = Some k -> (k <= i_f)%Z) /\
  (forall k, nth_error l d = Some k -> (i_f < k)%Z).
Proof.
  revert e. induction l as [|x l IH]; intros e; simpl.
  - exists 0. split; [lia|]. split; [lia|]. split; [intros; lia|discriminate].
  - destruct (Z.gtb_spec x i_f) as [G|G].
    + exists 0. split; [lia|]. split; [lia|]. split; [intros; lia|]. intros k E. injection E as <-. lia.
    + destruct (IH (S e)) as (d & E & L & A & B). exists (S d). split; [lia|]. split; [lia|]. split; [|exact B].
      intros [|p] k Hp Hk; simpl in Hk; [injection Hk as <-; lia|]. eapply A; [|eassumption]. lia.
Qed.
Lemma advance_splits xi c b : nondec xi -> splits xi c b -> splits xi (c + 1) (advance c (skipn b xi) b) /\ b <= advance c (skipn b xi) b.
Proof.
  intros N [Lb Sb]. destruct (advance_spec c (skipn b xi) b) as (d & E & L & A & B). rewrite E. rewrite skipn_length in L. split; [|lia].
  split; [lia|]. intros p k Hp. destruct (lt_dec p b) as [H|H].
  - pose proof (proj1 (Sb p k Hp) H). split; intros; lia.
  - assert (Hk : nth_error (skipn b xi) (p - b) = Some k) by (rewrite nth_error_skipn; replace (b + (p - b)) with p by lia; assumption).
    split; intros H1.
    + assert (k <= c)%Z by (eapply A; [|eassumption]; lia). lia.
    + destruct (lt_dec p (b + d)) as [|G]; [assumption|exfalso].
      assert (D : b + d < length xi) by (assert (p < length xi) by (apply nth_error_Some; congruence); lia).
      destruct (nth_error xi (b + d)) as [k'|] eqn:E'; [|apply nth_error_None in E'; lia].
      assert (c < k')%Z by (apply B; rewrite nth_error_skipn; assumption).
      assert (k' <= k)%Z by (eapply (N (b + d) p); eauto; lia). lia.
Qed.
Lemma fill_spec xi : nondec xi -> forall num c b, splits xi (Z.of_nat c) b ->
  length (fill (map Z.of_nat (seq c num)) xi b) = num /\
  forall i, i < num -> splits xi (Z.of_nat (c + S i)) (nth i (fill (map Z.of_nat (seq c num)) xi b) 0) /\
     nth i (b :: fill (map Z.of_nat (seq c num)) xi b) 0 <= nth i (fill (map Z.of_nat (seq c num)) xi b) 0.
Proof.
  intros N. induction num as [|num IH]; intros c b Sb; [split; [reflexivity|intros; lia]|].
  cbn [seq map fill]. destruct (advance_splits xi (Z.of_nat c) b N Sb) as [Se Le].
  replace (Z.of_nat c + 1)%Z with (Z.of_nat (S c)) in Se by lia.
  destruct (IH (S c) _ Se) as [L H]. split; [cbn [length]; rewrite L; reflexivity|].
  intros [|i] Hi.
  - cbn [nth]. replace (c + 1) with (S c) by lia. split; [exact Se|exact Le].
  - destruct (H i ltac:(lia)) as [H1 H2]. cbn [nth] in *. replace (c + S (S i)) with (S c + S i) by lia. split; [exact H1|exact H2].
Qed.
Lemma firsts_splits n xi : nondec xi -> (forall k, In k xi -> (0 <= k)%Z) -> length (0 :: fill (cells n) xi 0) = S (Z.to_nat (n * n * n)) /\
  forall c, c <= Z.to_nat (n * n * n) -> splits xi (Z.of_nat c) (nth c (0 :: fill (cells n) xi 0) 0).
Proof.
  intros N P. assert (S0 : splits xi (Z.of_nat 0) 0).
  { split; [lia|]. intros p k Hp. apply nth_error_In in Hp. apply P in Hp. split; intros; lia. }
  unfold cells. destruct (fill_spec xi N (Z.to_nat (n * n * n)) 0 0 S0) as [L H]. split; [cbn [length]; rewrite L; reflexivity|].
  intros [|c] Hc; [exact S0|]. apply (H c). lia.
Qed.
Lemma splits_mono xi c c' b b' : splits xi c b -> splits xi c' b' -> (c <= c')%Z -> b <= b'.
Proof.
  intros [Lb Sb] [Lb' Sb'] H. destruct (le_lt_dec b b') as [|G]; [assumption|exfalso].
  destruct (nth_error xi b') as [k|] eqn:E; [|apply nth_error_None in E; lia].
  assert (k < c)%Z by (apply (Sb b' k E); assumption). assert (b' < b') by (apply (Sb' b' k E); lia). lia.
Qed.
(** A slice between two split points is the sublist with keys in between. *)
Lemma slice_filter {A} (key : A -> Z) (l : list A) c b e : splits (map key l) c b -> splits (map key l) (c + 1) e ->
  slice l b e = filter (fun a => (key a =? c)%Z) l.
Proof.
  intros Hb He. assert (BE : b <= e) by (eapply splits_mono; eauto; lia). unfold slice.
  destruct Hb as [Lb Sb], He as [Le Se]. rewrite map_length in *.
  assert (G : forall l b e, b <= e -> e <= length l ->
    (forall p a, nth_error l p = Some a -> (p < b <-> (key a < c)%Z)) -> (forall p a, nth_error l p = Some a -> (p < e <-> (key a < c + 1)%Z)) ->
    firstn (e - b) (skipn b l) = filter (fun a => (key a =? c)%Z) l).
  { clear. induction l as [|a l IH]; intros b e H L Sb Se.
    - rewrite skipn_nil, firstn_nil. reflexivity.
    - assert (Sb' : forall p a', nth_error l p = Some a' -> (S p < b <-> (key a' < c)%Z)) by (intros p a' Hp; apply (Sb (S p) a'); exact Hp).
      assert (Se' : forall p a', nth_error l p = Some a' -> (S p < e <-> (key a' < c + 1)%Z)) by (intros p a' Hp; apply (Se (S p) a'); exact Hp).
      pose proof (Sb 0 a eq_refl) as S0. pose proof (Se 0 a eq_refl) as S1. cbn [filter].
      destruct b as [|b].
      + destruct e as [|e].
        * destruct (Z.eqb_spec (key a) c); [lia|]. rewrite <- (IH 0 0); [reflexivity|lia|lia| |].
          -- intros p a' Hp. specialize (Sb' p a' Hp). lia.
          -- intros p a' Hp. specialize (Se' p a' Hp). lia.
        * destruct (Z.eqb_spec (key a) c); [|lia]. cbn [skipn Nat.sub firstn]. f_equal.
          rewrite <- (IH 0 e); [rewrite Nat.sub_0_r; reflexivity|lia|cbn [length] in L; lia| |].
          -- intros p a' Hp. specialize (Sb' p a' Hp). lia.
          -- intros p a' Hp. specialize (Se' p a' Hp). lia.
      + destruct e as [|e]; [lia|]. destruct (Z.eqb_spec (key a) c); [lia|]. cbn [skipn Nat.sub].
        apply IH; [lia|cbn [length] in L; lia| |].
        * intros p a' Hp. specialize (Sb' p a' Hp). lia.
        * intros p a' Hp. specialize (Se' p a' Hp). lia. }
  apply G; try assumption.
  - intros p a Hp. apply (Sb p (key a)). rewrite nth_error_map, Hp. reflexivity.
  - intros p a Hp. apply (Se p (key a)). rewrite nth_error_map, Hp. reflexivity.
Qed.
(** ** permutations *)
Lemma take_seq {A} (d : A) l : take d (seq 0 (length l)) l = l.
Proof.
  unfold take. apply nth_error_ext'. intros i. rewrite nth_error_map_seq. destruct (Nat.ltb_spec i (length l)) as [H|H].
  - symmetry. apply nth_error_nth'. assumption.
  - symmetry. apply nth_error_None. assumption.
Qed.
Lemma take_perm {A} (d : A) l args : Permutation args (seq 0 (length l)) -> Permutation (take d args l) l.
Proof. intros H. rewrite <- (take_seq d l) at 2. apply Permutation_map. exact H. Qed.
Lemma take_keys m xs args d : Permutation args (seq 0 (length xs)) -> take 0%Z args (keys m xs) = map (x2xi_f m) (take d args xs).
Proof.
  intros H. unfold take, keys. rewrite map_map. apply map_ext_in. intros i Hi. rewrite (nth_indep _ 0%Z (x2xi_f m d)).
  - apply map_nth.
  - rewrite map_length. apply (Permutation_in _ H) in Hi. apply in_seq in Hi. lia.
Qed.
Lemma sorts_nondec ks args : sorts ks args -> nondec (take 0%Z args ks).
Proof.
  intros [P A]. assert (G : forall d p k k', nth_error (take 0%Z args ks) p = Some k -> nth_error (take 0%Z args ks) (p + d) = Some k' -> (k <= k')%Z).
  { induction d as [|d IH]; intros p k k' Hk Hk'.
    - rewrite Nat.add_0_r in Hk'. assert (k = k') by congruence. lia.
    - destruct (nth_error (take 0%Z args ks) (p + d)) as [k''|] eqn:E.
      + specialize (IH p k k'' Hk E). unfold take in E, Hk'. rewrite nth_error_map in E, Hk'.
        destruct (nth_error args (p + d)) as [a|] eqn:Ea; [|discriminate]. destruct (nth_error args (p + S d)) as [b|] eqn:Eb; [|discriminate].
        replace (p + S d) with (S (p + d)) in Eb by lia. specialize (A _ _ _ Ea Eb). cbn [option_map] in *.
        assert (nth a ks 0%Z = k'') by congruence. assert (nth b ks 0%Z = k') by congruence. lia.
      + apply nth_error_None in E. assert (p + S d < length (take 0%Z args ks)) by (apply nth_error_Some; congruence). lia. }
  intros p q k k' H Hp Hq. apply (G (q - p) p k k' Hp). replace (p + (q - p)) with q by lia. assumption.
Qed.
Lemma perm_split {A} (f g : A -> bool) l : (forall a, In a l -> f a && g a = false) ->
  Permutation (filter f l ++ filter g l) (filter (fun a => f a || g a) l).
Proof.
  induction l as [|a l IH]; intros H; [constructor|]. specialize (IH (fun b Hb => H b (or_intror Hb))). specialize (H a (or_introl eq_refl)).
  cbn [filter]. destruct (f a), (g a); cbn [orb andb] in *; try discriminate.
  - cbn [app]. constructor. exact IH.
  - etransitivity; [apply Permutation_sym, Permutation_middle|]. constructor. exact IH.
  - exact IH.
Qed.
Lemma flat_map_filter_perm {A} (key : A -> Z) (l : list A) cs : NoDup cs ->
  Permutation (flat_map (fun c => filter (fun a => (key a =? c)%Z) l) cs) (filter (fun a => existsb (Z.eqb (key a)) cs) l).
Proof.
  induction 1 as [|c cs Hc H IH]; cbn [flat_map existsb].
  - replace (filter (fun _ : A => false) l) with (@nil A); [constructor|]. induction l; auto.
  - etransitivity; [apply Permutation_app_head, IH|]. rewrite perm_split; [reflexivity|].
    intros a _. destruct (Z.eqb_spec (key a) c) as [<-|]; [|reflexivity]. cbn [andb]. apply not_true_iff_false. intros E. apply existsb_exists in E.
    destruct E as (c' & H1 & H2). apply Z.eqb_eq in H2. subst c'. contradiction.
Qed.
Lemma filter_neg_perm {A} (f : A -> bool) l : Permutation (filter f l ++ filter (fun a => negb (f a)) l) l.
Proof.
  rewrite perm_split by (intros a _; destruct (f a); reflexivity). replace (filter (fun a => f a || negb (f a)) l) with l; [reflexivity|].
  induction l as [|a l IH]; [reflexivity|]. cbn [filter]. destruct (f a); cbn [orb negb]; rewrite <- IH; reflexivity.
Qed.

(** ** the index *)
Lemma index_cell m xs args c : (0 < n_grids m)%Z -> sorts (keys m xs) args -> (0 <= c < n_grids m * n_grids m * n_grids m)%Z ->
  let p := from_meshing_points m xs args in
  slice (p_xs p) (nth (Z.to_nat c) (p_firsts p) 0) (nth (S (Z.to_nat c)) (p_firsts p) 0) = filter (fun y => (x2xi_f m y =? c)%Z) (p_xs p).
Proof.
  intros Hn Hs Hc p. destruct Hs as [HP HA]. unfold keys in HP. rewrite map_length in HP.
  assert (Hs : sorts (keys m xs) args) by (split; [unfold keys; rewrite map_length|]; assumption).
  pose proof (sorts_nondec _ _ Hs) as N. rewrite (take_keys m xs args (0,0,0)%Q HP) in N.
  assert (P : forall k, In k (map (x2xi_f m) (take (0,0,0)%Q args xs)) -> (0 <= k)%Z).
  { intros k Hk. apply in_map_iff in Hk. destruct Hk as (y & <- & _). apply x2xi_f_range. assumption. }
  destruct (firsts_splits (n_grids m) _ N P) as [_ SP]. unfold p, from_meshing_points; cbn [p_xs p_firsts]. rewrite (take_keys m xs args (0,0,0)%Q HP).
  apply slice_filter.
  - pose proof (SP (Z.to_nat c) ltac:(lia)) as S1. rewrite Z2Nat.id in S1 by lia. exact S1.
  - pose proof (SP (S (Z.to_nat c)) ltac:(lia)) as S1. replace (Z.of_nat (S (Z.to_nat c))) with (c + 1)%Z in S1 by lia. exact S1.
Qed.
Lemma index_table m xs args : (0 < n_grids m)%Z -> sorts (keys m xs) args ->
  let p := from_meshing_points m xs args in
  length (p_firsts p) = S (Z.to_nat (n_grids m * n_grids m * n_grids m)) /\
  nth 0 (p_firsts p) 0 = 0 /\ last (p_firsts p) 0 = length xs /\
  (forall i j, i <= j -> j < length (p_firsts p) -> nth i (p_firsts p) 0 <= nth j (p_firsts p) 0) /\
  Permutation (p_xs p) xs.
Proof.
  intros Hn [HP HA] p. unfold keys in HP. rewrite map_length in HP.
  assert (Hs : sorts (keys m xs) args) by (split; [unfold keys; rewrite map_length|]; assumption).
  pose proof (sorts_nondec _ _ Hs) as N. rewrite (take_keys m xs args (0,0,0)%Q HP) in N.
  set (xi := map (x2xi_f m) (take (0,0,0)%Q args xs)) in *.
  assert (P : forall k, In k xi -> (0 <= k < n_grids m * n_grids m * n_grids m)%Z).
  { intros k Hk. apply in_map_iff in Hk. destruct Hk as (y & <- & _). apply x2xi_f_range. assumption. }
  destruct (firsts_splits (n_grids m) xi N (fun k Hk => proj1 (P k Hk))) as [L SP]. unfold p, from_meshing_points; cbn [p_xs p_firsts]. rewrite (take_keys m xs args (0,0,0)%Q HP). fold xi.
  split; [exact L|]. split; [reflexivity|]. split; [|split].
  - set (N3 := Z.to_nat (n_grids m * n_grids m * n_grids m)) in *. pose proof (SP N3 ltac:(lia)) as [L1 S1].
    assert (E : last (0 :: fill (cells (n_grids m)) xi 0) 0 = nth N3 (0 :: fill (cells (n_grids m)) xi 0) 0).
    { symmetry. apply nth_error_nth. rewrite <- (last_nth_error _ 0) by discriminate. f_equal. rewrite L. lia. }
    change (last (0 :: fill (cells (n_grids m)) xi 0) 0 = length xs). rewrite E. set (b := nth N3 _ 0) in *.
    assert (LX : length xi = length xs) by (unfold xi, take; rewrite !map_length, (Permutation_length HP), seq_length; reflexivity).
    destruct (Nat.eq_dec b (length xi)) as [|NE]; [congruence|exfalso]. destruct (nth_error xi b) as [k|] eqn:Ek; [|apply nth_error_None in Ek; lia].
    pose proof (P k (nth_error_In _ _ Ek)). assert (b < b) by (apply (S1 b k Ek); lia). lia.
  - intros i j H1 H2. change (j < length (0 :: fill (cells (n_grids m)) xi 0)) in H2. rewrite L in H2. change (nth i (0 :: fill (cells (n_grids m)) xi 0) 0 <= nth j (0 :: fill (cells (n_grids m)) xi 0) 0). eapply splits_mono; [apply SP; lia|apply SP; lia|lia].
  - apply take_perm. exact HP.
Qed.
(** ** queries *)
Lemma zrange_In a b i : In i (zrange a b) <-> (a <= i < b)%Z.
Proof.
  unfold zrange. rewrite in_map_iff. split.
  - intros (k & <- & H). apply in_seq in H. lia.
  - intros H. exists (Z.to_nat (i - a)). split; [lia|]. apply in_seq. lia.
Qed.
Lemma zrange_NoDup a b : NoDup (zrange a b).
Proof. unfold zrange. apply FinFun.Injective_map_NoDup; [intros x y H; lia|apply seq_NoDup]. Qed.
Lemma NoDup_flat_map {A B} (f : A -> list B) l : NoDup l -> (forall a, In a l -> NoDup (f a)) ->
  (forall a a' b, In a l -> In a' l -> In b (f a) -> In b (f a') -> a = a') -> NoDup (flat_map f l).
Proof.
  induction 1 as [|a l Ha H IH]; intros H1 H2; [constructor|]. cbn [flat_map].
  assert (ND : forall l1 l2 : list B, NoDup l1 -> NoDup l2 -> (forall b, In b l1 -> In b l2 -> False) -> NoDup (l1 ++ l2)).
  { clear. induction l1 as [|x l1 IH]; intros l2 N1 N2 D; [assumption|]. inversion N1; subst. simpl. constructor.
    - rewrite in_app_iff. intros [H|H]; [contradiction|]. apply (D x); [left; reflexivity|assumption].
    - apply IH; try assumption. intros b Hb. apply D. right; assumption. }
  apply ND.
  - apply H1. left; reflexivity.
  - apply IH; [intros; apply H1; right; assumption|]. intros; eapply H2; eauto; right; assumption.
  - intros b Hb Hb'. apply in_flat_map in Hb'. destruct Hb' as (a' & Ha' & Hb'). assert (a = a') by (eapply H2; eauto; [left; reflexivity|right; assumption]). subst. contradiction.
Qed.
Lemma mod_inj n a b i j : (0 < n)%Z -> (b - a <= n)%Z -> (a <= i < b)%Z -> (a <= j < b)%Z -> (i mod n = j mod n)%Z -> i = j.
Proof.
  intros Hn W Hi Hj E. pose proof (Z.div_mod i n ltac:(lia)). pose proof (Z.div_mod j n ltac:(lia)).
  assert (i - j = n * (i / n - j / n))%Z by lia. assert (-1 < i / n - j / n < 1)%Z by nia. nia.
Qed.
Definition width (m : mesh) (r v : Q) : Z := (x2xi m (v + r)%Q + 1 - x2xi m (v - r)%Q)%Z.
Lemma query_cells_In m x0 x1 x2 r c : In c (query_cells m (x0, x1, x2) r) <->
  exists i0 i1 i2, (x2xi m (x0 - r)%Q <= i0 < x2xi m (x0 + r)%Q + 1)%Z /\ (x2xi m (x1 - r)%Q <= i1 < x2xi m (x1 + r)%Q + 1)%Z /\
    (x2xi m (x2 - r)%Q <= i2 < x2xi m (x2 + r)%Q + 1)%Z /\ c = flat (n_grids m) (i0 mod n_grids m) (i1 mod n_grids m) (i2 mod n_grids m).
Proof.
  unfold query_cells. rewrite in_flat_map. split.
  - intros (i0 & H0 & H). apply in_flat_map in H. destruct H as (i1 & H1 & H). apply in_map_iff in H. destruct H as (i2 & E & H2).
    apply zrange_In in H0. apply zrange_In in H1. apply zrange_In in H2. exists i0, i1, i2. auto.
  - intros (i0 & i1 & i2 & H0 & H1 & H2 & E). exists i0. split; [apply zrange_In; assumption|]. apply in_flat_map. exists i1. split; [apply zrange_In; assumption|].
    apply in_map_iff. exists i2. split; [auto|apply zrange_In; assumption].
Qed.
Lemma query_cells_NoDup m x0 x1 x2 r : (0 < n_grids m)%Z -> (width m r x0 <= n_grids m)%Z -> (width m r x1 <= n_grids m)%Z -> (width m r x2 <= n_grids m)%Z ->
  NoDup (query_cells m (x0, x1, x2) r).
Proof.
  intros Hn W0 W1 W2. unfold width in *. unfold query_cells.
  assert (MB : forall z, (0 <= z mod n_grids m < n_grids m)%Z) by (intros; apply Z.mod_pos_bound; assumption).
  apply NoDup_flat_map; [apply zrange_NoDup| |].
  - intros i0 H0. apply NoDup_flat_map; [apply zrange_NoDup| |].
    + intros i1 H1. assert (G : forall l, NoDup l -> (forall i, In i l -> In i (zrange (x2xi m (x2 - r)%Q) (x2xi m (x2 + r)%Q + 1))) ->
        NoDup (map (fun i2 => flat (n_grids m) (i0 mod n_grids m) (i1 mod n_grids m) (i2 mod n_grids m)) l)).
      { induction 1 as [|i l Hi H IH]; intros HI; [constructor|]. cbn [map]. constructor; [|apply IH; intros; apply HI; right; assumption].
        intros Hin. apply in_map_iff in Hin. destruct Hin as (j & E & Hj). apply flat_inj in E; try apply MB. destruct E as (_ & _ & E).
        assert (Ii := HI i (or_introl eq_refl)). assert (Ij := HI j (or_intror Hj)). apply zrange_In in Ii. apply zrange_In in Ij.
        apply (mod_inj _ _ _ _ _ Hn W2) in E; try assumption. subst. contradiction. }
      apply G; [apply zrange_NoDup|auto].
    + intros i1 i1' c H1 H1' Hc Hc'. apply in_map_iff in Hc. apply in_map_iff in Hc'. destruct Hc as (i2 & <- & _). destruct Hc' as (i2' & E & _).
      apply flat_inj in E; try apply MB. destruct E as (_ & E & _). apply zrange_In in H1. apply zrange_In in H1'. exact (mod_inj _ _ _ _ _ Hn W1 H1 H1' (eq_sym E)).
  - intros i0 i0' c H0 H0' Hc Hc'. apply in_flat_map in Hc. apply in_flat_map in Hc'. destruct Hc as (i1 & _ & Hc). destruct Hc' as (i1' & _ & Hc').
    apply in_map_iff in Hc. apply in_map_iff in Hc'. destruct Hc as (i2 & <- & _). destruct Hc' as (i2' & E & _).
    apply flat_inj in E; try apply MB. destruct E as (E & _ & _). apply zrange_In in H0. apply zrange_In in H0'. exact (mod_inj _ _ _ _ _ Hn W0 H0 H0' (eq_sym E)).
Qed.
(** Floors. *)
Lemma l_grid_pos m : (0 < n_grids m)%Z -> (0 < l_box m)%Q -> (0 < l_grid m)%Q.
Proof. intros H1 H2. unfold l_grid. apply Qlt_shift_div_l; [apply inject_pos; assumption|]. lra. Qed.
Lemma l_grid_box m : (0 < n_grids m)%Z -> (inject_Z (n_grids m) * l_grid m == l_box m)%Q.
Proof. intros H. unfold l_grid. field. pose proof (inject_pos _ H). lra. Qed.
Lemma x2xi_spec m x z : (0 < l_grid m)%Q -> ((z <= x2xi m x)%Z <-> (inject_Z z * l_grid m <= x)%Q).
Proof.
  intros L. unfold x2xi. rewrite Qfloor_spec. split; intros H.
  - apply Qmult_le_r with (z := l_grid m) in H; [|assumption]. setoid_replace (x / l_grid m * l_grid m)%Q with x in H by (field; lra). exact H.
  - apply Qle_shift_div_l; assumption.
Qed.
Lemma x2xi_spec2 m x z : (0 < l_grid m)%Q -> ((x2xi m x < z)%Z <-> (x < inject_Z z * l_grid m)%Q).
Proof.
  intros L. pose proof (x2xi_spec m x z L). split; intros H1.
  - apply Qnot_le_lt. intros H2. apply H in H2. lia.
  - destruct (Z_lt_le_dec (x2xi m x) z); [assumption|]. apply H in l. lra.
Qed.
Lemma x2xi_mono m x y : (0 < l_grid m)%Q -> (x <= y)%Q -> (x2xi m x <= x2xi m y)%Z.
Proof. intros L H. apply x2xi_spec; [assumption|]. eapply Qle_trans; [|exact H]. apply x2xi_spec; [assumption|lia]. Qed.
Lemma x2xi_shift m x k : (0 < n_grids m)%Z -> (0 < l_box m)%Q -> x2xi m (x + inject_Z k * l_box m)%Q = (x2xi m x + k * n_grids m)%Z.
Proof.
  intros Hn Hl. pose proof (l_grid_pos m Hn Hl) as L. pose proof (l_grid_box m Hn) as B.
  assert (A : forall z, (z <= x2xi m (x + inject_Z k * l_box m))%Z <-> (z <= x2xi m x + k * n_grids m)%Z).
  { intros z. rewrite x2xi_spec by assumption. transitivity (z - k * n_grids m <= x2xi m x)%Z; [|lia]. rewrite x2xi_spec by assumption.
    rewrite <- B. unfold Z.sub. rewrite inject_Z_plus, inject_Z_opp, inject_Z_mult. split; intros; lra. }
  apply Z.le_antisymm; apply A; lia.
Qed.
Lemma abs_le_of_sq (d r : Q) : (0 <= r)%Q -> (d * d <= r * r)%Q -> (- r <= d <= r)%Q.
Proof. intros. split; nra. Qed.
Lemma axis_in m x y k r : (0 < n_grids m)%Z -> (0 < l_box m)%Q -> (- r <= y + inject_Z k * l_box m - x <= r)%Q ->
  exists i, (x2xi m (x - r)%Q <= i < x2xi m (x + r)%Q + 1)%Z /\ (i mod n_grids m = x2xi m y mod n_grids m)%Z.
Proof.
  intros Hn Hl [H1 H2]. pose proof (l_grid_pos m Hn Hl) as L. exists (x2xi m (y + inject_Z k * l_box m)%Q). split.
  - split; [apply x2xi_mono; [assumption|lra]|]. assert (x2xi m (y + inject_Z k * l_box m)%Q <= x2xi m (x + r)%Q)%Z by (apply x2xi_mono; [assumption|lra]). lia.
  - rewrite x2xi_shift by assumption. apply Z.mod_add. lia.
Qed.
Lemma within_cell m x y r : (0 < n_grids m)%Z -> (0 < l_box m)%Q -> (0 <= r)%Q -> within (l_box m) x y r -> In (x2xi_f m y) (query_cells m x r).
Proof.
  intros Hn Hl Hr ([[k0 k1] k2] & D). destruct x as [[x0 x1] x2], y as [[y0 y1] y2]. unfold image, dist2 in D.
  set (d0 := (y0 + inject_Z k0 * l_box m - x0)%Q) in *. set (d1 := (y1 + inject_Z k1 * l_box m - x1)%Q) in *. set (d2 := (y2 + inject_Z k2 * l_box m - x2)%Q) in *.
  assert (Q0 : (0 <= d0 * d0)%Q) by nra. assert (Q1 : (0 <= d1 * d1)%Q) by nra. assert (Q2 : (0 <= d2 * d2)%Q) by nra.
  destruct (axis_in m x0 y0 k0 r Hn Hl (abs_le_of_sq d0 r Hr ltac:(lra))) as (i0 & A0 & B0).
  destruct (axis_in m x1 y1 k1 r Hn Hl (abs_le_of_sq d1 r Hr ltac:(lra))) as (i1 & A1 & B1).
  destruct (axis_in m x2 y2 k2 r Hn Hl (abs_le_of_sq d2 r Hr ltac:(lra))) as (i2 & A2 & B2).
  apply query_cells_In. exists i0, i1, i2. rewrite B0, B1, B2. auto.
Qed.
Lemma axis_out m x y i r : (0 < n_grids m)%Z -> (0 < l_box m)%Q -> (x2xi m (x - r)%Q <= i < x2xi m (x + r)%Q + 1)%Z ->
  (i mod n_grids m = x2xi m y mod n_grids m)%Z -> exists k, (Qabs (y + inject_Z k * l_box m - x) < r + l_grid m)%Q.
Proof.
  intros Hn Hl Hi E. pose proof (l_grid_pos m Hn Hl) as L. exists ((i - x2xi m y) / n_grids m)%Z.
  assert (Ei : i = x2xi m (y + inject_Z ((i - x2xi m y) / n_grids m) * l_box m)%Q).
  { rewrite x2xi_shift by assumption. pose proof (Z.div_mod i (n_grids m) ltac:(lia)). pose proof (Z.div_mod (x2xi m y) (n_grids m) ltac:(lia)).
    assert (D : (i - x2xi m y = (i / n_grids m - x2xi m y / n_grids m) * n_grids m)%Z) by lia.
    rewrite D. rewrite Z.div_mul by lia. lia. }
  set (k := ((i - x2xi m y) / n_grids m)%Z) in *. set (y' := (y + inject_Z k * l_box m)%Q) in *. clearbody y'. clear k.
  assert (A1 : (inject_Z i * l_grid m <= y')%Q) by (apply x2xi_spec; [assumption|lia]).
  assert (A2 : (y' < inject_Z (i + 1) * l_grid m)%Q) by (apply x2xi_spec2; [assumption|lia]).
  assert (A3 : (inject_Z i * l_grid m <= x + r)%Q) by (apply x2xi_spec; [assumption|lia]).
  assert (A4 : (x - r < inject_Z (i + 1) * l_grid m)%Q) by (apply x2xi_spec2; [assumption|lia]).
  rewrite inject_Z_plus in A2, A4. change (inject_Z 1) with 1%Q in *. apply Qabs_Qlt_condition. split; lra.
Qed.
Lemma cell_near m x y r : (0 < n_grids m)%Z -> (0 < l_box m)%Q -> In (x2xi_f m y) (query_cells m x r) -> near_box (l_box m) x y (r + l_grid m)%Q.
Proof.
  intros Hn Hl H. destruct x as [[x0 x1] x2], y as [[y0 y1] y2]. apply query_cells_In in H. destruct H as (i0 & i1 & i2 & H0 & H1 & H2 & E).
  unfold x2xi_f in E. apply flat_inj in E; try (apply Z.mod_pos_bound; assumption). destruct E as (E0 & E1 & E2).
  destruct (axis_out m x0 y0 i0 r Hn Hl H0 (eq_sym E0)) as [k0 K0]. destruct (axis_out m x1 y1 i1 r Hn Hl H1 (eq_sym E1)) as [k1 K1]. destruct (axis_out m x2 y2 i2 r Hn Hl H2 (eq_sym E2)) as [k2 K2].
  exists (k0, k1, k2). unfold map2v, image. auto.
Qed.
Lemma query_1_eq m xs args x r : (0 < n_grids m)%Z -> sorts (keys m xs) args ->
  let p := from_meshing_points m xs args in
  query_points_1 p x r = map (fun c => filter (fun y => (x2xi_f m y =? c)%Z) (p_xs p)) (query_cells m x r).
Proof.
  intros Hn Hs p. unfold query_points_1. cbn [p_mesh p from_meshing_points]. apply map_ext_in. intros c Hc.
  apply (index_cell m xs args c Hn Hs). destruct x as [[x0 x1] x2]. apply query_cells_In in Hc. destruct Hc as (i0 & i1 & i2 & _ & _ & _ & ->).
  apply flat_range; apply Z.mod_pos_bound; assumption.
Qed.
Lemma width_le m r v : (0 < n_grids m)%Z -> (0 < l_box m)%Q -> (2 * r <= l_box m - l_grid m)%Q -> (width m r v <= n_grids m)%Z.
Proof.
  intros Hn Hl H. pose proof (l_grid_pos m Hn Hl) as L. pose proof (l_grid_box m Hn) as B. unfold width.
  assert (x2xi m (v + r)%Q < x2xi m (v - r)%Q + n_grids m)%Z; [|lia].
  apply x2xi_spec2; [assumption|]. rewrite inject_Z_plus.
  assert (A : (v - r < inject_Z (x2xi m (v - r)%Q + 1) * l_grid m)%Q) by (apply x2xi_spec2; [assumption|lia]). rewrite inject_Z_plus in A. change (inject_Z 1) with 1%Q in A.
  lra.
Qed.
Lemma query_spec m xs args x r : (0 < n_grids m)%Z -> (0 < l_box m)%Q -> (0 <= r)%Q -> sorts (keys m xs) args ->
  let found := concat (query_points_1 (from_meshing_points m xs args) x r) in
  (forall y, In y xs -> within (l_box m) x y r -> In y found) /\
  (forall y, In y found -> In y xs /\ near_box (l_box m) x y (r + l_grid m)%Q) /\
  ((2 * r <= l_box m - l_grid m)%Q -> exists rest, Permutation (found ++ rest) xs /\ forall y, In y rest -> ~ within (l_box m) x y r).
Proof.
  intros Hn Hl Hr Hs. cbn zeta. rewrite (query_1_eq m xs args x r Hn Hs).
  destruct (index_table m xs args Hn Hs) as (_ & _ & _ & _ & P). set (p := from_meshing_points m xs args) in *.
  rewrite <- flat_map_concat_map. split; [|split].
  - intros y Hy W. apply in_flat_map. exists (x2xi_f m y). split; [apply within_cell; assumption|]. apply filter_In. split; [|apply Z.eqb_refl].
    apply (Permutation_in _ (Permutation_sym P)). assumption.
  - intros y Hy. apply in_flat_map in Hy. destruct Hy as (c & Hc & Hy). apply filter_In in Hy. destruct Hy as [Hy E]. apply Z.eqb_eq in E. subst c.
    split; [apply (Permutation_in _ P); assumption|]. apply cell_near; assumption.
  - intros W. exists (filter (fun y => negb (existsb (Z.eqb (x2xi_f m y)) (query_cells m x r))) (p_xs p)). split.
    + rewrite flat_map_filter_perm.
      * rewrite filter_neg_perm. exact P.
      * destruct x as [[x0 x1] x2]. apply query_cells_NoDup; try assumption; apply width_le; assumption.
    + intros y Hy Wy. apply filter_In in Hy. destruct Hy as [Hy E]. apply negb_true_iff in E. apply not_true_iff_false in E. apply E.
      apply existsb_exists. exists (x2xi_f m y). split; [apply within_cell; assumption|apply Z.eqb_refl].
Qed.
Lemma query_points_spec p xs rs args i : Permutation args (seq 0 (length xs)) -> i < length xs ->
  map snd (filter (fun c => Nat.eqb (fst c) i) (query_points p xs rs args)) = query_points_1 p (nth i xs (0,0,0)%Q) (nth i rs 0%Q).
Proof.
  intros P Hi. unfold query_points.
  assert (N : NoDup args) by (eapply Permutation_NoDup; [apply Permutation_sym; exact P|apply seq_NoDup]).
  assert (I : In i args) by (apply (Permutation_in _ (Permutation_sym P)); apply in_seq; lia). clear P Hi.
  assert (F : forall j (l : list (list vec)), map snd (filter (fun c => Nat.eqb (fst c) i) (map (pair j) l)) = if Nat.eqb j i then l else []).
  { intros j l. induction l as [|a l IH]; [destruct (Nat.eqb j i); reflexivity|]. cbn [map filter fst]. destruct (Nat.eqb j i); [|exact IH]. cbn [map snd]. rewrite IH. reflexivity. }
  assert (FA : forall A (f : A -> bool) l l', filter f (l ++ l') = filter f l ++ filter f l') by (intros; apply filter_app).
  assert (Z : forall args, ~ In i args -> map snd (filter (fun c => Nat.eqb (fst c) i) (flat_map (fun j => map (pair j) (query_points_1 p (nth j xs (0,0,0)%Q) (nth j rs 0%Q))) args)) = []).
  { clear -F FA. induction args as [|a args IH]; intros H; [reflexivity|]. cbn [flat_map]. rewrite FA, map_app, F.
    destruct (Nat.eqb_spec a i) as [->|]; [exfalso; apply H; left; reflexivity|]. cbn [app]. apply IH. intros H'. apply H. right; assumption. }
  induction N as [|a args Ha N IH]; [destruct I|]. cbn [flat_map]. rewrite FA, map_app, F.
  destruct I as [->|I].
  - rewrite Nat.eqb_refl, Z by assumption. apply app_nil_r.
  - destruct (Nat.eqb_spec a i) as [->|]; [contradiction|]. cbn [app]. apply IH. assumption.
Qed.
