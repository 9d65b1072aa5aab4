From Coq Require Import QArith Lqa Sorted Qminmax.
From Verif Require Import Base OrderSpec BinSpec BinModel BinProofs BinProofs2 BinProofs3 DataTableModel DataTableProofs ProcSpec ProcModel.
Local Open Scope list_scope. Local Open Scope nat_scope.

(** ** chunks *)
Lemma Zsum_app l l' : Zsum (l ++ l') = (Zsum l + Zsum l')%Z.
Proof. induction l as [|a l IH]; simpl; [reflexivity|]. rewrite IH. lia. Qed.
Lemma ranges_from_nth b sizes i : nth_error (ranges_from b sizes) i =
  if Nat.ltb i (length sizes) then Some (b + Zsum (firstn i sizes), b + Zsum (firstn (S i) sizes))%Z else None.
Proof.
  revert b i. induction sizes as [|s sizes IH]; intros b [|i]; try reflexivity.
  - simpl. f_equal. f_equal; lia.
  - cbn [ranges_from nth_error]. rewrite IH. cbn [length]. change (Nat.ltb (S i) (S (length sizes))) with (Nat.ltb i (length sizes)).
    destruct (Nat.ltb i (length sizes)); [|reflexivity].
    change (firstn (S (S i)) (s :: sizes)) with (s :: firstn (S i) sizes). change (firstn (S i) (s :: sizes)) with (s :: firstn i sizes).
    cbn [Zsum]. f_equal. f_equal; lia.
Qed.
Lemma ranges_spec sizes : length (ranges_by_sizes sizes) = length sizes /\
  (forall i b e, nth_error (ranges_by_sizes sizes) i = Some (b, e) -> b = Zsum (firstn i sizes) /\ e = Zsum (firstn (S i) sizes) /\
     exists s, nth_error sizes i = Some s /\ e = (b + s)%Z) /\
  (forall i b e b' e', nth_error (ranges_by_sizes sizes) i = Some (b, e) -> nth_error (ranges_by_sizes sizes) (S i) = Some (b', e') -> b' = e).
Proof.
  assert (N : forall i, nth_error (ranges_by_sizes sizes) i = if Nat.ltb i (length sizes) then Some (Zsum (firstn i sizes), Zsum (firstn (S i) sizes)) else None)
    by (intros i; apply ranges_from_nth).
  split; [|split].
  - unfold ranges_by_sizes. generalize 0%Z. induction sizes as [|s l IH]; intros b; simpl; [reflexivity|]. rewrite IH; [reflexivity|].
    intros i. apply ranges_from_nth.
  - intros i b e H. rewrite N in H. destruct (Nat.ltb_spec i (length sizes)); [|discriminate].
    assert (E : b = Zsum (firstn i sizes) /\ e = Zsum (firstn (S i) sizes)) by (split; congruence). destruct E as [-> ->].
    split; [reflexivity|]. split; [reflexivity|].
    destruct (nth_error sizes i) as [s|] eqn:E; [|apply nth_error_None in E; lia]. exists s. split; [reflexivity|].
    clear -E. revert sizes E. induction i as [|i IH]; intros [|a l] E; try discriminate.
    + simpl in *. injection E as ->. lia.
    + change (firstn (S (S i)) (a :: l)) with (a :: firstn (S i) l). change (firstn (S i) (a :: l)) with (a :: firstn i l). cbn [Zsum]. rewrite (IH _ E). lia.
  - intros i b e b' e' H H'. rewrite N in H, H'. destruct (Nat.ltb i (length sizes)); [|discriminate]. destruct (Nat.ltb (S i) (length sizes)); [|discriminate]. congruence.
Qed.
Lemma Zsum_nonneg l : (forall s, In s l -> (0 <= s)%Z) -> (0 <= Zsum l)%Z.
Proof. induction l as [|a l IH]; simpl; intros H; [lia|]. specialize (IH (fun s Hs => H s (or_intror Hs))). specialize (H a (or_introl eq_refl)). lia. Qed.
Lemma pyslice_nonneg {A} (l : list A) b e : (0 <= b)%Z -> (0 <= e)%Z ->
  pyslice l b e = firstn (Z.to_nat e - Z.to_nat b) (skipn (Z.to_nat b) l).
Proof.
  intros Hb He. unfold pyslice. destruct (Z.ltb_spec b 0); [lia|]. destruct (Z.ltb_spec e 0); [lia|].
  set (n := Z.of_nat (length l)).
  destruct (Z_le_gt_dec b n) as [Lb|Lb].
  - replace (Z.to_nat (Z.min n (Z.max 0 b))) with (Z.to_nat b) by lia.
    destruct (Z_le_gt_dec e n) as [Le|Le].
    + replace (Z.to_nat (Z.min n (Z.max 0 e))) with (Z.to_nat e) by lia. reflexivity.
    + rewrite !firstn_all2; [reflexivity| |]; rewrite skipn_length; lia.
  - rewrite !skipn_all2 by lia. rewrite !firstn_nil. reflexivity.
Qed.
Lemma skipn_split {A} (l : list A) a b : firstn a l ++ firstn b (skipn a l) = firstn (a + b) l.
Proof. revert l. induction a as [|a IH]; intros [|x l]; simpl; auto. - rewrite firstn_nil. reflexivity. - rewrite IH. reflexivity. Qed.
Lemma slices_cover {A} (sizes : list Z) (s : list A) : (forall z, In z sizes -> (0 <= z)%Z) ->
  concat (map (fun '(b, e) => pyslice s b e) (ranges_by_sizes sizes)) = firstn (Z.to_nat (Zsum sizes)) s.
Proof.
  intros H. unfold ranges_by_sizes.
  assert (G : forall b, (0 <= b)%Z -> firstn (Z.to_nat b) s ++ concat (map (fun '(b, e) => pyslice s b e) (ranges_from b sizes)) = firstn (Z.to_nat (b + Zsum sizes)) s).
  { induction sizes as [|z l IH]; intros b Hb; simpl.
    - rewrite app_nil_r, Z.add_0_r. reflexivity.
    - assert (0 <= z)%Z by (apply H; left; reflexivity). rewrite pyslice_nonneg by lia. rewrite app_assoc, skipn_split.
      replace (Z.to_nat b + (Z.to_nat (b + z) - Z.to_nat b)) with (Z.to_nat (b + z)) by lia.
      rewrite IH by (try lia; intros; apply H; right; assumption). f_equal. lia. }
  specialize (G 0%Z ltac:(lia)). simpl in G. exact G.
Qed.
Lemma slices_spec {A} (sizes : list Z) (seqs : list (list A)) : (forall z, In z sizes -> (0 <= z)%Z) ->
  match slices_by_sizes sizes seqs with
  | Ok out => seqs <> [] /\ length out = length sizes /\
      (forall k s, nth_error seqs k = Some s -> concat (map (fun c => nth k c []) out) = firstn (Z.to_nat (Zsum sizes)) s) /\
      (forall i chunk z k s c, nth_error out i = Some chunk -> nth_error sizes i = Some z -> nth_error seqs k = Some s -> nth_error chunk k = Some c ->
         (Zsum sizes <= Z.of_nat (length s))%Z -> Z.of_nat (length c) = z)
  | Err e => e = AssertionError /\ seqs = []
  end.
Proof.
  intros H. unfold slices_by_sizes. destruct seqs as [|s0 seqs0]; [auto|]. set (seqs := s0 :: seqs0).
  destruct (ranges_spec sizes) as (RL & RN & _).
  split; [discriminate|]. split; [rewrite map_length; exact RL|]. split.
  - intros k s Hk. rewrite <- (slices_cover sizes s H). f_equal. rewrite map_map. apply map_ext. intros [b e].
    apply nth_error_nth. rewrite nth_error_map, Hk. reflexivity.
  - intros i chunk z k s c Hi Hz Hk Hc L. rewrite nth_error_map in Hi. destruct (nth_error (ranges_by_sizes sizes) i) as [[b e]|] eqn:E; [|discriminate].
    cbn [option_map] in Hi. assert (Ei : chunk = map (fun s1 => pyslice s1 b e) seqs) by congruence. subst chunk. clear Hi.
    rewrite nth_error_map, Hk in Hc. cbn [option_map] in Hc. assert (Ec : c = pyslice s b e) by congruence. subst c.
    destruct (RN i b e E) as (Eb & Ee & z' & Hz' & Ez). assert (z' = z) by congruence. subst z'.
    assert (Hpart : forall m, (0 <= Zsum (firstn m sizes) <= Zsum sizes)%Z).
    { intros m. split; [apply Zsum_nonneg; intros y Hy; apply H; rewrite <- (firstn_skipn m sizes); apply in_or_app; auto|].
      rewrite <- (firstn_skipn m sizes) at 2. rewrite Zsum_app.
      assert (0 <= Zsum (skipn m sizes))%Z by (apply Zsum_nonneg; intros y Hy; apply H; rewrite <- (firstn_skipn m sizes); apply in_or_app; auto). lia. }
    pose proof (Hpart i). pose proof (Hpart (S i)). assert (0 <= z)%Z by (apply H; eapply nth_error_In; eassumption).
    rewrite pyslice_nonneg by lia. rewrite firstn_length, skipn_length. lia.
Qed.
Lemma cumsum_nth acc l i v : nth_error (cumsum_from acc l) i = Some v -> v = (acc + Zsum (firstn (S i) l))%Z.
Proof.
  revert acc i. induction l as [|a l IH]; intros acc [|i] H; try discriminate.
  - simpl in *. injection H as <-. lia.
  - simpl in H. apply IH in H. change (firstn (S (S i)) (a :: l)) with (a :: firstn (S i) l). cbn [Zsum]. lia.
Qed.
Lemma cumsum_len acc l : length (cumsum_from acc l) = length l.
Proof. revert acc. induction l as [|a l IH]; intros acc; simpl; [reflexivity|]. rewrite IH. reflexivity. Qed.
Lemma offset_spec count : length (count_to_offset count true) = S (length count) /\ length (count_to_offset count false) = length count /\
  (forall has_end i v, nth_error (count_to_offset count has_end) i = Some v -> v = Zsum (firstn i count)) /\
  count_to_offset_pairs count = ranges_by_sizes count.
Proof.
  assert (N : forall i v, nth_error (count_to_offset count true) i = Some v -> v = Zsum (firstn i count)).
  { intros [|i] v H; simpl in H; [injection H as <-; reflexivity|]. apply cumsum_nth in H. rewrite H. reflexivity. }
  assert (L : length (count_to_offset count true) = S (length count)) by (simpl; rewrite cumsum_len; reflexivity).
  split; [exact L|]. split.
  - unfold count_to_offset. rewrite removelast_len. simpl. rewrite cumsum_len. lia.
  - split.
    + intros [|] i v H; [apply N; exact H|]. unfold count_to_offset in H. apply removelast_nth in H. apply N. tauto.
    + unfold count_to_offset_pairs, ranges_by_sizes, count_to_offset. cbn [tl]. clear. generalize 0%Z as b.
      induction count as [|a l IH]; intros b; [reflexivity|]. cbn [cumsum_from ranges_from].
      change (removelast (b :: (b + a)%Z :: cumsum_from (b + a) l)) with (b :: removelast ((b + a)%Z :: cumsum_from (b + a) l)).
      cbn [combine]. rewrite IH. reflexivity.
Qed.

(** ** dictionaries *)
Definition combine_step {V} (out : odict string V) (d : option (odict string V)) := match d with Some d => od_update String.eqb out d | None => out end.
Lemma String_eqb_spec' : forall a b, reflect (a = b) (String.eqb a b).
Proof. exact String.eqb_spec. Qed.
Lemma rightmost_app {V} (a b : list (odict string V)) k : rightmost (a ++ b) k = match rightmost b k with Some v => Some v | None => rightmost a k end.
Proof. induction a as [|d a IH]; simpl; [destruct (rightmost b k); reflexivity|]. rewrite IH. destruct (rightmost b k); reflexivity. Qed.
Lemma combine_dicts_spec {V} (ds : list (option (odict string V))) items :
  (forall d, In d (present ds) -> NoDup (map fst d)) -> NoDup (map fst items) ->
  NoDup (map fst (combine_dicts ds items)) /\
  forall k, od_get String.eqb (combine_dicts ds items) k = rightmost (present ds ++ [items]) k.
Proof.
  intros H Hi. unfold combine_dicts. change (fun out d => match d with Some d0 => od_update String.eqb out d0 | None => out end) with (@combine_step V).
  assert (G : forall (ds : list (option (odict string V))) (out : odict string V), (forall d, In d (present ds) -> NoDup (map fst d)) -> NoDup (map fst out) ->
    NoDup (map fst (fold_left combine_step ds out)) /\
    forall k, od_get String.eqb (fold_left combine_step ds out) k = match rightmost (present ds) k with Some v => Some v | None => od_get String.eqb out k end).
  { clear. induction ds as [|[d|] ds IH]; intros out H Ho; simpl.
    - auto.
    - destruct (IH (od_update String.eqb out d)) as [N G].
      + intros d' Hd'. apply H. simpl. right. assumption.
      + apply (od_wf_update String.eqb String_eqb_spec' d out). assumption.
      + split; [exact N|]. intros k. rewrite G, (od_get_update String.eqb String_eqb_spec').
        rewrite (last_get_wf String.eqb String_eqb_spec' d k) by (apply H; left; reflexivity).
        destruct (rightmost (present ds) k); [reflexivity|]. destruct (od_get String.eqb d k); reflexivity.
    - apply IH; assumption. }
  destruct (G ds [] H ltac:(constructor)) as [N V0]. split.
  - apply (od_wf_update String.eqb String_eqb_spec' items). exact N.
  - intros k. rewrite (od_get_update String.eqb String_eqb_spec'), (last_get_wf String.eqb String_eqb_spec' items k) by assumption.
    rewrite rightmost_app. simpl. destruct (od_get String.eqb items k); [reflexivity|]. rewrite V0. destruct (rightmost (present ds) k); reflexivity.
Qed.

(** ** masks *)
Lemma combine_seq_nth {A} (l : list A) from i : nth_error (combine (seq from (length l)) l) i = option_map (pair (from + i)) (nth_error l i).
Proof.
  revert from i. induction l as [|a l IH]; intros from [|i]; simpl; try reflexivity.
  - rewrite Nat.add_0_r. reflexivity.
  - rewrite IH. replace (S from + i) with (from + S i) by lia. reflexivity.
Qed.
Lemma nth_error_combine {A B} (l : list A) (l' : list B) i a b : nth_error l i = Some a -> nth_error l' i = Some b -> nth_error (combine l l') i = Some (a, b).
Proof. revert l' i. induction l as [|x l IH]; intros [|y l'] [|i]; simpl; try discriminate; [congruence|apply IH]. Qed.
Lemma nth_error_combine_inv {A B} (l : list A) (l' : list B) i p : nth_error (combine l l') i = Some p -> nth_error l i = Some (fst p) /\ nth_error l' i = Some (snd p).
Proof. revert l' i. induction l as [|x l IH]; intros [|y l'] [|i]; simpl; try discriminate; [intros E; injection E as <-; auto|apply IH]. Qed.
Lemma mask_put_spec {A} (dst src : list A) mask : match mask_put dst src mask with
  | Err e => e = ValueError /\ length mask <> length dst
  | Ok out => length mask = length dst /\ length out = length dst /\
      forall i, nth_error out i = match nth_error mask i with
        | Some true => match nth_error src (i mod length src) with Some v => Some v | None => nth_error dst i end
        | _ => nth_error dst i end
  end.
Proof.
  unfold mask_put. destruct (Nat.eqb_spec (length mask) (length dst)) as [E|E]; simpl negb; cbv iota; [|auto].
  set (f := fun '(i, (d, m)) => if (m : bool) then nth (i mod length src) src d else d).
  assert (LC : length (combine dst mask) = length dst) by (rewrite combine_length; lia).
  split; [assumption|]. split; [rewrite map_length, combine_length, seq_length, LC; lia|].
  intros i. rewrite nth_error_map. rewrite <- LC at 1. rewrite combine_seq_nth. simpl Nat.add.
  destruct (nth_error dst i) as [d|] eqn:Ed.
  - destruct (nth_error mask i) as [m|] eqn:Em; [|apply nth_error_None in Em; assert (i < length dst) by (apply nth_error_Some; congruence); lia].
    rewrite (nth_error_combine _ _ _ _ _ Ed Em). simpl. destruct m; [|reflexivity].
    destruct (nth_error src (i mod length src)) as [v|] eqn:Es.
    + rewrite (nth_error_nth _ _ _ Es). reflexivity.
    + apply nth_error_None in Es. rewrite nth_overflow by assumption. reflexivity.
  - assert (nth_error (combine dst mask) i = None) as -> by (apply nth_error_None in Ed; apply nth_error_None; lia).
    assert (nth_error mask i = None) as -> by (apply nth_error_None in Ed; apply nth_error_None; lia). reflexivity.
Qed.

Lemma first_true_spec {A} i masks (arrays : list (list A)) d : length masks = length arrays ->
  (exists k m a v, nth_error masks k = Some m /\ nth_error arrays k = Some a /\ nth i m false = true /\ v = nth i a d /\
     (forall k' m', k' < k -> nth_error masks k' = Some m' -> nth i m' false = false) /\ first_true i masks arrays d = v) \/
  ((forall m, In m masks -> nth i m false = false) /\ first_true i masks arrays d = d).
Proof.
  revert arrays. induction masks as [|m masks IH]; intros [|a arrays] L; try discriminate; simpl.
  - right. split; [intros m []|reflexivity].
  - destruct (nth i m false) eqn:E.
    + left. exists 0, m, a, (nth i a d). split; [reflexivity|]. split; [reflexivity|]. split; [assumption|]. split; [reflexivity|]. split; [intros; lia|reflexivity].
    + destruct (IH arrays ltac:(simpl in L; lia)) as [(k & m1 & a1 & v & H1 & H2 & H3 & H4 & H5 & H6)|[H1 H2]].
      * left. exists (S k), m1, a1, v. split; [assumption|]. split; [assumption|]. split; [assumption|]. split; [assumption|]. split; [|assumption].
        intros [|k'] m' Hk Hm; simpl in Hm; [congruence|]. eapply H5; [|eassumption]. lia.
      * right. split; [|assumption]. intros m' [<-|Hm]; auto.
Qed.
Lemma mask_zip_spec masks arrays default n : masks <> [] -> length masks = length arrays ->
  (forall m, In m masks -> length m = n) -> (forall a, In a arrays -> length a = n) ->
  exists out, mask_zip masks arrays default = Ok out /\ length out = n /\
  forall i v, nth_error out i = Some v ->
    (exists k m a, nth_error masks k = Some m /\ nth_error arrays k = Some a /\ nth_error m i = Some true /\ nth_error a i = Some v /\
       (forall k' m', k' < k -> nth_error masks k' = Some m' -> nth_error m' i = Some false)) \/
    ((forall m, In m masks -> nth_error m i = Some false) /\ v = match default with Some d => d | None => 0%Q end).
Proof.
  intros Hne L Hm Ha. unfold mask_zip. destruct masks as [|m0 ms]; [congruence|]. set (masks := m0 :: ms) in *.
  rewrite (proj2 (Nat.eqb_eq _ _) L). simpl negb. cbv iota.
  assert (L0 : length m0 = n) by (apply Hm; left; reflexivity). rewrite L0.
  replace (forallb (fun m => Nat.eqb (length m) n) masks) with true by (symmetry; apply forallb_forall; intros m H; apply Nat.eqb_eq; auto).
  replace (forallb (fun a : list Q => Nat.eqb (length a) n) arrays) with true by (symmetry; apply forallb_forall; intros m H; apply Nat.eqb_eq; auto).
  eexists. split; [reflexivity|]. split; [rewrite map_length, seq_length; reflexivity|].
  intros i v H. rewrite nth_error_map_seq in H. destruct (Nat.ltb_spec i n) as [Li|]; [|discriminate].
  set (d := match default with Some d => d | None => 0%Q end) in *. assert (Ev : v = first_true i masks arrays d) by congruence. subst v. clear H.
  assert (NB : forall m b, In m masks -> nth i m false = b -> nth_error m i = Some b).
  { intros m b H1 H2. rewrite <- H2. apply nth_error_nth'. rewrite (Hm m H1). assumption. }
  destruct (first_true_spec i masks arrays d L) as [(k & m & a & v & H1 & H2 & H3 & H4 & H5 & H6)|[H1 H2]].
  - left. exists k, m, a. split; [assumption|]. split; [assumption|]. split; [apply NB; [eapply nth_error_In; eassumption|assumption]|].
    split; [rewrite H6, H4; apply nth_error_nth'; rewrite (Ha a) by (eapply nth_error_In; eassumption); assumption|].
    intros k' m' Hk Hm'. apply NB; [eapply nth_error_In; eassumption|eapply H5; eassumption].
  - right. split; [intros m Hin; apply NB; auto|exact H2].
Qed.

Lemma true_positions_spec l from p : In p (true_positions from l) <-> from <= p /\ nth_error l (p - from) = Some true.
Proof.
  revert from. induction l as [|b l IH]; intros from; simpl.
  - split; [intros []|intros [_ H]; destruct (p - from); discriminate].
  - assert (G : In p (true_positions (S from) l) <-> from < p /\ nth_error (b :: l) (p - from) = Some true).
    { rewrite IH. split; intros [H1 H2]; (split; [lia|]).
      - replace (p - from) with (S (p - S from)) by lia. assumption.
      - replace (p - from) with (S (p - S from)) in H2 by lia. assumption. }
    destruct b; simpl; rewrite G.
    + split.
      * intros [<-|[H1 H2]]; [split; [lia|]; rewrite Nat.sub_diag; reflexivity|split; [lia|assumption]].
      * intros [H1 H2]. destruct (Nat.eq_dec from p) as [|N]; [left; assumption|right; split; [lia|assumption]].
    + split; intros [H1 H2]; (split; [|assumption]); try lia. destruct (Nat.eq_dec from p) as [->|N]; [|lia].
      rewrite Nat.sub_diag in H2. discriminate.
Qed.
Lemma true_positions_sorted l from : StronglySorted lt (true_positions from l).
Proof.
  revert from. induction l as [|b l IH]; intros from; simpl; [constructor|]. destruct b; [|apply IH].
  constructor; [apply IH|]. apply Forall_forall. intros p Hp. apply true_positions_spec in Hp. lia.
Qed.
Lemma set_all_nth l is i : (forall p, In p is -> p < length l) -> i < length l ->
  nth_error (set_all l is) i = if existsb (Nat.eqb i) is then Some true else nth_error l i.
Proof.
  revert l. induction is as [|p is IH]; intros l H Hi; simpl; [reflexivity|].
  rewrite IH; rewrite ?upd_nth_length; [|intros; apply H; right; assumption|assumption].
  destruct (existsb (Nat.eqb i) is) eqn:E; [rewrite orb_true_r; reflexivity|]. rewrite orb_false_r.
  destruct (Nat.eqb_spec i p) as [->|N]; [apply upd_nth_same; assumption|apply upd_nth_other; lia].
Qed.
Lemma set_all_len l is : length (set_all l is) = length l.
Proof. revert l. induction is as [|p is IH]; intros l; simpl; [reflexivity|]. rewrite IH. apply upd_nth_length. Qed.
Lemma idx_to_bool_spec n idx : match idx_to_bool n idx with
  | Ok l => length l = n /\ (forall z, In z idx -> (- Z.of_nat n <= z < Z.of_nat n)%Z) /\
      forall i, i < n -> (nth_error l i = Some true <-> In (Z.of_nat i) idx \/ In (Z.of_nat i - Z.of_nat n)%Z idx) /\
                         (nth_error l i = Some true \/ nth_error l i = Some false)
  | Err e => e = IndexError /\ exists z, In z idx /\ ~ (- Z.of_nat n <= z < Z.of_nat n)%Z
  end.
Proof.
  unfold idx_to_bool. destruct (mapM (norm_index n) idx) as [ps|e] eqn:E; simpl.
  - apply mapM_Ok in E. rewrite set_all_len, repeat_length. split; [reflexivity|].
    assert (V : forall z p, norm_index n z = Ok p <-> ((0 <= z < Z.of_nat n)%Z /\ p = Z.to_nat z) \/ ((- Z.of_nat n <= z < 0)%Z /\ p = Z.to_nat (z + Z.of_nat n))).
    { intros z p. unfold norm_index. destruct (Z.ltb_spec z 0).
      - destruct (Z.leb_spec 0 (z + Z.of_nat n)), (Z.ltb_spec (z + Z.of_nat n) (Z.of_nat n)); simpl; split; try discriminate; intros HH; try lia;
          [injection HH as <-; right; lia|f_equal; lia].
      - destruct (Z.leb_spec 0 z), (Z.ltb_spec z (Z.of_nat n)); simpl; split; try discriminate; intros HH; try lia;
          [injection HH as <-; left; lia|f_equal; lia]. }
    assert (B : forall z, In z idx -> exists p, In p ps /\ norm_index n z = Ok p).
    { clear -E. induction E as [|a b l bs H E IH]; intros z Hz; [destruct Hz|]. destruct Hz as [<-|Hz]; [exists b; split; [left; reflexivity|assumption]|].
      destruct (IH z Hz) as (p & Hp & Hn). exists p. split; [right; assumption|assumption]. }
    assert (B' : forall p, In p ps -> exists z, In z idx /\ norm_index n z = Ok p).
    { clear -E. induction E as [|a b l bs H E IH]; intros z Hz; [destruct Hz|]. destruct Hz as [<-|Hz]; [exists a; split; [left; reflexivity|assumption]|].
      destruct (IH z Hz) as (p & Hp & Hn). exists p. split; [right; assumption|assumption]. }
    split.
    + intros z Hz. destruct (B z Hz) as (p & _ & Hp). apply V in Hp. lia.
    + intros i Hi. rewrite set_all_nth.
      * assert (R : nth_error (repeat false n) i = Some false) by (rewrite (nth_error_nth' _ false) by (rewrite repeat_length; lia); rewrite nth_repeat; reflexivity).
        rewrite R. destruct (existsb (Nat.eqb i) ps) eqn:X.
        -- split; [|auto]. split; [intros _|reflexivity]. apply existsb_exists in X. destruct X as (p & Hp & Ep). apply Nat.eqb_eq in Ep. subst p.
           destruct (B' i Hp) as (z & Hz & Hn). apply V in Hn. destruct Hn as [[H1 H2]|[H1 H2]].
           ++ left. replace (Z.of_nat i) with z by lia. assumption.
           ++ right. replace (Z.of_nat i - Z.of_nat n)%Z with z by lia. assumption.
        -- split; [|auto]. split; [discriminate|]. intros H. exfalso. apply not_true_iff_false in X. apply X. apply existsb_exists. exists i. split; [|apply Nat.eqb_refl].
           destruct H as [H|H]; destruct (B _ H) as (p & Hp & Hn); apply V in Hn; replace i with p by lia; assumption.
      * intros p Hp. rewrite repeat_length. destruct (B' p Hp) as (z & _ & Hn). apply V in Hn. lia.
      * rewrite repeat_length. assumption.
  - apply mapM_Err in E. destruct E as (pre & z & suf & -> & _ & Hz). unfold norm_index in Hz.
    split.
    + destruct (_ && _)%bool in Hz; [discriminate|congruence].
    + exists z. split; [apply in_or_app; right; left; reflexivity|]. intros R.
      destruct (Z.ltb_spec z 0).
      * destruct (Z.leb_spec 0 (z + Z.of_nat n)), (Z.ltb_spec (z + Z.of_nat n) (Z.of_nat n)); simpl in Hz; try discriminate; lia.
      * destruct (Z.leb_spec 0 z), (Z.ltb_spec z (Z.of_nat n)); simpl in Hz; try discriminate; lia.
Qed.
Lemma nth_error_ext' {A} (l l' : list A) : (forall i, nth_error l i = nth_error l' i) -> l = l'.
Proof.
  revert l'. induction l as [|a l IH]; intros [|b l'] H; [reflexivity|specialize (H 0); discriminate|specialize (H 0); discriminate|].
  f_equal; [specialize (H 0); simpl in H; congruence|apply IH; intros i; exact (H (S i))].
Qed.
Lemma mask_roundtrip l : idx_to_bool (length l) (map Z.of_nat (bool_to_idx l)) = Ok l.
Proof.
  pose proof (idx_to_bool_spec (length l) (map Z.of_nat (bool_to_idx l))) as H.
  destruct (idx_to_bool _ _) as [l'|e].
  - destruct H as (L & _ & V). f_equal. apply nth_error_ext'. intros i.
    destruct (lt_dec i (length l)) as [Hi|Hi].
    + destruct (V i Hi) as [V1 V2].
      assert (M : (In (Z.of_nat i) (map Z.of_nat (bool_to_idx l)) \/ In (Z.of_nat i - Z.of_nat (length l))%Z (map Z.of_nat (bool_to_idx l))) <-> nth_error l i = Some true).
      { unfold bool_to_idx. split.
        - intros [H|H]; apply in_map_iff in H; destruct H as (p & Hp & Hin); apply true_positions_spec in Hin; rewrite Nat.sub_0_r in Hin.
          + replace i with p by lia. tauto.
          + lia.
        - intros H. left. apply in_map. apply true_positions_spec. rewrite Nat.sub_0_r. split; [lia|assumption]. }
      rewrite M in V1. destruct (nth_error l i) as [[|]|] eqn:E.
      * apply V1. reflexivity.
      * destruct V2 as [V2|V2]; [apply V1 in V2; discriminate|assumption].
      * apply nth_error_None in E. lia.
    + rewrite (proj2 (nth_error_None l' i)) by lia. symmetry. apply nth_error_None. lia.
  - exfalso. destruct H as (_ & z & Hz & N). apply N. apply in_map_iff in Hz. destruct Hz as (p & <- & Hp). apply true_positions_spec in Hp.
    rewrite Nat.sub_0_r in Hp. assert (p < length l) by (apply nth_error_Some; destruct Hp as [_ ->]; discriminate). lia.
Qed.
Lemma sorted_ext (a b : list nat) : StronglySorted lt a -> StronglySorted lt b -> (forall p, In p a <-> In p b) -> a = b.
Proof.
  revert b. induction a as [|x a IH]; intros [|y b] Ha Hb H.
  - reflexivity.
  - exfalso. apply (proj2 (H y)). left; reflexivity.
  - exfalso. apply (proj1 (H x)). left; reflexivity.
  - inversion Ha as [|? ? Ha1 Ha2]; subst. inversion Hb as [|? ? Hb1 Hb2]; subst. rewrite Forall_forall in Ha2, Hb2.
    assert (x = y).
    { destruct (proj1 (H x) (or_introl eq_refl)) as [E|E]; [congruence|]. destruct (proj2 (H y) (or_introl eq_refl)) as [E2|E2]; [congruence|].
      specialize (Ha2 _ E2). specialize (Hb2 _ E). lia. }
    subst y. f_equal. apply IH; [assumption|assumption|]. intros p. split; intros Hp.
    + destruct (proj1 (H p) (or_intror Hp)) as [E|E]; [|assumption]. subst. specialize (Ha2 _ Hp). lia.
    + destruct (proj2 (H p) (or_intror Hp)) as [E|E]; [|assumption]. subst. specialize (Hb2 _ Hp). lia.
Qed.
Lemma idx_roundtrip n ps l : StronglySorted lt ps -> idx_to_bool n (map Z.of_nat ps) = Ok l -> bool_to_idx l = ps.
Proof.
  intros S E. pose proof (idx_to_bool_spec n (map Z.of_nat ps)) as H. rewrite E in H. destruct H as (L & R & V).
  apply sorted_ext; [apply true_positions_sorted|assumption|]. intros p. unfold bool_to_idx. rewrite true_positions_spec, Nat.sub_0_r. split.
  - intros [_ Hp]. assert (p < n) by (rewrite <- L; apply nth_error_Some; congruence). apply (V p H) in Hp.
    destruct Hp as [Hp|Hp]; apply in_map_iff in Hp; destruct Hp as (q & Eq & Hq).
    + replace p with q by lia. assumption.
    + lia.
  - intros Hp. split; [lia|]. assert (Hz := R _ (in_map Z.of_nat _ _ Hp)). apply (V p ltac:(lia)). left. apply in_map. assumption.
Qed.
Lemma on_arrays_spec {A} s (d : A) l n ps : (forall a, In a l -> length a = n) -> sel_rows n s = Ok ps ->
  exists out, on_arrays s d l = Ok out /\ Forall2 (fun a o => length o = length ps /\
    forall i p, nth_error ps i = Some p -> nth_error o i = nth_error a p) l out.
Proof.
  intros H S. unfold on_arrays.
  assert (F : Forall2 (fun a o => on_array s d a = Ok o) l (map (fun a => map (fun p => nth p a d) ps) l)).
  { induction l as [|a l IH]; constructor; [|apply IH; intros; apply H; right; assumption].
    unfold on_array. rewrite (H a (or_introl eq_refl)), S. reflexivity. }
  eexists. split; [apply mapM_Ok; exact F|]. pose proof (sel_rows_bound n s ps S) as B. clear F.
  induction l as [|a l IH]; constructor; [|apply IH; intros; apply H; right; assumption].
  split; [apply map_length|]. intros i p Hp. rewrite nth_error_map, Hp. simpl. symmetry. apply nth_error_nth'.
  rewrite (H a (or_introl eq_refl)). apply B. eapply nth_error_In; eassumption.
Qed.
Lemma on_dict_spec {A} s (d : A) items n ps : (forall kv, In kv items -> length (snd kv) = n) -> sel_rows n s = Ok ps ->
  exists out, on_dict s d items = Ok out /\ map fst out = map fst items /\
    Forall2 (fun (kv : string * list A) o => length (snd o) = length ps /\ forall i p, nth_error ps i = Some p -> nth_error (snd o) i = nth_error (snd kv) p) items out.
Proof.
  intros H E. exists (map (fun kv => (fst kv, map (fun p => nth p (snd kv) d) ps)) items).
  assert (F : on_dict s d items = Ok (map (fun kv => (fst kv, map (fun p => nth p (snd kv) d) ps)) items)).
  { unfold on_dict. apply mapM_Ok. induction items as [|kv items IH]; constructor; [|apply IH; intros; apply H; right; assumption].
    unfold on_array. rewrite (H kv (or_introl eq_refl)), E. reflexivity. }
  split; [exact F|]. split; [rewrite map_map; reflexivity|]. pose proof (sel_rows_bound n s ps E) as B. clear F.
  induction items as [|kv items IH]; constructor; [|apply IH; intros; apply H; right; assumption].
  cbn [snd]. split; [apply map_length|]. intros i p Hp. rewrite nth_error_map, Hp. simpl. symmetry. apply nth_error_nth'.
  rewrite (H kv (or_introl eq_refl)). apply B. eapply nth_error_In; eassumption.
Qed.
