From Coq Require Import Sorted.
From Verif Require Import Base OdictSpec DataTableModel DataTableSpec.

Lemma nth_upd_same {A} (l : list A) i a d : i < length l -> nth i (upd_nth l i a) d = a.
Proof. revert i; induction l as [|b l IH]; intros [|i]; simpl; intros H; try lia; [reflexivity|]. apply IH; lia. Qed.

Lemma nth_upd_other {A} (l : list A) i j a d : i <> j -> nth j (upd_nth l i a) d = nth j l d.
Proof. revert i j; induction l as [|b l IH]; intros [|i] [|j]; simpl; intros H; try reflexivity; try lia. apply IH; lia. Qed.

Lemma rd_ext b ext a : old b a -> rd (b ++ ext) a = rd b a.
Proof.
  unfold old, rd. intros H. apply map_ext. intros i. rewrite app_nth1 by assumption. reflexivity.
Qed.

Lemma rd_wr_other b a i x a' : buf a <> buf a' -> rd (wr b a i x) a' = rd b a'.
Proof.
  intros N. unfold wr. destruct (nth_error (idx a) i); [|reflexivity].
  unfold rd. apply map_ext. intros j. rewrite nth_upd_other by assumption. reflexivity.
Qed.

Lemma wr_length b a i x : length (wr b a i x) = length b.
Proof. unfold wr. destruct (nth_error (idx a) i); [|reflexivity]. apply upd_nth_length. Qed.

Lemma rd_writes_other ws : forall b a', through (fun a => buf a <> buf a') ws -> rd (writes b ws) a' = rd b a'.
Proof.
  unfold writes. induction ws as [|w ws IH]; intros b a' H; simpl; [reflexivity|].
  rewrite IH.
  - apply rd_wr_other. apply H. left; reflexivity.
  - intros w' Hw'. apply H. right; assumption.
Qed.

Lemma rd_alloc b r : rd (b ++ [r]) {| buf := length b; idx := seq 0 (length r) |} = r.
Proof.
  unfold rd. simpl. rewrite app_nth2, Nat.sub_diag by lia. simpl.
  apply nth_ext with (d := 0%Z) (d' := 0%Z).
  - rewrite map_length, seq_length. reflexivity.
  - intros n Hn. rewrite map_length, seq_length in Hn.
    apply nth_error_nth. erewrite map_nth_error; [reflexivity|].
    rewrite (nth_error_nth' _ 0) by (rewrite seq_length; assumption). rewrite seq_nth by assumption. reflexivity.
Qed.

(** Column by column effect of the copying comprehension. *)
Definition copied (b b' : bufs) (x y : string * arr) : Prop :=
  fst x = fst y /\ rd b' (snd y) = rd b (snd x) /\ length b <= buf (snd y) < length b'.

Lemma Forall2_In_r {A B} (R : A -> B -> Prop) l l' y : Forall2 R l l' -> In y l' -> exists x, In x l /\ R x y.
Proof.
  induction 1 as [|a b l l' Hab HF IH]; simpl; [tauto|]. intros [<-|Hin]; [eauto|].
  destruct (IH Hin) as (x & Hx & HR). eauto.
Qed.
Lemma Forall2_In_l {A B} (R : A -> B -> Prop) l l' x : Forall2 R l l' -> In x l -> exists y, In y l' /\ R x y.
Proof.
  induction 1 as [|a b l l' Hab HF IH]; simpl; [tauto|]. intros [<-|Hin]; [eauto|].
  destruct (IH Hin) as (y & Hy & HR). eauto.
Qed.
Lemma Forall2_impl_In {A B} (R S : A -> B -> Prop) l l' :
  (forall x y, In x l -> R x y -> S x y) -> Forall2 R l l' -> Forall2 S l l'.
Proof.
  intros H HF. induction HF as [|a b l l' Hab HF IH]; constructor.
  - apply H; [left; reflexivity|assumption].
  - apply IH. intros x y Hx. apply H. right; assumption.
Qed.

Lemma arrays_of_true data : forall b, items_old b data ->
  exists ext items, arrays_of b true data = (items, b ++ ext) /\
    Forall2 (copied b (b ++ ext)) data items /\
    NoDup (map (fun y => buf (snd y)) items).
Proof.
  induction data as [|[k a] data IH]; intros b Hold; simpl.
  - exists [], []. rewrite app_nil_r. repeat split; constructor.
  - assert (Ha : old b a) by (apply (Hold k); left; reflexivity).
    assert (Hold' : items_old b data) by (intros k' a' Hin; apply (Hold k'); right; assumption).
    destruct (IH (b ++ [rd b a])) as (ext & items & E & HF & Hnd).
    { intros k' a' Hin. unfold old. rewrite app_length. specialize (Hold' k' a' Hin).
      unfold old in *. lia. }
    rewrite E. exists ([rd b a] ++ ext), ((k, {| buf := length b; idx := seq 0 (length (rd b a)) |}) :: items).
    rewrite <- app_assoc in *. split; [reflexivity|]. split.
    + constructor.
      * unfold copied. simpl. split; [reflexivity|]. split.
        -- change (rd b a :: ext) with ([rd b a] ++ ext). rewrite app_assoc, rd_ext, rd_alloc; [reflexivity|].
           unfold old; simpl. rewrite app_length. simpl. lia.
        -- rewrite app_length. simpl. lia.
      * eapply Forall2_impl_In; [|exact HF]. intros [k1 a1] [k2 a2] Hin (H1 & H2 & H3). simpl in *.
        split; [assumption|]. simpl. split.
        -- rewrite H2. apply rd_ext. apply (Hold' k1). assumption.
        -- rewrite app_length in H3. simpl in H3. lia.
    + simpl. constructor; [|assumption].
      intros Hin. apply in_map_iff in Hin. destruct Hin as (y & Hy & Hin).
      destruct (Forall2_In_r _ _ _ _ HF Hin) as (x & _ & (_ & _ & H3)). rewrite app_length in H3. simpl in H3. lia.
Qed.

Lemma Forall2_keys {A B} (R : string * A -> string * B -> Prop) l l' :
  (forall x y, R x y -> fst x = fst y) -> Forall2 R l l' -> map fst l' = map fst l.
Proof. intros H HF. induction HF as [|x y l l' Hxy HF IH]; simpl; [reflexivity|]. rewrite IH, (H x y Hxy). reflexivity. Qed.

(** Storage allocated between [b] and [b'], one buffer per column. *)
Definition fresh (b b' : bufs) (t : list (string * arr)) : Prop :=
  (exists ext, b' = b ++ ext) /\
  (forall k a, In (k, a) t -> length b <= buf a < length b') /\
  (forall k c k2 c2, In (k, c) t -> In (k2, c2) t -> k <> k2 -> buf c <> buf c2).

Lemma fresh_isolated b b' t : fresh b b' t -> isolated b b' t.
Proof.
  intros ([ext ->] & Hfr & Hinj).
  split; [|split; [|split]].
  - intros a Ha. apply rd_ext. assumption.
  - intros ws k a Hws Hin. apply rd_writes_other. intros w Hw. specialize (Hws w Hw). unfold old in Hws.
    specialize (Hfr k a Hin). lia.
  - intros ws a Hws Ha. rewrite rd_writes_other; [apply rd_ext; assumption|].
    intros w Hw. destruct (Hws w Hw) as (k & c & Hin & Hs). unfold same_storage in Hs. specialize (Hfr k c Hin).
    unfold old in Ha. lia.
  - intros ws k c k2 c2 H1 H2 N Hws. apply rd_writes_other. intros w Hw. specialize (Hws w Hw).
    unfold same_storage in Hws. rewrite <- Hws. eapply Hinj; eassumption.
Qed.

Lemma copied_fresh b ext (data : list (string * arr)) (items : list (string * arr)) :
  Forall2 (copied b (b ++ ext)) data items -> NoDup (map (fun y => buf (snd y)) items) ->
  fresh b (b ++ ext) items.
Proof.
  intros HF Hnd. split; [eauto|]. split.
  - intros k a Hin. destruct (Forall2_In_r _ _ _ _ HF Hin) as (x & _ & (_ & _ & H3)). exact H3.
  - clear -Hnd. induction items as [|[k0 a0] items IH]; simpl; [tauto|].
    simpl in Hnd. inversion Hnd as [|? ? Hni Hnd']; subst.
    intros k c k2 c2 [H1|H1] [H2|H2] N E.
    + congruence.
    + inversion H1; subst. apply Hni. apply in_map_iff. exists (k2, c2). simpl. auto.
    + inversion H2; subst. apply Hni. apply in_map_iff. exists (k, c). simpl. auto.
    + exact (IH Hnd' _ _ _ _ H1 H2 N E).
Qed.

Lemma fresh_old b b' t : fresh b b' t -> items_old b' t.
Proof. intros (_ & H & _) k a Hin. unfold old. apply H in Hin. lia. Qed.

(** Columns of the same name hold the same rows. *)
Definition same_cols (b b' : bufs) (t t' : list (string * arr)) : Prop :=
  Forall2 (fun x y => fst x = fst y /\ rd b' (snd y) = rd b (snd x)) t t'.

Lemma same_cols_keys b b' t t' : same_cols b b' t t' -> map fst t' = map fst t.
Proof. intros H. eapply Forall2_keys; [|exact H]. intros x y Hxy; apply Hxy. Qed.

Lemma same_cols_vals b b' t t' : same_cols b b' t t' -> vals b' t' = vals b t.
Proof.
  unfold vals. induction 1 as [|x y l l' [H1 H2] HF IH]; simpl; [reflexivity|]. rewrite IH, H1, H2. reflexivity.
Qed.

(** ** Constructor and copy *)
Lemma dt_new_fresh b data t' b' : items_old b data -> NoDup (map fst data) -> dt_new b data true = (t', b') ->
  fresh b b' t' /\ same_cols b b' data t'.
Proof.
  intros Hold Hnd E. unfold dt_new in E.
  destruct (arrays_of_true data b Hold) as (ext & items & Ea & HF & Hb). rewrite Ea in E.
  assert (Hk : map fst items = map fst data) by (eapply Forall2_keys; [|exact HF]; intros x y H; apply H).
  rewrite (od_update_id String.eqb sspec) in E by (unfold od_wf, od_keys; rewrite Hk; assumption).
  inversion E; subst. split; [eapply copied_fresh; eassumption|].
  eapply Forall2_impl_In; [|exact HF]. intros x y _ (H1 & H2 & _). auto.
Qed.

Lemma dt_new_spec b data t' b' : items_old b data -> NoDup (map fst data) -> dt_new b data true = (t', b') ->
  isolated b b' t' /\ vals b' t' = vals b data.
Proof.
  intros Hold Hnd E. destruct (dt_new_fresh b data t' b' Hold Hnd E) as [Hf Hs].
  split; [apply fresh_isolated; assumption|apply same_cols_vals; assumption].
Qed.

(** ** Item assignment *)
Lemma dt_set_fresh b t k a t' b' : NoDup (map fst t) -> items_old b t -> old b a -> dt_set b t k a = (t', b') ->
  exists a', stored t t' k a' /\ rd b' a' = rd b a /\ fresh b b' [(k, a')] /\ NoDup (map fst t') /\
             items_old b' t'.
Proof.
  intros Hnd Ht Ha E. unfold dt_set, np_array, alloc in E. inversion E; subst; clear E.
  exists {| buf := length b; idx := seq 0 (length (rd b a)) |}.
  pose proof (od_set_stored t k {| buf := length b; idx := seq 0 (length (rd b a)) |} Hnd) as Hst.
  split; [exact Hst|]. split; [apply rd_alloc|]. split.
  - apply (copied_fresh b [rd b a] [(k, a)]).
    + constructor; [|constructor]. split; [reflexivity|]. simpl. split; [apply rd_alloc|]. rewrite app_length; simpl; lia.
    + simpl. constructor; [intros []|constructor].
  - split; [apply (od_wf_set String.eqb sspec); exact Hnd|].
    intros k2 a2 Hin. unfold old. rewrite app_length. simpl.
    destruct Hst as (_ & Ho & Hs & _).
    destruct (string_dec k2 k) as [->|N].
    + apply Hs in Hin. subst a2. simpl. lia.
    + apply Ho in Hin; [|assumption]. specialize (Ht k2 a2 Hin). unfold old in Ht. lia.
Qed.

Lemma dt_set_spec b t k a t' b' : NoDup (map fst t) -> items_old b t -> old b a -> dt_set b t k a = (t', b') ->
  exists a', stored t t' k a' /\ rd b' a' = rd b a /\ isolated b b' [(k, a')].
Proof.
  intros H1 H2 H3 E. destruct (dt_set_fresh b t k a t' b' H1 H2 H3 E) as (a' & Hs & Hr & Hf & _).
  exists a'. split; [assumption|]. split; [assumption|apply fresh_isolated; assumption].
Qed.

(** ** Update / or *)
Lemma items_old_ext b ext l : items_old b l -> items_old (b ++ ext) l.
Proof. intros H k a Hin. specialize (H k a Hin). unfold old in *. rewrite app_length. lia. Qed.

Lemma dt_update_fresh b t o t' b' : NoDup (map fst t) -> NoDup (map fst o) -> items_old b t -> items_old b o ->
  dt_update b t o true = (t', b') ->
  exists o', same_cols b b' o o' /\ union_of t o' t' /\ fresh b b' o' /\ NoDup (map fst t') /\ items_old b' t'.
Proof.
  intros Ht Ho Hot Hoo E. unfold dt_update in E.
  destruct (arrays_of_true o b Hoo) as (ext & items & Ea & HF & Hb). rewrite Ea in E.
  assert (Hk : map fst items = map fst o) by (eapply Forall2_keys; [|exact HF]; intros x y H; apply H).
  assert (Hi : NoDup (map fst items)) by (rewrite Hk; assumption).
  rewrite (od_update_id String.eqb sspec items) in E by exact Hi.
  inversion E; subst; clear E. exists items.
  destruct (od_update_union t items Ht Hi) as [Hu Hnd].
  pose proof (copied_fresh _ _ _ _ HF Hb) as Hf.
  split; [|split; [assumption|split; [assumption|split; [assumption|]]]].
  - eapply Forall2_impl_In; [|exact HF]. intros x y _ (H1 & H2 & _). auto.
  - intros k a Hin. apply Hu in Hin. destruct Hin as [Hin|[Hin _]].
    + exact (fresh_old _ _ _ Hf k a Hin).
    + apply (items_old_ext b ext t Hot k a Hin).
Qed.

Lemma dt_update_spec b t o t' b' : NoDup (map fst t) -> NoDup (map fst o) -> items_old b t -> items_old b o ->
  dt_update b t o true = (t', b') ->
  exists o', vals b' o' = vals b o /\ union_of t o' t' /\ isolated b b' o'.
Proof.
  intros H1 H2 H3 H4 E. destruct (dt_update_fresh b t o t' b' H1 H2 H3 H4 E) as (o' & Hs & Hu & Hf & _).
  exists o'. split; [apply same_cols_vals; assumption|]. split; [assumption|apply fresh_isolated; assumption].
Qed.

Lemma dt_arrays_nocopy b data : arrays_of b false data = (data, b).
Proof. induction data as [|[k a] data IH]; simpl; [reflexivity|]. rewrite IH. reflexivity. Qed.

Lemma dt_new_nocopy b data : NoDup (map fst data) -> dt_new b data false = (data, b).
Proof.
  intros H. unfold dt_new. rewrite dt_arrays_nocopy. rewrite (od_update_id String.eqb sspec); [reflexivity|exact H].
Qed.

Lemma dt_update_nocopy b t o : NoDup (map fst t) -> NoDup (map fst o) ->
  exists t', dt_update b t o false = (t', b) /\ union_of t o t'.
Proof.
  intros Ht Ho. unfold dt_update. rewrite dt_arrays_nocopy. rewrite (od_update_id String.eqb sspec o) by exact Ho.
  eexists. split; [reflexivity|]. apply od_update_union; assumption.
Qed.

(** Writing through an array obtained by [t[k]] is visible in the table. *)
Lemma rd_wr_same b a i x : arr_ok b a -> i < length (idx a) -> nth_error (rd (wr b a i x) a) i = Some x.
Proof.
  intros [Hb Hi] Hlt. unfold wr. destruct (nth_error (idx a) i) as [p|] eqn:E.
  2:{ apply nth_error_None in E. lia. }
  unfold rd. rewrite (map_nth_error _ i (idx a) E). f_equal.
  rewrite nth_upd_same by assumption. apply nth_upd_same. apply Hi. eapply nth_error_In; eassumption.
Qed.

Lemma dt_get_aliases b t k a i x : dt_get t k = Ok a -> arr_ok b a -> i < length (idx a) ->
  exists r, vals (wr b a i x) t = r /\ exists rows, In (k, rows) r /\ nth_error rows i = Some x.
Proof.
  intros Hg Hok Hi. eexists. split; [reflexivity|].
  exists (rd (wr b a i x) a). split; [|apply rd_wr_same; assumption].
  unfold dt_get in Hg. destruct (tget t k) as [a'|] eqn:E; [|discriminate]. inversion Hg; subst a'.
  apply (od_get_In String.eqb sspec) in E. unfold vals. apply in_map_iff. exists (k, a). auto.
Qed.

Lemma vals_In b l k w : In (k, w) (vals b l) <-> exists a, In (k, a) l /\ w = rd b a.
Proof.
  unfold vals. rewrite in_map_iff. split.
  - intros ([k0 a] & E & Hin). inversion E; subst. eauto.
  - intros (a & Hin & ->). exists (k, a). auto.
Qed.

Lemma vals_keys b l : map fst (vals b l) = map fst l.
Proof. unfold vals. rewrite map_map. reflexivity. Qed.

Lemma union_vals b t o t' : union_of t o t' -> union_of (vals b t) (vals b o) (vals b t').
Proof.
  intros [H1 H2]. split; [|rewrite !vals_keys; assumption].
  intros k w. rewrite !vals_In, vals_keys. split.
  - intros (a & Hin & ->). apply H1 in Hin. destruct Hin as [Hin|[Hin Hn]]; [left|right]; eauto.
  - intros [(a & Hin & ->)|[(a & Hin & ->) Hn]]; exists a; (split; [apply H1|reflexivity]); auto.
Qed.

Lemma vals_old b ext t : items_old b t -> vals (b ++ ext) t = vals b t.
Proof.
  intros H. unfold vals. apply map_ext_in. intros [k a] Hin. simpl. rewrite rd_ext; [reflexivity|]. apply (H k); assumption.
Qed.

Lemma dt_or_fresh b t o t' b' : NoDup (map fst t) -> NoDup (map fst o) -> items_old b t -> items_old b o ->
  dt_or b t o = (t', b') ->
  fresh b b' t' /\ union_of (vals b t) (vals b o) (vals b' t') /\ NoDup (map fst t').
Proof.
  intros Hnt Hno Hot Hoo E. unfold dt_or, dt_ior in E.
  destruct (dt_copy b t) as [t1 b1] eqn:E1. unfold dt_copy in E1.
  destruct (dt_new_fresh b t t1 b1 Hot Hnt E1) as [Hf1 Hs1].
  assert (Hnt1 : NoDup (map fst t1)) by (rewrite (same_cols_keys _ _ _ _ Hs1); assumption).
  pose proof (fresh_old _ _ _ Hf1) as Ho1.
  destruct Hf1 as ([ext1 ->] & Hr1 & Hd1).
  assert (Hoo1 : items_old (b ++ ext1) o) by (apply items_old_ext; assumption).
  destruct (dt_update_fresh _ t1 o t' b' Hnt1 Hno Ho1 Hoo1 E) as (o' & Hso & Hu & Hfo & Hnd' & Hold').
  destruct Hfo as ([ext2 ->] & Hr2 & Hd2).
  assert (Hcase : forall k a, In (k, a) t' ->
     (In (k, a) o' /\ length (b ++ ext1) <= buf a) \/ (In (k, a) t1 /\ length b <= buf a < length (b ++ ext1))).
  { intros k a Hin. apply Hu in Hin. destruct Hin as [Hin|[Hin _]].
    - left. split; [assumption|]. apply Hr2 in Hin. lia.
    - right. split; [assumption|]. apply Hr1 in Hin. lia. }
  split; [|split; [|assumption]].
  - split; [exists (ext1 ++ ext2); rewrite app_assoc; reflexivity|]. split.
    + intros k a Hin. specialize (Hold' k a Hin). unfold old in Hold'. apply Hcase in Hin.
      rewrite !app_length in *. lia.
    + intros k c k2 c2 H1 H2 N.
      destruct (Hcase k c H1) as [[I1 L1]|[I1 L1]]; destruct (Hcase k2 c2 H2) as [[I2 L2]|[I2 L2]]; try lia.
      * eapply Hd2; eassumption.
      * eapply Hd1; eassumption.
  - apply (union_vals ((b ++ ext1) ++ ext2)) in Hu.
    rewrite (vals_old (b ++ ext1) ext2 t1 Ho1) in Hu.
    rewrite (same_cols_vals _ _ _ _ Hs1) in Hu.
    rewrite (same_cols_vals _ _ _ _ Hso) in Hu.
    rewrite (vals_old b ext1 o Hoo) in Hu. exact Hu.
Qed.

Lemma dt_or_spec b t o t' b' : NoDup (map fst t) -> NoDup (map fst o) -> items_old b t -> items_old b o ->
  dt_or b t o = (t', b') ->
  isolated b b' t' /\ union_of (vals b t) (vals b o) (vals b' t').
Proof.
  intros H1 H2 H3 H4 E. destruct (dt_or_fresh b t o t' b' H1 H2 H3 H4 E) as (Hf & Hu & _).
  split; [apply fresh_isolated; assumption|assumption].
Qed.

(** ** Row selection *)
Lemma true_positions_spec l : forall from p,
  In p (true_positions from l) <-> from <= p /\ nth_error l (p - from) = Some true.
Proof.
  induction l as [|b l IH]; intros from p; simpl.
  - split; [tauto|]. intros [_ H]. destruct (p - from); discriminate.
  - assert (Hrec : In p (true_positions (S from) l) <-> from < p /\ nth_error (b :: l) (p - from) = Some true).
    { rewrite IH. split; intros [H1 H2]; (split; [lia|]).
      - replace (p - from) with (S (p - S from)) by lia. exact H2.
      - replace (p - from) with (S (p - S from)) in H2 by lia. exact H2. }
    destruct b.
    + split.
      * intros [<-|H]; [rewrite Nat.sub_diag; split; [lia|reflexivity]|]. apply Hrec in H. split; [lia|tauto].
      * intros [H1 H2]. destruct (Nat.eq_dec from p) as [->|N]; [left; reflexivity|right]. apply Hrec. split; [lia|assumption].
    + rewrite Hrec. split; intros [H1 H2]; (split; [|assumption]); [lia|].
      destruct (Nat.eq_dec from p) as [->|N]; [rewrite Nat.sub_diag in H2; discriminate|lia].
Qed.

Lemma true_positions_sorted l : forall from, StronglySorted lt (true_positions from l).
Proof.
  induction l as [|b l IH]; intros from; simpl; [constructor|]. destruct b; [|apply IH].
  constructor; [apply IH|]. apply Forall_forall. intros p Hp. apply true_positions_spec in Hp. lia.
Qed.

Lemma norm_index_Ok n i p : norm_index n i = Ok p ->
  p < n /\ (Z.of_nat p = i \/ Z.of_nat p = (i + Z.of_nat n)%Z).
Proof.
  unfold norm_index. destruct (Z.ltb_spec i 0).
  - destruct (Z.leb_spec 0 (i + Z.of_nat n)); simpl; [|discriminate].
    destruct (Z.ltb_spec (i + Z.of_nat n) (Z.of_nat n)); [|discriminate]. intros E; inversion E. lia.
  - destruct (Z.leb_spec 0 i); simpl; [|discriminate].
    destruct (Z.ltb_spec i (Z.of_nat n)); [|discriminate]. intros E; inversion E. lia.
Qed.

Lemma py_range_bounds n x y z : (0 <= n)%Z ->
  (z > 0 /\ 0 <= x <= n /\ 0 <= y <= n \/ z < 0 /\ -1 <= x <= n - 1 /\ -1 <= y <= n - 1)%Z ->
  forall p, In p (py_range x y z) -> (0 <= p < n)%Z.
Proof.
  intros Hn Hc p Hp. unfold py_range in Hp. apply in_map_iff in Hp. destruct Hp as (i & <- & Hi).
  apply in_seq in Hi. destruct Hi as [_ Hi]. simpl in Hi.
  destruct Hc as [(Hz & Hx & Hy)|(Hz & Hx & Hy)].
  - replace (0 <? z)%Z with true in Hi by (symmetry; apply Z.ltb_lt; lia).
    assert (Hlt : (Z.of_nat i < (y - x + z - 1) / z)%Z) by lia.
    assert (Hm : (z * ((y - x + z - 1) / z) <= y - x + z - 1)%Z) by (apply Z.mul_div_le; lia).
    nia.
  - replace (0 <? z)%Z with false in Hi by (symmetry; apply Z.ltb_ge; lia).
    assert (Hlt : (Z.of_nat i < (x - y - z - 1) / (- z))%Z) by lia.
    assert (Hm : ((- z) * ((x - y - z - 1) / (- z)) <= x - y - z - 1)%Z) by (apply Z.mul_div_le; lia).
    nia.
Qed.

Lemma slice_indices_ok n a o st x y z : (0 <= n)%Z -> slice_indices n a o st = Ok (x, y, z) ->
  (z > 0 /\ 0 <= x <= n /\ 0 <= y <= n \/ z < 0 /\ -1 <= x <= n - 1 /\ -1 <= y <= n - 1)%Z.
Proof.
  intros Hn. unfold slice_indices, clip.
  set (s := match st with None => 1%Z | Some s => s end).
  destruct (Z.eqb_spec s 0) as [|Hs]; [discriminate|].
  destruct (Z.ltb_spec 0 s); intros E; inversion E; subst; clear E; [left|right];
    (split; [lia|]); destruct a as [a|]; destruct o as [o|]; repeat split; try lia;
    try (destruct (Z.ltb_spec a 0)); try (destruct (Z.ltb_spec o 0)); lia.
Qed.

Lemma sel_rows_bound n s ps : sel_rows n s = Ok ps -> forall p, In p ps -> p < n.
Proof.
  destruct s as [a o st|l|l]; simpl.
  - destruct (slice_indices (Z.of_nat n) a o st) as [[[x y] z]|e] eqn:E; simpl; [|discriminate].
    intros H; inversion H; subst; clear H. intros p Hp. apply in_map_iff in Hp. destruct Hp as (q & <- & Hq).
    apply slice_indices_ok in E; [|lia]. pose proof (py_range_bounds (Z.of_nat n) x y z ltac:(lia) E q Hq). lia.
  - intros H p Hp. apply mapM_Ok in H. destruct (Forall2_In_r _ _ _ _ H Hp) as (i & _ & Hi).
    apply norm_index_Ok in Hi. tauto.
  - destruct (Nat.eqb_spec (length l) n) as [<-|]; [|discriminate]. intros H; inversion H; subst.
    intros p Hp. apply true_positions_spec in Hp. destruct Hp as [_ Hp]. rewrite Nat.sub_0_r in Hp.
    apply nth_error_Some. congruence.
Qed.

(** What each kind of selector selects. *)
Lemma sel_rows_mask n l : length l = n ->
  exists ps, sel_rows n (SMask l) = Ok ps /\ StronglySorted lt ps /\
             forall p, In p ps <-> nth_error l p = Some true.
Proof.
  intros <-. simpl. rewrite Nat.eqb_refl. eexists. split; [reflexivity|]. split; [apply true_positions_sorted|].
  intros p. rewrite true_positions_spec, Nat.sub_0_r. split; [tauto|]. intros; split; [lia|assumption].
Qed.

Lemma rd_length b a : length (rd b a) = length (idx a).
Proof. apply map_length. Qed.

Lemma picks_map ps (src : list row) : (forall p, In p ps -> p < length src) ->
  picks ps src (map (fun p => nth p src 0%Z) ps).
Proof.
  intros H. split; [apply map_length|]. intros j p Hp. exists (nth p src 0%Z). split.
  - apply nth_error_nth'. apply H. eapply nth_error_In; eassumption.
  - apply (map_nth_error (fun p => nth p src 0%Z)). assumption.
Qed.

Lemma subarr_spec b a s ps : old b a -> sel_rows (length (idx a)) s = Ok ps ->
  exists a' ext, subarr b a s = Ok (a', b ++ ext) /\ rd (b ++ ext) a' = map (fun p => nth p (rd b a) 0%Z) ps /\
    old (b ++ ext) a'.
Proof.
  intros Ha Hs. unfold subarr. rewrite Hs. simpl. pose proof (sel_rows_bound _ _ _ Hs) as Hb.
  destruct s as [x y z|l|l].
  - eexists _, []. rewrite app_nil_r. split; [reflexivity|]. split; [|exact Ha].
    unfold rd. simpl. rewrite map_map. apply map_ext_in. intros p Hp. specialize (Hb p Hp).
    symmetry. apply nth_error_nth. 
    exact (map_nth_error (fun i => nth i (nth (buf a) b []) 0%Z) p (idx a) (nth_error_nth' (idx a) 0 Hb)).
  - eexists _, [_]. split; [reflexivity|]. split; [apply rd_alloc|]. unfold old; simpl. rewrite app_length; simpl; lia.
  - eexists _, [_]. split; [reflexivity|]. split; [apply rd_alloc|]. unfold old; simpl. rewrite app_length; simpl; lia.
Qed.

Definition picked (ps : list nat) (b b' : bufs) (x y : string * arr) : Prop :=
  fst x = fst y /\ rd b' (snd y) = map (fun p => nth p (rd b (snd x)) 0%Z) ps.

Lemma sub_cols_spec s ps n items : forall b, sel_rows n s = Ok ps -> items_old b items ->
  (forall k a, In (k, a) items -> length (rd b a) = n) ->
  exists items' ext, sub_cols b items s = Ok (items', b ++ ext) /\
    Forall2 (picked ps b (b ++ ext)) items items' /\ items_old (b ++ ext) items'.
Proof.
  induction items as [|[k a] items IH]; intros b Hs Hold Hlen; simpl.
  - exists [], []. rewrite app_nil_r. split; [reflexivity|]. split; [constructor|]. intros k a [].
  - assert (Ha : old b a) by (apply (Hold k); left; reflexivity).
    assert (Hn : length (idx a) = n) by (rewrite <- (rd_length b a); apply (Hlen k); left; reflexivity).
    destruct (subarr_spec b a s ps Ha) as (a' & ext1 & E1 & Hr1 & Ho1); [rewrite Hn; assumption|].
    rewrite E1. simpl.
    assert (Hold2 : items_old b items) by (intros k2 a2 Hin; apply (Hold k2); right; assumption).
    destruct (IH (b ++ ext1) Hs) as (items' & ext2 & E2 & HF & Ho2).
    { apply items_old_ext. assumption. }
    { intros k2 a2 Hin. rewrite rd_ext by (apply (Hold2 k2); assumption). apply (Hlen k2). right; assumption. }
    rewrite E2. simpl. exists ((k, a') :: items'), (ext1 ++ ext2). rewrite app_assoc. split; [reflexivity|]. split.
    + constructor.
      * split; [reflexivity|]. simpl. rewrite (rd_ext (b ++ ext1) ext2 a' Ho1). exact Hr1.
      * eapply Forall2_impl_In; [|exact HF]. intros [k1 a1] [k2 a2] Hin [H1 H2]. simpl in *. split; [assumption|]. simpl.
        rewrite H2. rewrite rd_ext by (apply (Hold2 k1); assumption). reflexivity.
    + intros k2 a2 [E|Hin]; [|apply (Ho2 k2); assumption]. inversion E; subst. unfold old in *. rewrite app_length. lia.
Qed.

Lemma fresh_weaken b ext b' t : fresh (b ++ ext) b' t -> fresh b b' t.
Proof.
  intros ([e ->] & H1 & H2). split; [exists (ext ++ e); rewrite app_assoc; reflexivity|]. split; [|assumption].
  intros k a Hin. apply H1 in Hin. rewrite !app_length in *. lia.
Qed.

Lemma dt_subset_spec b t s n ps cp : NoDup (map fst t) -> items_old b t ->
  (forall k a, In (k, a) t -> length (rd b a) = n) -> sel_rows n s = Ok ps ->
  exists t' b', dt_subset b t s cp = Ok (t', b') /\
    Forall2 (fun x y => fst x = fst y /\ picks ps (rd b (snd x)) (rd b' (snd y))) t t' /\
    (cp = true -> isolated b b' t') /\ (forall a, old b a -> rd b' a = rd b a).
Proof.
  intros Hnd Hold Hlen Hs. destruct (sub_cols_spec s ps n t b Hs Hold Hlen) as (items & ext & E & HF & Ho).
  unfold dt_subset. rewrite E. simpl.
  assert (Hk : map fst items = map fst t) by (eapply Forall2_keys; [|exact HF]; intros x y H; apply H).
  assert (Hni : NoDup (map fst items)) by (rewrite Hk; assumption).
  assert (Hpk : forall x y, In x t -> picked ps b (b ++ ext) x y ->
            fst x = fst y /\ picks ps (rd b (snd x)) (rd (b ++ ext) (snd y))).
  { intros [k a] y Hin [H1 H2]. split; [assumption|]. rewrite H2. apply picks_map. simpl.
    rewrite (Hlen k a Hin). apply (sel_rows_bound _ _ _ Hs). }
  destruct cp.
  - destruct (dt_new (b ++ ext) items true) as [t' b'] eqn:En.
    destruct (dt_new_fresh _ _ _ _ Ho Hni En) as [Hf Hsc]. exists t', b'. split; [reflexivity|].
    split; [|split].
    + clear -HF Hsc Hpk. revert t' Hsc. induction HF as [|x y l l' Hxy HF IH]; intros t' Hsc.
      * inversion Hsc; constructor.
      * inversion Hsc as [|? z ? l'' [Hz1 Hz2] Hsc']; subst. constructor.
        -- destruct (Hpk x y (or_introl eq_refl) Hxy) as [P1 P2]. split; [congruence|]. rewrite Hz2. assumption.
        -- apply IH; [|assumption]. intros x' y' Hin. apply Hpk. right; assumption.
    + intros _. apply fresh_isolated. eapply fresh_weaken. eassumption.
    + intros a Ha. apply fresh_weaken in Hf. apply fresh_isolated in Hf. apply Hf. assumption.
  - rewrite dt_new_nocopy by assumption. exists items, (b ++ ext). split; [reflexivity|].
    split; [|split; [discriminate|]].
    + eapply Forall2_impl_In; [|exact HF]. assumption.
    + intros a Ha. apply rd_ext; assumption.
Qed.

Lemma dt_subset_err b t s n e cp : t <> [] -> (forall k a, In (k, a) t -> length (rd b a) = n) ->
  sel_rows n s = Err e -> dt_subset b t s cp = Err e.
Proof.
  intros Hne Hlen Hs. destruct t as [|[k a] t]; [congruence|]. unfold dt_subset. simpl. unfold subarr.
  rewrite <- (rd_length b a), (Hlen k a (or_introl eq_refl)), Hs. reflexivity.
Qed.

(** Slices with copy=False are views of the original columns. *)
Lemma dt_subset_view b t x y z t' b' : NoDup (map fst t) ->
  dt_subset b t (SSlice x y z) false = Ok (t', b') ->
  b' = b /\ Forall2 (fun u v => fst u = fst v /\ same_storage (snd v) (snd u)) t t'.
Proof.
  intros Hnd. unfold dt_subset.
  assert (Hg : forall items its b2, sub_cols b items (SSlice x y z) = Ok (its, b2) ->
     b2 = b /\ Forall2 (fun u v => fst u = fst v /\ same_storage (snd v) (snd u)) items its).
  { induction items as [|[k a] items IH]; intros its b2; simpl.
    - intros E; inversion E; subst. split; [reflexivity|constructor].
    - unfold subarr. destruct (sel_rows (length (idx a)) (SSlice x y z)) as [ps|e]; simpl; [|discriminate].
      destruct (sub_cols b items (SSlice x y z)) as [[r b3]|e]; simpl; [|discriminate].
      intros E; inversion E; subst. destruct (IH r b2 eq_refl) as [-> HF]. split; [reflexivity|].
      constructor; [|assumption]. split; reflexivity. }
  destruct (sub_cols b t (SSlice x y z)) as [[items b2]|e] eqn:E; simpl; [|discriminate].
  destruct (Hg t items b2 E) as [-> HF].
  assert (Hk : map fst items = map fst t) by (eapply Forall2_keys; [|exact HF]; intros u v H; apply H).
  rewrite dt_new_nocopy by (rewrite Hk; assumption). intros H; inversion H; subst. auto.
Qed.

(** ** Concatenation *)
Lemma mapM_dt_get_Ok (ts : list table) k cols : mapM (fun t => dt_get t k) ts = Ok cols <->
  Forall2 (fun t a => tget t k = Some a) ts cols.
Proof.
  rewrite mapM_Ok. unfold dt_get. split; intros H; (eapply Forall2_impl_In; [|exact H]); intros t a _; simpl;
    destruct (tget t k); congruence.
Qed.

Lemma mapM_dt_get_total (ts : list table) k : (forall t, In t ts -> In k (map fst t)) ->
  exists cols, mapM (fun t => dt_get t k) ts = Ok cols.
Proof.
  induction ts as [|t ts IH]; intros H; simpl; [eauto|].
  destruct IH as [cols Hc]; [intros t' Ht'; apply H; right; assumption|].
  unfold dt_get at 1. destruct (tget t k) as [a|] eqn:E.
  - simpl. rewrite Hc. simpl. eauto.
  - exfalso. apply (od_get_None String.eqb sspec) in E. apply E. apply H. left; reflexivity.
Qed.

Lemma concat_cols_spec (ts : list table) ks : forall b,
  (forall t, In t ts -> items_old b t) ->
  (forall t k, In t ts -> In k ks -> In k (map fst t)) ->
  exists items ext, concat_cols b ts ks = Ok (items, b ++ ext) /\ items_old (b ++ ext) items /\
    Forall2 (fun k x => k = fst x /\
      exists cols, Forall2 (fun t a => tget t k = Some a) ts cols /\
                   rd (b ++ ext) (snd x) = List.concat (map (rd b) cols)) ks items.
Proof.
  induction ks as [|k ks IH]; intros b Hold Hk; simpl.
  - exists [], []. rewrite app_nil_r. split; [reflexivity|]. split; [intros k a []|constructor].
  - destruct (mapM_dt_get_total ts k) as [cols Hc]; [intros t Ht; apply Hk; [assumption|left; reflexivity]|].
    rewrite Hc. simpl. apply mapM_dt_get_Ok in Hc.
    destruct (IH (b ++ [List.concat (map (rd b) cols)])) as (items & ext & E & Ho & HF).
    { intros t Ht. apply items_old_ext. apply Hold. assumption. }
    { intros t k' Ht Hk'. apply Hk; [assumption|right; assumption]. }
    rewrite E. simpl. eexists _, (_ :: ext). rewrite <- app_assoc. split; [reflexivity|].
    rewrite <- app_assoc in Ho, HF. simpl in Ho, HF.
    assert (Hfirst : old (b ++ [List.concat (map (rd b) cols)])
              {| buf := length b; idx := seq 0 (length (List.concat (map (rd b) cols))) |}).
    { unfold old. simpl. rewrite app_length. simpl. lia. }
    split.
    + intros k2 a2 [Ek|Hin]; [|exact (Ho k2 a2 Hin)]. inversion Ek; subst. unfold old. simpl. rewrite app_length. simpl. lia.
    + constructor.
      * split; [reflexivity|]. exists cols. split; [assumption|]. simpl.
        change (List.concat (map (rd b) cols) :: ext) with ([List.concat (map (rd b) cols)] ++ ext).
        rewrite app_assoc, rd_ext by assumption. apply rd_alloc.
      * eapply Forall2_impl_In; [|exact HF]. intros k2 x Hin [H1 (cols2 & H2 & H3)]. split; [assumption|].
        exists cols2. split; [assumption|]. rewrite H3. f_equal. apply map_ext_in. intros a Ha.
        apply rd_ext. destruct (Forall2_In_r _ _ _ _ H2 Ha) as (t & Ht & Hg).
        apply (Hold t Ht k2). eapply od_get_In; [apply sspec|eassumption].
Qed.

Lemma dt_concat_spec b (t : table) (others : list table) : NoDup (map fst t) ->
  (forall u, In u (t :: others) -> items_old b u) ->
  (forall u k, In u others -> In k (map fst t) -> In k (map fst u)) ->
  exists t' b', dt_concat b t others = Ok (t', b') /\ isolated b b' t' /\ map fst t' = map fst t /\
    forall k r, In (k, r) (vals b' t') <->
      (In k (map fst t) /\ exists cols, Forall2 (fun u a => tget u k = Some a) (t :: others) cols /\
                     r = List.concat (map (rd b) cols)).
Proof.
  intros Hnd Hold Hk.
  destruct (concat_cols_spec (t :: others) (dt_keys t) b Hold) as (items & ext & E & Ho & HF).
  { intros u k [<-|Hu] Hin; [exact Hin|]. apply Hk; assumption. }
  unfold dt_concat. rewrite E. cbn [bind].
  assert (Hki : map fst items = map fst t).
  { unfold dt_keys, od_keys in HF. clear -HF. revert items HF. generalize (map fst t).
    induction l as [|k l IH]; intros items HF; inversion HF as [|? x ? items' [Hx _] HF']; subst; simpl; [reflexivity|].
    rewrite (IH _ HF'). reflexivity. }
  assert (Hni : NoDup (map fst items)) by (rewrite Hki; assumption).
  destruct (dt_new (b ++ ext) items true) as [t' b'] eqn:En.
  destruct (dt_new_fresh _ _ _ _ Ho Hni En) as [Hf Hsc]. exists t', b'. split; [reflexivity|].
  split; [apply fresh_isolated; eapply fresh_weaken; eassumption|].
  split; [rewrite (same_cols_keys _ _ _ _ Hsc); assumption|].
  intros k r. rewrite (same_cols_vals _ _ _ _ Hsc). rewrite vals_In. split.
  - intros (a & Hin & ->). destruct (Forall2_In_r _ _ _ _ HF Hin) as (k' & Hk' & Heq & cols & H1 & H2). simpl in *.
    subst k'. split; [exact Hk'|]. exists cols. auto.
  - intros (Hin & cols & H1 & ->). destruct (Forall2_In_l _ _ _ _ HF Hin) as ([k' a] & Hx & Heq & cols2 & H2 & H3).
    simpl in *. subst k'. exists a. split; [assumption|]. rewrite H3. f_equal. f_equal.
    apply mapM_dt_get_Ok in H1, H2. congruence.
Qed.

Lemma dt_concat_missing b (t : table) (others : list table) k (u : table) : NoDup (map fst t) -> In u others -> In k (map fst t) -> ~ In k (map fst u) ->
  dt_concat b t others = Err KeyError.
Proof.
  intros Hnd Hu Hk Hn. unfold dt_concat.
  assert (Hg : forall ks b, In k ks -> concat_cols b (t :: others) ks = Err KeyError).
  { induction ks as [|k' ks IH]; intros b0 Hin; [destruct Hin|]. cbn [concat_cols].
    destruct (mapM (fun t0 => dt_get t0 k') (t :: others)) as [cols|e] eqn:E.
    - destruct Hin as [->|Hin].
      + exfalso. apply mapM_dt_get_Ok in E. destruct (Forall2_In_l _ _ _ _ E (or_intror Hu)) as (a & _ & Ha).
        apply Hn. apply (od_mem_keys String.eqb sspec). unfold od_mem. rewrite Ha. reflexivity.
      + cbn [bind alloc]. rewrite (IH _ Hin). reflexivity.
    - cbn [bind]. apply mapM_Err in E. destruct E as (pre & x & suf & _ & _ & Hx). unfold dt_get in Hx.
      destruct (tget x k'); inversion Hx. reflexivity. }
  pose proof (Hg (dt_keys t) b Hk) as Hx. rewrite Hx. reflexivity.
Qed.

(** ** Column selection *)
Lemma dt_subcol_spec b t ks cp : NoDup (map fst t) -> items_old b t ->
  (forall k, In k ks -> In k (map fst t)) ->
  exists t' b', dt_subcol b t ks cp = Ok (t', b') /\ NoDup (map fst t') /\
    (forall k r, In (k, r) (vals b' t') <-> In k ks /\ In (k, r) (vals b t)) /\
    (NoDup ks -> map fst t' = ks) /\ (cp = true -> isolated b b' t') /\ (forall a, old b a -> rd b' a = rd b a).
Proof.
  intros Hnd Hold Hks.
  assert (HM : exists items, mapM (fun k => rmap (pair k) (dt_get t k)) ks = Ok items /\
            Forall2 (fun k x => fst x = k /\ tget t k = Some (snd x)) ks items).
  { clear cp. induction ks as [|k ks IH]; simpl; [exists []; split; [reflexivity|constructor]|].
    destruct IH as (items & E & HF); [intros k' Hk'; apply Hks; right; assumption|].
    unfold dt_get at 1. destruct (tget t k) as [a|] eqn:Eg.
    - simpl. rewrite E. simpl. eexists. split; [reflexivity|]. constructor; [split; [reflexivity|assumption]|assumption].
    - exfalso. apply (od_get_None String.eqb sspec) in Eg. apply Eg. apply Hks. left; reflexivity. }
  destruct HM as (items & EM & HF). unfold dt_subcol. rewrite EM. cbn [bind].
  set (items' := tupd [] items).
  assert (Hni : NoDup (map fst items')) by exact (od_wf_update String.eqb sspec items [] (NoDup_nil _)).
  assert (Hget : forall k a, In (k, a) items' <-> In k ks /\ tget t k = Some a).
  { intros k a. split.
    - intros Hin. apply (od_In_get String.eqb sspec) in Hin; [|exact Hni]. unfold items' in Hin.
      rewrite (od_get_update String.eqb sspec) in Hin. simpl in Hin.
      assert (Hl : last_get String.eqb items k = Some a) by (destruct (last_get String.eqb items k); [assumption|discriminate]).
      clear -HF Hl. revert Hl. induction HF as [|k' [k2 a2] ks items [H1 H2] HF IH]; simpl; [discriminate|].
      simpl in H1, H2. subst k2. destruct (last_get String.eqb items k) as [w|] eqn:Ew.
      + intros E; inversion E; subst. destruct (IH eq_refl). auto.
      + destruct (sspec k k') as [->|N]; [|discriminate]. intros E; inversion E; subst. auto.
    - intros [Hin Ha]. apply (od_get_In String.eqb sspec). unfold items'. rewrite (od_get_update String.eqb sspec). simpl.
      assert (Hl : last_get String.eqb items k = Some a).
      { clear -HF Hin Ha. revert Hin. induction HF as [|k' [k2 a2] ks items [H1 H2] HF IH]; simpl; [tauto|].
        simpl in H1, H2. subst k2. intros Hin. destruct (last_get String.eqb items k) as [w|] eqn:Ew.
        - assert (Hx : In k ks).
          { clear -HF Ew. revert Ew. induction HF as [|k1 [k2 a2] ks items [H1 H2] HF IH]; simpl; [discriminate|].
            simpl in H1. subst k2. destruct (last_get String.eqb items k) as [w'|].
            - intros E. right. apply IH. assumption.
            - destruct (sspec k k1); [left; congruence|discriminate]. }
          apply IH. assumption.
        - destruct Hin as [->|Hin]; [|specialize (IH Hin); congruence].
          destruct (sspec k k); [|congruence]. congruence. }
      rewrite Hl. reflexivity. }
  assert (Hio : items_old b items').
  { intros k a Hin. apply Hget in Hin. apply (Hold k). eapply od_get_In; [apply sspec|apply Hin]. }
  assert (Hv : forall k r, In (k, r) (vals b items') <-> In k ks /\ In (k, r) (vals b t)).
  { intros k r. rewrite !vals_In. split.
    - intros (a & Hin & ->). apply Hget in Hin. destruct Hin as [H1 H2]. split; [assumption|]. exists a. split; [|reflexivity].
      eapply od_get_In; [apply sspec|assumption].
    - intros (Hin & a & Ha & ->). exists a. split; [|reflexivity]. apply Hget. split; [assumption|].
      apply (od_In_get String.eqb sspec); assumption. }
  assert (Hord : NoDup ks -> map fst items' = ks).
  { intros Hd. assert (Hki : map fst items = ks).
    { clear -HF. induction HF as [|k x ks items [H1 _] HF IH]; simpl; congruence. }
    unfold items'. rewrite (od_update_id String.eqb sspec) by (unfold od_wf, od_keys; rewrite Hki; assumption). assumption. }
  destruct cp.
  - destruct (dt_new b items' true) as [t' b'] eqn:En.
    destruct (dt_new_fresh _ _ _ _ Hio Hni En) as [Hf Hsc]. exists t', b'. split; [reflexivity|].
    rewrite (same_cols_keys _ _ _ _ Hsc), (same_cols_vals _ _ _ _ Hsc).
    split; [assumption|]. split; [assumption|]. split; [assumption|]. apply fresh_isolated in Hf.
    split; [auto|apply Hf].
  - rewrite dt_new_nocopy by assumption. exists items', b. split; [reflexivity|]. split; [assumption|].
    split; [assumption|]. split; [assumption|]. split; [discriminate|reflexivity].
Qed.

Lemma dt_subcol_missing b t ks cp k : In k ks -> ~ In k (map fst t) -> dt_subcol b t ks cp = Err KeyError.
Proof.
  intros Hin Hn. unfold dt_subcol.
  destruct (mapM (fun k => rmap (pair k) (dt_get t k)) ks) as [items|e] eqn:E.
  - exfalso. apply mapM_Ok in E. destruct (Forall2_In_l _ _ _ _ E Hin) as (x & _ & Hx). unfold dt_get in Hx.
    rewrite (proj2 (od_get_None String.eqb sspec t k) Hn) in Hx. discriminate.
  - cbn [bind]. apply mapM_Err in E. destruct E as (pre & x & suf & _ & _ & Hx). unfold dt_get in Hx.
    destruct (tget t x); inversion Hx. reflexivity.
Qed.

(** ** Histories *)
Definition good (b0 : bufs) (st : table * bufs) : Prop :=
  NoDup (map fst (fst st)) /\ items_old (snd st) (fst st) /\ exists ext, snd st = b0 ++ ext.

Lemma abs_stored b b' t t' k a' : NoDup (map fst t) -> NoDup (map fst t') -> stored t t' k a' ->
  (forall k2 a, In (k2, a) t -> rd b' a = rd b a) ->
  forall k', abs (t', b') k' = a_set (abs (t, b)) k (rd b' a') k'.
Proof.
  intros H1 H2 (S1 & S2 & S3 & _) Hrd k'. unfold abs, a_set. simpl.
  destruct (string_dec k' k) as [->|N].
  - rewrite (od_In_get String.eqb sspec t' k a' H2 S1). reflexivity.
  - destruct (tget t k') as [a|] eqn:E.
    + pose proof (od_get_In String.eqb sspec _ _ _ E) as Hin. simpl. rewrite <- (Hrd k' a Hin).
      rewrite (od_In_get String.eqb sspec t' k' a H2); [reflexivity|]. apply S2; assumption.
    + destruct (tget t' k') as [a|] eqn:E'; [|reflexivity].
      exfalso. apply (od_get_In String.eqb sspec) in E'. apply S2 in E'; [|assumption].
      apply (od_In_get String.eqb sspec) in E'; [congruence|assumption].
Qed.

Lemma good_set b0 t b k a : good b0 (t, b) -> old b0 a ->
  good b0 (dt_set b t k a) /\ forall k', abs (dt_set b t k a) k' = a_set (abs (t, b)) k (rd b0 a) k'.
Proof.
  intros (Hnd & Hold & [ext Hb]) Ha. simpl in *. destruct (dt_set b t k a) as [t' b'] eqn:E.
  assert (Ha' : old b a) by (unfold old in *; subst b; rewrite app_length; lia).
  destruct (dt_set_fresh b t k a t' b' Hnd Hold Ha' E) as (a' & Hst & Hr & Hf & Hnd' & Hold').
  destruct Hf as ([ext2 ->] & _). split.
  - split; [assumption|]. split; [assumption|]. exists (ext ++ ext2). simpl. rewrite app_assoc. congruence.
  - intros k'. rewrite (abs_stored b (b ++ ext2) t t' k a' Hnd Hnd' Hst).
    + rewrite Hr. subst b. rewrite rd_ext by assumption. reflexivity.
    + intros k2 a2 Hin. apply rd_ext. apply (Hold k2). assumption.
Qed.

Lemma a_set_ext m m' k r : (forall x, m x = m' x) -> forall x, a_set m k r x = a_set m' k r x.
Proof. intros H x. unfold a_set. destruct (string_dec x k); auto. Qed.
Lemma a_set_all_ext kvs : forall m m', (forall x, m x = m' x) -> forall x, a_set_all m kvs x = a_set_all m' kvs x.
Proof. induction kvs as [|[k r] kvs IH]; simpl; intros m m' H x; [apply H|]. apply IH. apply a_set_ext. assumption. Qed.
Lemma a_del_ext m m' k : (forall x, m x = m' x) -> forall x, a_del m k x = a_del m' k x.
Proof. intros H x. unfold a_del. destruct (string_dec x k); auto. Qed.
Lemma a_del_all_ext ks : forall m m', (forall x, m x = m' x) -> forall x, a_del_all m ks x = a_del_all m' ks x.
Proof.
  induction ks as [|k ks IH]; simpl; intros m m' H x; [apply H|]. rewrite <- (H k). destruct (m k); [|apply H].
  apply IH. apply a_del_ext. assumption.
Qed.
Lemma a_step_ext val o m m' : (forall x, m x = m' x) -> forall x, a_step val m o x = a_step val m' o x.
Proof.
  intros H x. destruct o; simpl.
  - apply a_set_ext; assumption.
  - destruct (Nat.eq_dec _ _); [apply a_set_all_ext; assumption|apply H].
  - apply a_del_ext; assumption.
  - apply a_del_all_ext; assumption.
  - apply a_set_all_ext; assumption.
  - reflexivity.
Qed.

Lemma good_set_go b0 ks : forall t b vs, good b0 (t, b) -> (forall a, In a vs -> old b0 a) ->
  good b0 (dt_set_go b t ks vs) /\
  forall k', abs (dt_set_go b t ks vs) k' = a_set_all (abs (t, b)) (combine ks (map (rd b0) vs)) k'.
Proof.
  induction ks as [|k ks IH]; intros t b vs Hg Hv; [simpl; auto|].
  destruct vs as [|v vs]; [simpl; auto|]. cbn [dt_set_go combine map a_set_all].
  destruct (good_set b0 t b k v Hg (Hv v (or_introl eq_refl))) as [Hg1 Ha1].
  destruct (dt_set b t k v) as [t1 b1] eqn:E1.
  destruct (IH t1 b1 vs Hg1) as [Hg2 Ha2]; [intros a Hin; apply Hv; right; assumption|].
  split; [assumption|]. intros k'. rewrite Ha2. apply a_set_all_ext. assumption.
Qed.

Lemma abs_del t b k : NoDup (map fst t) ->
  forall k', abs (od_del String.eqb t k, b) k' = a_del (abs (t, b)) k k'.
Proof.
  intros Hnd k'. unfold abs, a_del. simpl. destruct (string_dec k' k) as [->|N].
  - rewrite od_get_del_same; [reflexivity|apply sspec|assumption].
  - rewrite od_get_del_other; [reflexivity|apply sspec|assumption].
Qed.

Lemma good_del b0 t b k : good b0 (t, b) -> good b0 (od_del String.eqb t k, b).
Proof.
  intros (Hnd & Hold & Hx). split; [apply (od_wf_del String.eqb sspec); exact Hnd|]. split; [|exact Hx].
  simpl in *. intros k2 a2 Hin. rewrite (od_del_filter String.eqb sspec t k Hnd) in Hin.
  apply filter_In in Hin. apply (Hold k2). tauto.
Qed.

Lemma dt_del_abs b0 t b k : good b0 (t, b) ->
  good b0 (snd (dt_del t k), b) /\ forall k', abs (snd (dt_del t k), b) k' = a_del (abs (t, b)) k k'.
Proof.
  intros Hg. unfold dt_del. destruct (od_mem String.eqb t k) eqn:E; simpl.
  - split; [apply good_del; assumption|]. apply abs_del. apply Hg.
  - split; [assumption|]. intros k'. unfold a_del. destruct (string_dec k' k) as [->|]; [|reflexivity].
    unfold abs. simpl. unfold od_mem in E. destruct (tget t k); [discriminate|reflexivity].
Qed.

Lemma dt_del_tuple_abs b0 ks : forall t b, good b0 (t, b) ->
  good b0 (snd (dt_del_tuple t ks), b) /\ forall k', abs (snd (dt_del_tuple t ks), b) k' = a_del_all (abs (t, b)) ks k'.
Proof.
  induction ks as [|k ks IH]; intros t b Hg; simpl; [auto|].
  unfold dt_del. destruct (od_mem String.eqb t k) eqn:E.
  - destruct (IH (od_del String.eqb t k) b (good_del _ _ _ _ Hg)) as [Hg2 Ha2]. split; [assumption|].
    intros k'. rewrite Ha2. unfold od_mem in E. destruct (tget t k) as [a|] eqn:G; [|discriminate].
    assert (Hk : abs (t, b) k = Some (rd b a)) by (unfold abs; cbn; rewrite G; reflexivity).
    rewrite Hk. apply a_del_all_ext. apply abs_del. apply Hg.
  - cbn [snd]. split; [assumption|]. intros k'. unfold od_mem in E. destruct (tget t k) as [a|] eqn:G; [discriminate|].
    assert (Hk : abs (t, b) k = None) by (unfold abs; cbn; rewrite G; reflexivity).
    rewrite Hk. reflexivity.
Qed.

Lemma a_set_all_last kvs : forall m k, NoDup (map fst kvs) ->
  a_set_all m kvs k = match od_get String.eqb kvs k with Some r => Some r | None => m k end.
Proof.
  induction kvs as [|[k0 r0] kvs IH]; intros m k Hnd; simpl; [reflexivity|].
  inversion Hnd as [|? ? Hni Hnd']; subst. rewrite IH by assumption. unfold a_set.
  destruct (sspec k k0) as [->|N].
  - rewrite (proj2 (od_get_None String.eqb sspec kvs k0) Hni). destruct (string_dec k0 k0); [reflexivity|congruence].
  - destruct (od_get String.eqb kvs k); [reflexivity|]. destruct (string_dec k k0); [congruence|reflexivity].
Qed.

Lemma vals_get b o k : od_get String.eqb (vals b o) k = option_map (rd b) (tget o k).
Proof. unfold vals. induction o as [|[k0 a0] o IH]; simpl; [reflexivity|]. destruct (String.eqb k k0); [reflexivity|assumption]. Qed.

Lemma union_get {V} (t o t' : list (string * V)) k : NoDup (map fst t) -> NoDup (map fst o) -> NoDup (map fst t') ->
  union_of t o t' ->
  od_get String.eqb t' k = match od_get String.eqb o k with Some v => Some v | None => od_get String.eqb t k end.
Proof.
  intros H1 H2 H3 [U _]. destruct (od_get String.eqb o k) as [v|] eqn:Eo.
  - apply (od_In_get String.eqb sspec); [assumption|]. apply U. left. eapply od_get_In; [apply sspec|assumption].
  - destruct (od_get String.eqb t k) as [v|] eqn:Et.
    + apply (od_In_get String.eqb sspec); [assumption|]. apply U. right. split; [eapply od_get_In; [apply sspec|assumption]|].
      apply (od_get_None String.eqb sspec). assumption.
    + destruct (od_get String.eqb t' k) as [v|] eqn:E'; [|reflexivity]. exfalso.
      apply (od_get_In String.eqb sspec) in E'. apply U in E'. destruct E' as [E'|[E' _]];
      apply (od_In_get String.eqb sspec) in E'; try assumption; congruence.
Qed.

Lemma good_update b0 t b o cp : good b0 (t, b) -> items_old b0 o -> NoDup (map fst o) ->
  good b0 (dt_update b t o cp) /\
  forall k', abs (dt_update b t o cp) k' = a_set_all (abs (t, b)) (map (fun x => (fst x, rd b0 (snd x))) o) k'.
Proof.
  intros (Hnd & Hold & [ext Hb]) Ho Hno. simpl in Hnd, Hold, Hb. subst b.
  assert (Ho' : items_old (b0 ++ ext) o) by (apply items_old_ext; assumption).
  change (map (fun x => (fst x, rd b0 (snd x))) o) with (vals b0 o).
  assert (Hrhs : forall m k', a_set_all m (vals b0 o) k' =
            match option_map (rd b0) (tget o k') with Some r => Some r | None => m k' end).
  { intros m k'. rewrite a_set_all_last by (rewrite vals_keys; assumption). rewrite vals_get. reflexivity. }
  destruct cp.
  - destruct (dt_update (b0 ++ ext) t o true) as [t' b'] eqn:E.
    destruct (dt_update_fresh _ t o t' b' Hnd Hno Hold Ho' E) as (o' & Hsc & Hu & Hf & Hnd' & Hold').
    destruct Hf as ([ext2 ->] & _).
    split; [split; [assumption|split; [assumption|exists (ext ++ ext2); simpl; rewrite app_assoc; reflexivity]]|].
    intros k'. rewrite Hrhs. unfold abs. simpl.
    assert (Hno' : NoDup (map fst o')) by (rewrite (same_cols_keys _ _ _ _ Hsc); assumption).
    rewrite (union_get t o' t' k' Hnd Hno' Hnd' Hu).
    assert (Hg : option_map (rd ((b0 ++ ext) ++ ext2)) (tget o' k') = option_map (rd b0) (tget o k')).
    { rewrite <- !vals_get. rewrite (same_cols_vals _ _ _ _ Hsc). rewrite (vals_old b0 ext o Ho). reflexivity. }
    destruct (tget o' k') as [a'|]; destruct (tget o k') as [a|]; simpl in Hg; try discriminate.
    + simpl. assumption.
    + simpl. destruct (tget t k') as [a|] eqn:Et; [|reflexivity]. simpl. f_equal. apply rd_ext.
      apply (Hold k'). eapply od_get_In; [apply sspec|assumption].
  - destruct (dt_update_nocopy (b0 ++ ext) t o Hnd Hno) as (t' & E & Hu). rewrite E.
    assert (Hnd' : NoDup (map fst t')).
    { unfold dt_update in E. rewrite dt_arrays_nocopy in E. inversion E.
      apply (od_wf_update String.eqb sspec). exact Hnd. }
    split.
    + split; [assumption|]. split; [|exists ext; reflexivity]. simpl. intros k a Hin. apply Hu in Hin.
      destruct Hin as [Hin|[Hin _]]; [apply (Ho' k)|apply (Hold k)]; assumption.
    + intros k'. rewrite Hrhs. unfold abs. simpl. rewrite (union_get t o t' k' Hnd Hno Hnd' Hu).
      destruct (tget o k') as [a|] eqn:Eo; [|reflexivity]. simpl. f_equal. apply rd_ext.
      apply (Ho k'). eapply od_get_In; [apply sspec|assumption].
Qed.

Lemma tstep_refines b0 st o : good b0 st -> top_old b0 o ->
  good b0 (tstep st o) /\ forall k, abs (tstep st o) k = a_step (rd b0) (abs st) o k.
Proof.
  destruct st as [t b]. intros Hg Ho. destruct o as [k a|ks vs|k|ks|o cp|]; simpl in *.
  - apply good_set; assumption.
  - unfold dt_set_tuple. destruct (Nat.eqb_spec (length ks) (length vs)) as [E|E].
    + destruct (Nat.eq_dec (length ks) (length vs)); [|congruence]. simpl. apply good_set_go; assumption.
    + destruct (Nat.eq_dec (length ks) (length vs)); [congruence|]. simpl. auto.
  - apply dt_del_abs; assumption.
  - apply dt_del_tuple_abs; assumption.
  - destruct Ho. apply good_update; assumption.
  - split; [|reflexivity]. split; [constructor|]. split; [intros k a []|]. apply Hg.
Qed.

Lemma history_refines b0 t0 ops : NoDup (map fst t0) -> items_old b0 t0 -> (forall o, In o ops -> top_old b0 o) ->
  let st := fold_left tstep ops (t0, b0) in
  NoDup (dt_keys (fst st)) /\
  (forall k, abs st k = fold_left (a_step (rd b0)) ops (abs (t0, b0)) k) /\
  (forall k, In k (dt_keys (fst st)) <-> abs st k <> None).
Proof.
  intros Hnd Hold Hops.
  assert (Hind : forall ops st m, (forall o, In o ops -> top_old b0 o) -> good b0 st -> (forall k, abs st k = m k) ->
      good b0 (fold_left tstep ops st) /\ forall k, abs (fold_left tstep ops st) k = fold_left (a_step (rd b0)) ops m k).
  { clear. induction ops as [|o ops IH]; intros st m Hops Hg Hm; simpl; [auto|].
    destruct (tstep_refines b0 st o Hg (Hops o (or_introl eq_refl))) as [Hg1 Ha1].
    apply IH; [intros o' Ho'; apply Hops; right; assumption|assumption|].
    intros k. rewrite Ha1. apply a_step_ext. assumption. }
  destruct (Hind ops (t0, b0) (abs (t0, b0)) Hops) as [Hg Ha].
  { split; [assumption|]. split; [assumption|]. exists []. simpl. rewrite app_nil_r. reflexivity. }
  { reflexivity. }
  simpl. split; [apply Hg|]. split; [assumption|].
  intros k. unfold abs. unfold dt_keys. rewrite <- (od_mem_keys String.eqb sspec). unfold od_mem.
  destruct (tget (fst (fold_left tstep ops (t0, b0))) k); simpl; split; congruence.
Qed.

Lemma dt_reads_agree t k :
  (dt_contains t k = true <-> In k (dt_keys t)) /\
  ((exists a, dt_get t k = Ok a) <-> In k (dt_keys t)) /\
  (forall e, dt_get t k = Err e -> e = KeyError).
Proof.
  unfold dt_contains, dt_keys. rewrite <- (od_mem_keys String.eqb sspec). unfold dt_get, od_mem.
  destruct (tget t k); split; [tauto| |tauto|]; split; try split; intros; eauto; try congruence.
  destruct H; discriminate.
Qed.

Lemma dt_getattr_cls cls t k : In k cls -> dt_getattr cls t k = AMethod k.
Proof.
  intros H. unfold dt_getattr. replace (existsb (String.eqb k) cls) with true; [reflexivity|].
  symmetry. apply existsb_exists. exists k. split; [assumption|apply String.eqb_refl].
Qed.
Lemma dt_getattr_spec cls t k : ~ In k cls ->
  (forall a, dt_getattr cls t k = ACol a <-> dt_get t k = Ok a) /\
  (dt_getattr cls t k = AAttributeError <-> ~ In k (dt_keys t)).
Proof.
  intros Hn. unfold dt_getattr.
  replace (existsb (String.eqb k) cls) with false.
  2:{ symmetry. apply not_true_is_false. intros H. apply existsb_exists in H. destruct H as (x & Hx & E).
      apply String.eqb_eq in E. subst. contradiction. }
  unfold dt_get, dt_keys. pose proof (od_get_None String.eqb sspec t k) as HN.
  destruct (tget t k) as [a|] eqn:E.
  - split; [intros a'; split; congruence|]. split; [discriminate|]. intros H. apply HN in H. discriminate.
  - split; [intros a'; split; discriminate|]. split; [|reflexivity]. intros _. apply HN. reflexivity.
Qed.

(** ** Column order *)
Lemma keys_set (t : table) k a : map fst (tset t k a) = k_add (map fst t) k.
Proof.
  unfold k_add. pose proof (od_keys_set String.eqb sspec t k a) as H. unfold od_keys in H. rewrite H.
  pose proof (od_mem_keys String.eqb sspec t k) as Hm. unfold od_keys in Hm.
  destruct (in_dec string_dec k (map fst t)) as [i|i]; destruct (od_mem String.eqb t k); try reflexivity; exfalso; intuition congruence.
Qed.

Lemma keys_del (t : table) k : NoDup (map fst t) -> map fst (od_del String.eqb t k) = remove string_dec k (map fst t).
Proof.
  intros H. rewrite (od_del_filter String.eqb sspec t k H). clear H.
  induction t as [|[k0 a0] t IH]; simpl; [reflexivity|].
  destruct (sspec k k0) as [->|N]; destruct (string_dec _ _); simpl; try congruence.
Qed.

Lemma keys_update items : forall t : table, map fst (tupd t items) = fold_left k_add (map fst items) (map fst t).
Proof.
  unfold od_update. induction items as [|[k a] items IH]; intros t; simpl; [reflexivity|].
  rewrite IH, keys_set. reflexivity.
Qed.

Lemma keys_set_go ks : forall b (t : table) vs, length ks = length vs ->
  map fst (fst (dt_set_go b t ks vs)) = fold_left k_add ks (map fst t).
Proof.
  induction ks as [|k ks IH]; intros b t [|v vs] E; simpl in E; try discriminate; [reflexivity|].
  cbn [dt_set_go fold_left]. unfold dt_set. destruct (np_array b true v) as [a' b'].
  rewrite IH by congruence. rewrite keys_set. reflexivity.
Qed.

Lemma arrays_of_keys cp items : forall b, map fst (fst (arrays_of b cp items)) = map fst items.
Proof.
  induction items as [|[k a] items IH]; intros b; cbn [arrays_of]; [reflexivity|].
  destruct (np_array b cp a) as [a' b1]. specialize (IH b1). destruct (arrays_of b1 cp items) as [r b2].
  simpl in *. congruence.
Qed.

Lemma remove_NoDup (k : string) l : NoDup l -> NoDup (remove string_dec k l).
Proof.
  induction 1 as [|x l Hn Hl IH]; simpl; [constructor|]. destruct (string_dec k x); [assumption|].
  constructor; [|assumption]. intros Hin. apply in_remove in Hin. tauto.
Qed.

Lemma keys_del_tuple l : forall t : table, NoDup (map fst t) ->
  map fst (snd (dt_del_tuple t l)) = k_del_all (map fst t) l.
Proof.
  induction l as [|k l IH]; intros t Hnd; cbn [dt_del_tuple k_del_all]; [reflexivity|].
  unfold dt_del. pose proof (od_mem_keys String.eqb sspec t k) as Hm. unfold od_keys in Hm.
  destruct (od_mem String.eqb t k).
  - destruct (in_dec string_dec k (map fst t)) as [_|n]; [|exfalso; tauto].
    rewrite IH; [rewrite keys_del by assumption; reflexivity|]. rewrite keys_del by assumption. apply remove_NoDup. assumption.
  - destruct (in_dec string_dec k (map fst t)) as [i|_]; [|reflexivity]. apply Hm in i. discriminate.
Qed.

Lemma key_order_step (t : table) b o : NoDup (dt_keys t) -> (forall l c, o = TUpdate l c -> NoDup (map fst l)) ->
  dt_keys (fst (tstep (t, b) o)) = k_step (dt_keys t) o.
Proof.
  unfold dt_keys, od_keys. intros Hnd Hu. destruct o as [k a|ks vs|k|ks|o cp|]; cbn [tstep k_step].
  - unfold dt_set. destruct (np_array b true a). apply keys_set.
  - unfold dt_set_tuple. destruct (Nat.eqb_spec (length ks) (length vs)) as [E|E];
      destruct (Nat.eq_dec (length ks) (length vs)); try congruence; cbn [snd fst]; [|reflexivity].
    apply keys_set_go. assumption.
  - unfold dt_del. pose proof (od_mem_keys String.eqb sspec t k) as Hm. unfold od_keys in Hm.
    destruct (od_mem String.eqb t k); simpl; [apply keys_del; assumption|].
    symmetry. apply notin_remove. intros Hin. apply Hm in Hin. discriminate.
  - apply keys_del_tuple. assumption.
  - unfold dt_update. pose proof (arrays_of_keys cp o b) as Hk. destruct (arrays_of b cp o) as [items b'].
    cbn [fst] in *. rewrite keys_update. rewrite (od_update_id String.eqb sspec).
    + rewrite Hk. reflexivity.
    + unfold od_wf, od_keys. rewrite Hk. apply (Hu o cp). reflexivity.
  - reflexivity.
Qed.

Lemma history_order b0 (t0 : table) ops : NoDup (map fst t0) -> items_old b0 t0 -> (forall o, In o ops -> top_old b0 o) ->
  dt_keys (fst (fold_left tstep ops (t0, b0))) = fold_left k_step ops (dt_keys t0).
Proof.
  intros Hnd Hold Hops.
  assert (Hgen : forall ops st, (forall o, In o ops -> top_old b0 o) -> good b0 st ->
     dt_keys (fst (fold_left tstep ops st)) = fold_left k_step ops (dt_keys (fst st))).
  { clear. induction ops as [|o ops IH]; intros [t b] Hops Hg; [reflexivity|]. cbn [fold_left].
    destruct (tstep_refines b0 (t, b) o Hg (Hops o (or_introl eq_refl))) as [Hg1 _].
    rewrite IH; [|intros o' Ho'; apply Hops; right; assumption|assumption].
    rewrite key_order_step; [reflexivity|apply Hg|].
    intros l c ->. apply (Hops _ (or_introl eq_refl)). }
  apply (Hgen ops (t0, b0) Hops).
  split; [assumption|]. split; [assumption|]. exists []. simpl. rewrite app_nil_r. reflexivity.
Qed.
