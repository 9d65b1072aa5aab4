From Verif Require Import Base Str OdictSpec DataDictModel DataDictSpec.
Set Implicit Arguments.
Open Scope string_scope.

Notation get := (od_get String.eqb).
Notation seqb_spec := String.eqb_spec.

Lemma dict_of_holds h v d : wf h -> (dict_of h v = Some d <-> holds h v d).
Proof.
  intros W. split.
  - destruct v as [l|s|z|vs]; simpl; try discriminate.
    destruct (nth_error h l) as [[e|d']|] eqn:E; try discriminate; intros H; inversion H; subst.
    + econstructor; eassumption.
    + destruct (wf_dd W _ _ E) as [e He]. eapply holds_dd; eassumption.
  - intros H; inversion H as [l e Hl|l d' e Hl Hd]; subst; simpl; rewrite Hl; reflexivity.
Qed.

Lemma dict_of_none h v : wf h -> (dict_of h v = None <-> ~ is_mapping h v).
Proof.
  intros W. split.
  - intros H [d Hd]. apply (dict_of_holds _ _ W) in Hd. congruence.
  - intros H. destruct (dict_of h v) as [d|] eqn:E; [|reflexivity].
    exfalso. apply H. exists d. apply (dict_of_holds _ _ W). assumption.
Qed.

Lemma holds_dict_at h v d : holds h v d -> exists e, nth_error h d = Some (Dict e).
Proof. intros H; inversion H; subst; eauto. Qed.

Lemma holds_fun h v d d' : holds h v d -> holds h v d' -> d = d'.
Proof. intros H1 H2; inversion H1; subst; inversion H2; subst; try congruence. Qed.

Lemma entries_eq h d e : nth_error h d = Some (Dict e) -> entries h d = e.
Proof. unfold entries; intros ->; reflexivity. Qed.

Lemma subscript_Ok h v k w : wf h -> (subscript h v k = Ok w <-> entry h v k w).
Proof.
  intros W. unfold subscript, entry. split.
  - destruct (dict_of h v) as [d|] eqn:E; [|discriminate].
    apply (dict_of_holds _ _ W) in E. destruct (holds_dict_at E) as [e He].
    rewrite (entries_eq _ _ He). destruct (get e k) as [w'|] eqn:G; [|discriminate].
    intros H; inversion H; subst. exists d, e. repeat split; try assumption.
    eapply od_get_In; [apply seqb_spec|eassumption].
  - intros (d & e & Hd & He & Hin). apply (dict_of_holds _ _ W) in Hd. rewrite Hd, (entries_eq _ _ He).
    rewrite (od_In_get String.eqb seqb_spec e k w); [reflexivity| |assumption].
    exact (wf_keys W _ _ He).
Qed.

Lemma subscript_KeyError h v k : wf h ->
  (subscript h v k = Err KeyError <-> is_mapping h v /\ ~ exists w, entry h v k w).
Proof.
  intros W. split.
  - intros H. split.
    + unfold subscript in H. destruct (dict_of h v) as [d|] eqn:E; [|discriminate].
      exists d. apply (dict_of_holds _ _ W). assumption.
    + intros [w Hw]. apply (subscript_Ok _ _ _ W) in Hw. congruence.
  - intros [[d Hd] Hn]. apply (dict_of_holds _ _ W) in Hd. unfold subscript. rewrite Hd.
    destruct (get (entries h d) k) as [w|] eqn:G; [|reflexivity].
    exfalso. apply Hn. exists w. apply (subscript_Ok _ _ _ W). unfold subscript. rewrite Hd, G. reflexivity.
Qed.

Lemma subscript_TypeError h v k : wf h -> (subscript h v k = Err TypeError <-> ~ is_mapping h v).
Proof.
  intros W. rewrite <- (dict_of_none _ W). unfold subscript.
  destruct (dict_of h v) as [d|]; [|tauto]. destruct (get (entries h d) k); split; discriminate.
Qed.

Lemma subscript_errs h v k e : subscript h v k = Err e -> e = KeyError \/ e = TypeError.
Proof.
  unfold subscript. destruct (dict_of h v); [destruct (get _ _)|]; intros H; inversion H; auto.
Qed.

Lemma walk_Ok h v ks u : wf h -> (walk h v ks = Ok u <-> reaches h v ks u).
Proof.
  intros W. revert v. induction ks as [|k ks IH]; intros v; simpl.
  - split; intros H. + inversion H; constructor. + inversion H; reflexivity.
  - split.
    + destruct (subscript h v k) as [w|e] eqn:E; simpl; [|discriminate]. intros H.
      econstructor. * apply (subscript_Ok _ _ _ W). eassumption. * apply IH. assumption.
    + intros H; inversion H as [|? ? w ? ? He Hr]; subst. apply (subscript_Ok _ _ _ W) in He.
      rewrite He. simpl. apply IH. assumption.
Qed.

Lemma walk_Err h v ks e : wf h ->
  (walk h v ks = Err e <->
   exists pre k suf u, ks = (pre ++ k :: suf)%list /\ reaches h v pre u /\ subscript h u k = Err e).
Proof.
  intros W. revert v. induction ks as [|k ks IH]; intros v; simpl.
  - split; [discriminate|]. intros (pre & k & suf & u & H & _). destruct pre; discriminate.
  - split.
    + destruct (subscript h v k) as [w|e'] eqn:E; simpl; intros H.
      * apply IH in H. destruct H as (pre & k2 & suf & u & -> & Hr & Hs).
        exists (k :: pre), k2, suf, u. split; [reflexivity|]. split; [|assumption].
        econstructor; [apply (subscript_Ok _ _ _ W); eassumption|assumption].
      * inversion H; subst. exists [], k, ks, v. split; [reflexivity|]. split; [constructor|assumption].
    + intros (pre & k2 & suf & u & Hks & Hr & Hs). destruct pre as [|k3 pre]; simpl in Hks; inversion Hks; subst.
      * inversion Hr; subst. rewrite Hs. reflexivity.
      * inversion Hr as [|? ? w ? ? He Hr']; subst. apply (subscript_Ok _ _ _ W) in He. rewrite He. simpl.
        apply IH. exists pre, k2, suf, u. auto.
Qed.

Lemma walk_app h v ks1 ks2 : walk h v (ks1 ++ ks2) = bind (walk h v ks1) (fun w => walk h w ks2).
Proof.
  revert v. induction ks1 as [|k ks IH]; intros v; simpl; [reflexivity|].
  destruct (subscript h v k); simpl; [apply IH|reflexivity].
Qed.

Lemma names_segments s p : names s p <->
  p = if has_char slash s then split_key s else [s].
Proof.
  unfold split_key. split.
  - intros H; inversion H as [Hc|p' Hc Hp]; subst; rewrite Hc; [reflexivity|].
    apply is_path_segments. assumption.
  - destruct (has_char slash s) eqn:E; intros ->; [|constructor; assumption].
    apply names_path; [assumption|]. apply is_path_segments. reflexivity.
Qed.

(** Every string addresses exactly one list of names. *)
Lemma names_total s : exists p, names s p /\ forall q, names s q -> q = p.
Proof.
  exists (if has_char slash s then split_key s else [s]). split.
  - apply names_segments. reflexivity.
  - intros q Hq. apply names_segments in Hq. assumption.
Qed.

Lemma names_direct_ne s : has_char slash s = false -> names s [s].
Proof. intros; constructor; assumption. Qed.

Lemma getitem_walk h self s p : names s p -> p <> [] -> getitem h self (KStr s) = walk h self p.
Proof.
  intros Hn Hp. apply names_segments in Hn. simpl. destruct (has_char slash s) eqn:E; subst p.
  - destruct (split_key s) as [|k ks]; [congruence|]. reflexivity.
  - simpl. destruct (subscript h self s); reflexivity.
Qed.

Lemma getitem_empty h self s : names s [] -> getitem h self (KStr s) = Err AssertionError.
Proof.
  intros Hn. apply names_segments in Hn. simpl. destruct (has_char slash s); [|discriminate].
  rewrite <- Hn. reflexivity.
Qed.

Lemma get_string h self s p : wf h -> names s p ->
  (p <> [] -> forall v, getitem h self (KStr s) = Ok v <-> reaches h self p v) /\
  (p <> [] -> (getitem h self (KStr s) = Err KeyError <->
     exists pre k suf u, p = (pre ++ k :: suf)%list /\ reaches h self pre u /\ is_mapping h u /\
                         ~ exists w, entry h u k w)) /\
  (p <> [] -> (getitem h self (KStr s) = Err TypeError <->
     exists pre k suf u, p = (pre ++ k :: suf)%list /\ reaches h self pre u /\ ~ is_mapping h u)) /\
  (p = [] -> getitem h self (KStr s) = Err AssertionError) /\
  (p <> [] -> forall e, getitem h self (KStr s) = Err e -> e = KeyError \/ e = TypeError).
Proof.
  intros W Hn. split; [|split; [|split; [|split]]].
  - intros Hp v. rewrite (getitem_walk _ _ Hn Hp). apply walk_Ok; assumption.
  - intros Hp. rewrite (getitem_walk _ _ Hn Hp). rewrite (walk_Err _ _ _ W). split.
    + intros (pre & k & suf & u & H1 & H2 & H3). exists pre, k, suf, u.
      apply (subscript_KeyError _ _ W) in H3. tauto.
    + intros (pre & k & suf & u & H1 & H2 & H3). exists pre, k, suf, u.
      rewrite (subscript_KeyError _ _ W). tauto.
  - intros Hp. rewrite (getitem_walk _ _ Hn Hp). rewrite (walk_Err _ _ _ W). split.
    + intros (pre & k & suf & u & H1 & H2 & H3). exists pre, k, suf, u.
      apply (subscript_TypeError _ _ W) in H3. tauto.
    + intros (pre & k & suf & u & H1 & H2 & H3). exists pre, k, suf, u.
      rewrite (subscript_TypeError _ _ W). tauto.
  - intros ->. apply getitem_empty; assumption.
  - intros Hp e. rewrite (getitem_walk _ _ Hn Hp). rewrite (walk_Err _ _ _ W).
    intros (pre & k & suf & u & H1 & H2 & H3). eapply subscript_errs; eassumption.
Qed.

Lemma getitem_tup h self ks : getitem h self (KTup ks) = rmap VTup (mapM (getitem h self) ks).
Proof.
  simpl. f_equal. induction ks as [|k ks IH]; simpl; [reflexivity|].
  destruct (getitem h self k); simpl; [rewrite IH|]; reflexivity.
Qed.

Lemma get_tuple h self ks :
  (forall r, getitem h self (KTup ks) = Ok r <->
     exists vs, r = VTup vs /\ Forall2 (fun k v => getitem h self k = Ok v) ks vs) /\
  (forall e, getitem h self (KTup ks) = Err e <->
     exists pre k suf, ks = (pre ++ k :: suf)%list /\
       (forall k', In k' pre -> exists v, getitem h self k' = Ok v) /\ getitem h self k = Err e).
Proof.
  rewrite getitem_tup. split.
  - intros r. split.
    + destruct (mapM (getitem h self) ks) as [vs|e] eqn:E; simpl; [|discriminate].
      intros H; inversion H; subst. exists vs. split; [reflexivity|]. apply mapM_Ok. assumption.
    + intros (vs & -> & H). apply mapM_Ok in H. rewrite H. reflexivity.
  - intros e. rewrite <- mapM_Err. destruct (mapM (getitem h self) ks); simpl; split; congruence.
Qed.

(** ** Assignment and deletion *)

Lemma split_last_app pre k : split_last (pre ++ [k]) = Some (pre, k).
Proof. unfold split_last. rewrite rev_app_distr. simpl. rewrite rev_involutive. reflexivity. Qed.

Lemma setitem_names h self s pre last w : names s (pre ++ [last]) ->
  setitem h self (KStr s) w =
  match walk h self pre with Err e => (Err e, h) | Ok v => store h v last w end.
Proof.
  intros Hn. apply names_segments in Hn. simpl. destruct (has_char slash s).
  - rewrite <- Hn, split_last_app. reflexivity.
  - destruct pre as [|a pre]; [|destruct pre; discriminate]. inversion Hn; subst. reflexivity.
Qed.

Lemma delitem_names h self s pre last : names s (pre ++ [last]) ->
  delitem h self (KStr s) =
  match walk h self pre with Err e => (Err e, h) | Ok v => remove h v last end.
Proof.
  intros Hn. apply names_segments in Hn. simpl. destruct (has_char slash s).
  - rewrite <- Hn, split_last_app. reflexivity.
  - destruct pre as [|a pre]; [|destruct pre; discriminate]. inversion Hn; subst. reflexivity.
Qed.

Lemma same_except_refl h d : same_except h h d.
Proof. split; [reflexivity|]. intros; reflexivity. Qed.

Lemma set_entries_same_except h d e : same_except h (set_entries h d e) d.
Proof.
  split; unfold set_entries; [apply upd_nth_length|]. intros l Hl. apply upd_nth_other. congruence.
Qed.

Lemma nth_lt (h : heap) d o : nth_error h d = Some o -> d < List.length h.
Proof. intros H. apply nth_error_Some. congruence. Qed.

Lemma set_entries_at h d e0 e : nth_error h d = Some (Dict e0) ->
  nth_error (set_entries h d e) d = Some (Dict e).
Proof. intros H. unfold set_entries. apply upd_nth_same. eapply nth_lt; eassumption. Qed.

Lemma wf_set_entries h d e0 e : wf h -> nth_error h d = Some (Dict e0) -> NoDup (map fst e) ->
  wf (set_entries h d e).
Proof.
  intros W Hd Hnd. destruct (set_entries_same_except h d e) as [_ Hs].
  pose proof (set_entries_at _ _ e Hd) as Hat.
  assert (Hdd : forall l d', nth_error (set_entries h d e) l = Some (DD d') -> nth_error h l = Some (DD d')).
  { intros l d' H. destruct (Nat.eq_dec l d) as [->|N]; [congruence|]. rewrite Hs in H; assumption. }
  constructor.
  - intros l e' H. destruct (Nat.eq_dec l d) as [->|N].
    + assert (e' = e) by congruence. subst. assumption.
    + rewrite Hs in H by assumption. exact (wf_keys W _ _ H).
  - intros l d' H. apply Hdd in H. destruct (wf_dd W _ _ H) as [e' He'].
    destruct (Nat.eq_dec d' d) as [->|N]; [eauto|]. rewrite Hs by assumption. eauto.
  - intros l1 l2 d' H1 H2. eapply (wf_own W); eauto.
Qed.

Lemma holds_set_entries h d e0 e v d' : nth_error h d = Some (Dict e0) ->
  (holds (set_entries h d e) v d' <-> holds h v d').
Proof.
  intros Hd. destruct (set_entries_same_except h d e) as [_ Hs].
  pose proof (set_entries_at _ _ e Hd) as Hat.
  split; intros H; inversion H as [l e1 Hl|l d1 e1 Hl Hd1]; subst.
  - destruct (Nat.eq_dec d' d) as [->|N]; [eapply holds_dict; eassumption|].
    rewrite Hs in Hl by assumption. eapply holds_dict; eassumption.
  - destruct (Nat.eq_dec l d) as [->|N]; [congruence|]. rewrite Hs in Hl by assumption.
    destruct (Nat.eq_dec d' d) as [->|N2]; [eapply holds_dd; eassumption|].
    rewrite Hs in Hd1 by assumption. eapply holds_dd; eassumption.
  - destruct (Nat.eq_dec d' d) as [->|N]; [eapply holds_dict; eassumption|].
    eapply holds_dict. rewrite Hs by assumption. eassumption.
  - destruct (Nat.eq_dec l d) as [->|N]; [congruence|].
    destruct (Nat.eq_dec d' d) as [->|N2].
    + eapply holds_dd; [rewrite Hs by assumption; eassumption|eassumption].
    + eapply holds_dd; rewrite Hs by assumption; eassumption.
Qed.

Lemma reaches_fun h v ks u u' : wf h -> reaches h v ks u -> reaches h v ks u' -> u = u'.
Proof. intros W H1 H2. apply (walk_Ok _ _ _ W) in H1, H2. congruence. Qed.

Lemma trace_reaches h v ks u es : trace h v ks u es -> reaches h v ks u.
Proof. induction 1; econstructor; eassumption. Qed.

Lemma reaches_trace h v ks u : reaches h v ks u -> exists es, trace h v ks u es.
Proof.
  induction 1 as [v|v k w ks u He Hr [es IH]]; [eexists; constructor|].
  destruct He as (d & e & Hd & Hx). exists ((d, k) :: es). econstructor; eauto. exists d, e. auto.
Qed.

Lemma set_string h self s pre last w : wf h -> names s (pre ++ [last]) ->
  (forall u d e, reaches h self pre u -> holds h u d -> nth_error h d = Some (Dict e) ->
     exists h' e', setitem h self (KStr s) w = (Ok tt, h') /\ same_except h h' d /\
       nth_error h' d = Some (Dict e') /\ stored e e' last w /\ wf h') /\
  ((~ exists u, reaches h self pre u /\ is_mapping h u) ->
     exists ex, setitem h self (KStr s) w = (Err ex, h) /\ (ex = KeyError \/ ex = TypeError)).
Proof.
  intros W Hn. rewrite (setitem_names _ _ _ _ _ Hn). split.
  - intros u d e Hr Hd He. apply (walk_Ok _ _ _ W) in Hr. rewrite Hr. unfold store.
    apply (dict_of_holds _ _ W) in Hd. rewrite Hd, (entries_eq _ _ He).
    assert (Hnd : NoDup (map fst e)) by exact (wf_keys W _ _ He).
    eexists _, _. split; [reflexivity|]. split; [apply set_entries_same_except|].
    split; [eapply set_entries_at; eassumption|]. split; [apply od_set_stored; assumption|].
    eapply wf_set_entries; try eassumption. exact (od_wf_set String.eqb seqb_spec e last w Hnd).
  - intros Hno. destruct (walk h self pre) as [u|ex] eqn:E.
    + unfold store. destruct (dict_of h u) as [d|] eqn:Ed; [|eauto].
      exfalso. apply Hno. exists u. split; [apply (walk_Ok _ _ _ W); assumption|].
      exists d. apply (dict_of_holds _ _ W). assumption.
    + exists ex. split; [reflexivity|]. apply (walk_Err _ _ _ W) in E.
      destruct E as (p & k & q & u & _ & _ & Hs). eapply subscript_errs; eassumption.
Qed.

Lemma set_string_empty h self s w : names s [] -> setitem h self (KStr s) w = (Err AssertionError, h).
Proof.
  intros Hn. apply names_segments in Hn. simpl. destruct (has_char slash s); [|discriminate].
  rewrite <- Hn. reflexivity.
Qed.

Lemma del_string_empty h self s : names s [] -> delitem h self (KStr s) = (Err AssertionError, h).
Proof.
  intros Hn. apply names_segments in Hn. simpl. destruct (has_char slash s); [|discriminate].
  rewrite <- Hn. reflexivity.
Qed.

(** A walk that does not use the entry (d, k) survives any change that keeps all other entries. *)
Lemma trace_survives h h' d k : 
  (forall v d', holds h v d' -> holds h' v d') ->
  (forall l, l <> d -> nth_error h' l = nth_error h l) ->
  (forall e, nth_error h d = Some (Dict e) -> exists e', nth_error h' d = Some (Dict e') /\
     forall k' w', k' <> k -> In (k', w') e -> In (k', w') e') ->
  forall v ks u es, trace h v ks u es -> ~ In (d, k) es -> trace h' v ks u es.
Proof.
  intros Hh Hs Hd. induction 1 as [v|v d1 k1 w ks u es Hv He Ht IH]; intros Hni; [constructor|].
  assert (Hn1 : (d1, k1) <> (d, k)) by (intros E; apply Hni; left; assumption).
  econstructor; [eauto| |apply IH; intros Hi; apply Hni; right; assumption].
  destruct He as (d2 & e & Hd2 & He & Hin).
  assert (d2 = d1) by (eapply holds_fun; eassumption). subst d2.
  destruct (Nat.eq_dec d1 d) as [->|N].
  - destruct (Hd e He) as (e' & He' & Hk). exists d, e'. split; [auto|]. split; [assumption|].
    apply Hk; [intros ->; apply Hn1; reflexivity|assumption].
  - exists d1, e. split; [auto|]. split; [rewrite Hs; assumption|assumption].
Qed.

Lemma reaches_app h v ks1 ks2 u w : reaches h v ks1 w -> reaches h w ks2 u -> reaches h v (ks1 ++ ks2) u.
Proof. induction 1 as [|v k w' ks u' He Hr IH]; simpl; intros H; [assumption|]. econstructor; eauto. Qed.

Lemma set_then_get h self s pre last w u d es : wf h -> names s (pre ++ [last]) ->
  trace h self pre u es -> holds h u d -> ~ In (d, last) es ->
  exists h', setitem h self (KStr s) w = (Ok tt, h') /\ getitem h' self (KStr s) = Ok w.
Proof.
  intros W Hn Ht Hd Hni. destruct (holds_dict_at Hd) as [e He].
  destruct (proj1 (@set_string h self s pre last w W Hn) u d e (trace_reaches Ht) Hd He)
    as (h' & e' & Hset & [_ Hs] & He' & Hst & W').
  exists h'. split; [assumption|].
  assert (Hset' := Hset). rewrite (setitem_names _ _ _ _ _ Hn) in Hset'.
  rewrite (proj2 (walk_Ok _ _ _ W) (trace_reaches Ht)) in Hset'. unfold store in Hset'.
  rewrite (proj2 (dict_of_holds _ _ W) Hd) in Hset'. inversion Hset' as [Hh'].
  assert (Hh : forall v d', holds h v d' -> holds h' v d').
  { intros v d' Hv. rewrite <- Hh'. eapply holds_set_entries; eassumption. }
  assert (Ht' : trace h' self pre u es).
  { eapply (@trace_survives h h' d last); try eassumption.
    intros e1 He1. assert (e1 = e) by congruence. subst e1. exists e'. split; [assumption|].
    destruct Hst as (_ & Ho & _). intros k' w' N Hin. apply Ho; assumption. }
  destruct (@get_string h' self s _ W' Hn) as [Hget _].
  try rewrite Hh'. apply Hget; [destruct pre; discriminate|]. eapply reaches_app; [eapply trace_reaches; eassumption|].
  econstructor; [|constructor]. exists d, e'. split; [apply Hh; assumption|]. split; [assumption|]. exact (proj1 Hst).
Qed.

(** ** Deletion *)
Lemma del_string h self s pre last : wf h -> names s (pre ++ [last]) ->
  (forall u d e w, reaches h self pre u -> holds h u d -> nth_error h d = Some (Dict e) -> In (last, w) e ->
     exists h', delitem h self (KStr s) = (Ok tt, h') /\ same_except h h' d /\
       nth_error h' d = Some (Dict (filter (fun kv => negb (String.eqb last (fst kv))) e)) /\ wf h') /\
  ((forall u w, reaches h self pre u -> ~ entry h u last w) ->
     exists ex, delitem h self (KStr s) = (Err ex, h) /\ (ex = KeyError \/ ex = TypeError)).
Proof.
  intros W Hn. rewrite (delitem_names _ _ _ _ Hn). split.
  - intros u d e w Hr Hd He Hin. apply (walk_Ok _ _ _ W) in Hr. rewrite Hr. unfold remove.
    apply (dict_of_holds _ _ W) in Hd. rewrite Hd, (entries_eq _ _ He).
    assert (Hnd : NoDup (map fst e)) by exact (wf_keys W _ _ He).
    replace (od_mem String.eqb e last) with true.
    2:{ symmetry. apply (od_mem_keys String.eqb seqb_spec). apply in_map_iff. exists (last, w). auto. }
    rewrite <- (od_del_filter String.eqb seqb_spec e last Hnd).
    eexists. split; [reflexivity|]. split; [apply set_entries_same_except|].
    split; [eapply set_entries_at; eassumption|].
    eapply wf_set_entries; try eassumption. exact (od_wf_del String.eqb seqb_spec e last Hnd).
  - intros Hno. destruct (walk h self pre) as [u|ex] eqn:E.
    + apply (walk_Ok _ _ _ W) in E. unfold remove. destruct (dict_of h u) as [d|] eqn:Ed; [|eauto].
      destruct (od_mem String.eqb (entries h d) last) eqn:Em; [|eauto].
      exfalso. unfold od_mem in Em. destruct (get (entries h d) last) as [w|] eqn:G; [|discriminate].
      apply (Hno u w E). apply (subscript_Ok _ _ _ W). unfold subscript. rewrite Ed, G. reflexivity.
    + exists ex. split; [reflexivity|]. apply (walk_Err _ _ _ W) in E.
      destruct E as (p & k & q & u & _ & _ & Hs). eapply subscript_errs; eassumption.
Qed.

Lemma del_then_get h self s pre last u d e w es : wf h -> names s (pre ++ [last]) ->
  trace h self pre u es -> holds h u d -> nth_error h d = Some (Dict e) -> In (last, w) e ->
  ~ In (d, last) es ->
  exists h', delitem h self (KStr s) = (Ok tt, h') /\ getitem h' self (KStr s) = Err KeyError.
Proof.
  intros W Hn Ht Hd He Hin Hni.
  destruct (proj1 (@del_string h self s pre last W Hn) u d e w (trace_reaches Ht) Hd He Hin) as (h' & Hdel & [_ Hs] & He' & W').
  exists h'. split; [assumption|].
  assert (Hdel' := Hdel). rewrite (delitem_names _ _ _ _ Hn) in Hdel'.
  rewrite (proj2 (walk_Ok _ _ _ W) (trace_reaches Ht)) in Hdel'. unfold remove in Hdel'.
  rewrite (proj2 (dict_of_holds _ _ W) Hd) in Hdel'.
  destruct (od_mem String.eqb (entries h d) last); [|discriminate]. inversion Hdel' as [Hh'].
  assert (Hh : forall v d', holds h v d' -> holds h' v d').
  { intros v d' Hv. rewrite <- Hh'. eapply holds_set_entries; eassumption. }
  assert (Ht' : trace h' self pre u es).
  { eapply (@trace_survives h h' d last); try eassumption.
    intros e1 He1. assert (e1 = e) by congruence. subst e1. eexists. split; [eassumption|].
    intros k' w' N Hi. apply filter_In. split; [assumption|]. simpl.
    destruct (seqb_spec last k'); [congruence|reflexivity]. }
  destruct (@get_string h' self s _ W' Hn) as [_ [Hget _]].
  try rewrite Hh'. apply Hget; [destruct pre; discriminate|].
  exists pre, last, [], u. split; [reflexivity|]. split; [eapply trace_reaches; eassumption|].
  split; [exists d; auto|]. intros [w' (d2 & e2 & Hd2 & He2 & Hin2)].
  assert (d2 = d) by (eapply holds_fun; [eassumption|]; auto). subst d2.
  assert (Hx : Some (Dict e2) = Some (Dict (filter (fun kv => negb (String.eqb last (fst kv))) e))) by congruence.
  inversion Hx; subst e2. apply filter_In in Hin2. destruct Hin2 as [_ Hb]. simpl in Hb.
  rewrite String.eqb_refl in Hb. discriminate.
Qed.

(** ** Tuples *)
Fixpoint set_go (self : value) (h : heap) (ks : list key) (ws : list value) : result unit * heap :=
  match ks, ws with
  | k1 :: ks', w1 :: ws' =>
      match setitem h self k1 w1 with
      | (Ok _, h') => set_go self h' ks' ws'
      | (Err e, h') => (Err e, h')
      end
  | _, _ => (Ok tt, h)
  end.

Lemma setitem_tup h self ks w :
  setitem h self (KTup ks) w =
  match val_items h w with
  | None => (Err TypeError, h)
  | Some ws => if Nat.eqb (List.length ks) (List.length ws) then set_go self h ks ws
               else (Err AssertionError, h)
  end.
Proof.
  simpl. destruct (val_items h w) as [ws|]; [|reflexivity].
  destruct (Nat.eqb _ _); [|reflexivity].
  revert h ws. induction ks as [|k ks IH]; intros h ws; simpl; [reflexivity|].
  destruct ws as [|w1 ws]; [reflexivity|].
  destruct (setitem h self k w1) as [[[]|e] h']; [apply IH|reflexivity].
Qed.

Fixpoint del_go (self : value) (h : heap) (ks : list key) : result unit * heap :=
  match ks with
  | [] => (Ok tt, h)
  | k1 :: ks' =>
      match delitem h self k1 with
      | (Ok _, h') => del_go self h' ks'
      | (Err e, h') => (Err e, h')
      end
  end.

Lemma delitem_tup h self ks : delitem h self (KTup ks) = del_go self h ks.
Proof.
  simpl. revert h. induction ks as [|k ks IH]; intros h; simpl; [reflexivity|].
  destruct (delitem h self k) as [[[]|e] h']; [apply IH|reflexivity].
Qed.

Lemma set_go_seq self ks : forall h ws r h', List.length ks = List.length ws ->
  (set_go self h ks ws = (r, h') <-> set_seq self h ks ws r h').
Proof.
  induction ks as [|k ks IH]; intros h ws r h' Hlen; destruct ws as [|w ws]; try discriminate; simpl.
  - split; intros H. + inversion H; constructor. + inversion H; reflexivity.
  - split; intros H.
    + destruct (setitem h self k w) as [[[]|e] h1] eqn:E.
      * eapply set_seq_ok; [eassumption|]. apply IH; [injection Hlen; auto|assumption].
      * inversion H; subst. apply set_seq_err. assumption.
    + inversion H as [|? ? ? h1 ? ? ? ? E Hr|? ? ? e h1 ? ? E]; subst; rewrite E.
      * apply IH; [injection Hlen; auto|assumption].
      * reflexivity.
Qed.

Lemma del_go_seq self ks : forall h r h', del_go self h ks = (r, h') <-> del_seq self h ks r h'.
Proof.
  induction ks as [|k ks IH]; intros h r h'; simpl.
  - split; intros H. + inversion H; constructor. + inversion H; reflexivity.
  - split; intros H.
    + destruct (delitem h self k) as [[[]|e] h1] eqn:E.
      * eapply del_seq_ok; [eassumption|]. apply IH; assumption.
      * inversion H; subst. apply del_seq_err. assumption.
    + inversion H as [|? ? h1 ? ? ? E Hr|? ? e h1 ? E]; subst; rewrite E.
      * apply IH; assumption.
      * reflexivity.
Qed.

Lemma set_tuple h self ks vs :
  (List.length ks = List.length vs ->
     forall r h', setitem h self (KTup ks) (VTup vs) = (r, h') <-> set_seq self h ks vs r h') /\
  (List.length ks <> List.length vs ->
     setitem h self (KTup ks) (VTup vs) = (Err AssertionError, h)).
Proof.
  split; intros H; [intros r h'|]; rewrite setitem_tup; simpl val_items; cbv iota beta.
  - rewrite (proj2 (Nat.eqb_eq _ _) H). apply set_go_seq. assumption.
  - rewrite (proj2 (Nat.eqb_neq _ _) H). reflexivity.
Qed.

Lemma del_tuple h self ks r h' : delitem h self (KTup ks) = (r, h') <-> del_seq self h ks r h'.
Proof. rewrite delitem_tup. apply del_go_seq. Qed.

(** ** Copy, union, update *)
Lemma nth_app_new (h : heap) l o x y : nth_error h l = Some o -> nth_error (h ++ [x; y])%list l = Some o.
Proof. intros H. rewrite nth_error_app1; [assumption|]. eapply nth_lt; eassumption. Qed.

Lemma nth_app_inv (h : heap) l o x y : nth_error (h ++ [x; y])%list l = Some o ->
  (nth_error h l = Some o /\ l < List.length h) \/ (l = List.length h /\ o = x) \/ (l = S (List.length h) /\ o = y).
Proof.
  intros H. destruct (lt_dec l (List.length h)) as [L|L].
  - left. rewrite nth_error_app1 in H by assumption. auto.
  - right. rewrite nth_error_app2 in H by lia.
    destruct (l - List.length h) as [|[|n]] eqn:E; simpl in H.
    + left. inversion H. split; [lia|reflexivity].
    + right. inversion H. split; [lia|reflexivity].
    + destruct n; discriminate.
Qed.

Lemma wf_app_new h e : wf h -> NoDup (map fst e) -> wf (h ++ [Dict e; DD (List.length h)])%list.
Proof.
  intros W Hnd. constructor.
  - intros l e' H. apply nth_app_inv in H. destruct H as [[H _]|[[_ H]|[_ H]]].
    + exact (wf_keys W _ _ H).
    + inversion H; subst; assumption.
    + discriminate.
  - intros l d H. apply nth_app_inv in H. destruct H as [[H _]|[[_ H]|[_ H]]].
    + destruct (wf_dd W _ _ H) as [e' He']. exists e'. apply nth_app_new. assumption.
    + discriminate.
    + inversion H; subst. exists e. rewrite nth_error_app2, Nat.sub_diag by lia. reflexivity.
  - intros l1 l2 d H1 H2. apply nth_app_inv in H1, H2.
    destruct H1 as [[H1 _]|[[_ H1]|[L1 H1]]]; destruct H2 as [[H2 _]|[[_ H2]|[L2 H2]]]; try discriminate.
    + exact (wf_own W _ _ _ H1 H2).
    + inversion H2; subst. destruct (wf_dd W _ _ H1) as [e' He']. apply nth_lt in He'. lia.
    + inversion H1; subst. destruct (wf_dd W _ _ H2) as [e' He']. apply nth_lt in He'. lia.
    + congruence.
Qed.

Lemma copy_spec h self d e : wf h -> holds h self d -> nth_error h d = Some (Dict e) ->
  exists l dn, copy h self = (Ok (VRef l), (h ++ [Dict e; DD dn])%list) /\
    dn = List.length h /\ l = S (List.length h) /\ 
    wf (h ++ [Dict e; DD dn])%list /\ holds (h ++ [Dict e; DD dn])%list (VRef l) dn.
Proof.
  intros W Hd He. exists (S (List.length h)), (List.length h). unfold copy, new.
  rewrite (proj2 (dict_of_holds _ _ W) Hd), (entries_eq _ _ He).
  assert (Hnd : NoDup (map fst e)) by exact (wf_keys W _ _ He).
  rewrite (od_update_id String.eqb seqb_spec e Hnd). split; [reflexivity|].
  split; [reflexivity|]. split; [reflexivity|]. split; [apply wf_app_new; assumption|].
  eapply holds_dd.
  - rewrite nth_error_app2 by lia. replace (S (List.length h) - List.length h) with 1 by lia. reflexivity.
  - rewrite nth_error_app2, Nat.sub_diag by lia. reflexivity.
Qed.

Lemma update_spec h self other d e od eo : wf h ->
  holds h self d -> nth_error h d = Some (Dict e) ->
  holds h other od -> nth_error h od = Some (Dict eo) ->
  exists h' e', update h self other = (Ok tt, h') /\ ior h self other = (Ok self, h') /\
    same_except h h' d /\ nth_error h' d = Some (Dict e') /\ union_of e eo e' /\ wf h'.
Proof.
  intros W Hd He Ho Heo. unfold ior, update.
  rewrite (proj2 (dict_of_holds _ _ W) Hd), (proj2 (dict_of_holds _ _ W) Ho).
  rewrite (entries_eq _ _ He), (entries_eq _ _ Heo).
  assert (H1 : NoDup (map fst e)) by exact (wf_keys W _ _ He).
  assert (H2 : NoDup (map fst eo)) by exact (wf_keys W _ _ Heo).
  destruct (od_update_union e eo H1 H2) as [Hu Hnd].
  eexists _, _. split; [reflexivity|]. split; [reflexivity|].
  split; [apply set_entries_same_except|]. split; [eapply set_entries_at; eassumption|].
  split; [assumption|]. eapply wf_set_entries; eassumption.
Qed.

Lemma update_not_mapping h self other : wf h -> ~ is_mapping h other ->
  update h self other = (Err AssertionError, h) /\ ior h self other = (Err AssertionError, h).
Proof.
  intros W H. apply (dict_of_none _ W) in H. unfold ior, update. rewrite H. auto.
Qed.

Lemma or_spec h self other d e od eo : wf h ->
  holds h self d -> nth_error h d = Some (Dict e) ->
  holds h other od -> nth_error h od = Some (Dict eo) ->
  exists h' l dn e', or_ h self other = (Ok (VRef l), h') /\
    (forall i o, nth_error h i = Some o -> nth_error h' i = Some o) /\
    nth_error h l = None /\ nth_error h dn = None /\
    holds h' (VRef l) dn /\ nth_error h' dn = Some (Dict e') /\ union_of e eo e' /\ wf h'.
Proof.
  intros W Hd He Ho Heo.
  destruct (copy_spec W Hd He) as (l & dn & Hc & -> & -> & W1 & Hl). unfold or_. rewrite Hc.
  set (h1 := (h ++ [Dict e; DD (List.length h)])%list) in *.
  assert (He1 : nth_error h1 (List.length h) = Some (Dict e)).
  { unfold h1. rewrite nth_error_app2, Nat.sub_diag by lia. reflexivity. }
  assert (Heo1 : nth_error h1 od = Some (Dict eo)) by (apply nth_app_new; assumption).
  assert (Ho1 : holds h1 other od).
  { inversion Ho as [l e1 H1|l d1 e1 H1 H2]; subst.
    - eapply holds_dict; eassumption.
    - eapply holds_dd; [apply nth_app_new; eassumption|eassumption]. }
  destruct (update_spec W1 Hl He1 Ho1 Heo1) as (h2 & e' & _ & Hior & [Hlen Hs] & He' & Hu & W2).
  exists h2, (S (List.length h)), (List.length h), e'. split; [assumption|].
  split.
  { intros i o Hi. rewrite Hs.
    - apply nth_app_new. assumption.
    - apply nth_lt in Hi. lia. }
  split; [apply nth_error_None; lia|]. split; [apply nth_error_None; lia|].
  split; [|auto].
  eapply holds_dd; [|eassumption]. rewrite Hs by lia. unfold h1.
  rewrite nth_error_app2 by lia. replace (S (List.length h) - List.length h) with 1 by lia. reflexivity.
Qed.

Lemma contains_spec h self k : wf h -> (contains h self k = true <-> exists w, entry h self k w).
Proof.
  intros W. unfold contains. split.
  - destruct (dict_of h self) as [d|] eqn:E; [|discriminate]. unfold od_mem.
    destruct (get (entries h d) k) as [w|] eqn:G; [|discriminate]. intros _. exists w.
    apply (subscript_Ok _ _ _ W). unfold subscript. rewrite E, G. reflexivity.
  - intros [w Hw]. apply (subscript_Ok _ _ _ W) in Hw. unfold subscript in Hw.
    destruct (dict_of h self) as [d|]; [|discriminate]. unfold od_mem.
    destruct (get (entries h d) k); [reflexivity|discriminate].
Qed.

Lemma keys_spec h self d e : wf h -> holds h self d -> nth_error h d = Some (Dict e) ->
  keys_of h self = map fst e /\ NoDup (keys_of h self).
Proof.
  intros W Hd He. unfold keys_of. rewrite (proj2 (dict_of_holds _ _ W) Hd), (entries_eq _ _ He).
  split; [reflexivity|]. exact (wf_keys W _ _ He).
Qed.

Lemma contains_get h self k : wf h -> has_char slash k = false ->
  (contains h self k = true <-> exists w, getitem h self (KStr k) = Ok w).
Proof.
  intros W Hk. rewrite (contains_spec _ _ W). 
  destruct (@get_string h self k _ W (names_direct_ne _ Hk)) as [Hg _].
  split; intros [w H]; exists w.
  - apply Hg; [discriminate|]. econstructor; [eassumption|constructor].
  - apply Hg in H; [|discriminate]. inversion H as [|? ? ? ? ? He Hr]; subst. inversion Hr; subst. assumption.
Qed.

(** ** Reachable heaps are well-formed *)
Lemma wf_nil : wf [].
Proof. constructor; intros l; destruct l; discriminate. Qed.

Lemma wf_app_dict h e : wf h -> NoDup (map fst e) -> wf (h ++ [Dict e])%list.
Proof.
  intros W Hnd.
  assert (Hinv : forall l o, nth_error (h ++ [Dict e])%list l = Some o -> nth_error h l = Some o \/ o = Dict e).
  { intros l o H. destruct (lt_dec l (List.length h)) as [L|L].
    - left. rewrite nth_error_app1 in H; assumption.
    - right. rewrite nth_error_app2 in H by lia. destruct (l - List.length h) as [|n]; simpl in H.
      + congruence. + destruct n; discriminate. }
  constructor.
  - intros l e' H. apply Hinv in H. destruct H as [H|H]; [exact (wf_keys W _ _ H)|inversion H; subst; assumption].
  - intros l d H. apply Hinv in H. destruct H as [H|H]; [|discriminate].
    destruct (wf_dd W _ _ H) as [e' He']. exists e'. rewrite nth_error_app1; [assumption|eapply nth_lt; eassumption].
  - intros l1 l2 d H1 H2. apply Hinv in H1, H2. destruct H1 as [H1|H1]; [|discriminate].
    destruct H2 as [H2|H2]; [|discriminate]. exact (wf_own W _ _ _ H1 H2).
Qed.

Lemma wf_new h i : wf h -> wf (snd (new h i)).
Proof.
  intros W. unfold new. destruct i as [v|].
  - destruct (dict_of h v) as [d|]; [|assumption]. cbn [snd]. apply wf_app_new; [assumption|].
    exact (od_wf_update String.eqb seqb_spec (entries h d) [] (NoDup_nil _)).
  - cbn [snd]. apply wf_app_new; [assumption|constructor].
Qed.

Lemma wf_entries h d : wf h -> NoDup (map fst (entries h d)).
Proof.
  intros W. unfold entries. destruct (nth_error h d) as [[e|d']|] eqn:E; try constructor. exact (wf_keys W _ _ E).
Qed.

Lemma wf_update_at h v d e : wf h -> dict_of h v = Some d -> NoDup (map fst e) -> wf (set_entries h d e).
Proof.
  intros W H Hnd. apply (dict_of_holds _ _ W) in H. destruct (holds_dict_at H) as [e0 He0].
  eapply wf_set_entries; eassumption.
Qed.

Lemma wf_store h v k w : wf h -> wf (snd (store h v k w)).
Proof.
  intros W. unfold store. destruct (dict_of h v) as [d|] eqn:E; [|assumption]. cbn [snd].
  eapply wf_update_at; try eassumption. apply (od_wf_set String.eqb seqb_spec). apply wf_entries; assumption.
Qed.

Lemma wf_remove h v k : wf h -> wf (snd (remove h v k)).
Proof.
  intros W. unfold remove. destruct (dict_of h v) as [d|] eqn:E; [|assumption].
  destruct (od_mem _ _ _); [|assumption]. cbn [snd].
  eapply wf_update_at; try eassumption. apply (od_wf_del String.eqb seqb_spec). apply wf_entries; assumption.
Qed.

(** Induction over subscripts with tuples. *)
Fixpoint key_ind' (P : key -> Prop) (Hs : forall s, P (KStr s)) (Ho : P KOther)
  (Ht : forall ks, Forall P ks -> P (KTup ks)) (k : key) : P k :=
  match k with
  | KStr s => Hs s
  | KOther => Ho
  | KTup ks => Ht ks ((fix go (ks : list key) : Forall P ks :=
                         match ks with
                         | [] => Forall_nil P
                         | k :: ks' => Forall_cons k (key_ind' Hs Ho Ht k) (go ks')
                         end) ks)
  end.

Lemma wf_setitem k : forall h self w, wf h -> wf (snd (setitem h self k w)).
Proof.
  induction k as [s| |ks IH] using key_ind'; intros h self w W.
  - simpl. destruct (has_char slash s); [|apply wf_store; assumption].
    destruct (split_last (split_key s)) as [[pre last]|]; [|assumption].
    destruct (walk h self pre); [apply wf_store; assumption|assumption].
  - assumption.
  - rewrite setitem_tup. destruct (val_items h w) as [ws|]; [|assumption].
    destruct (Nat.eqb _ _); [|assumption]. clear w.
    revert h ws W. induction IH as [|k ks Hk Hks IH]; intros h ws W; simpl; [assumption|].
    destruct ws as [|w ws]; [assumption|]. specialize (Hk h self w W).
    destruct (setitem h self k w) as [[[]|e] h']; [|assumption]. apply IH. assumption.
Qed.

Lemma wf_delitem k : forall h self, wf h -> wf (snd (delitem h self k)).
Proof.
  induction k as [s| |ks IH] using key_ind'; intros h self W.
  - simpl. destruct (has_char slash s); [|apply wf_remove; assumption].
    destruct (split_last (split_key s)) as [[pre last]|]; [|assumption].
    destruct (walk h self pre); [apply wf_remove; assumption|assumption].
  - assumption.
  - rewrite delitem_tup. revert h W. induction IH as [|k ks Hk Hks IH]; intros h W; simpl; [assumption|].
    specialize (Hk h self W). destruct (delitem h self k) as [[[]|e] h']; [|assumption]. apply IH. assumption.
Qed.

Lemma wf_update h s o : wf h -> wf (snd (update h s o)).
Proof.
  intros W. unfold update. destruct (dict_of h o) as [od|]; [|assumption].
  destruct (dict_of h s) as [d|] eqn:E; [|assumption]. cbn [snd].
  eapply wf_update_at; try eassumption. apply (od_wf_update String.eqb seqb_spec). apply wf_entries; assumption.
Qed.

Lemma wf_ior h s o : wf h -> wf (snd (ior h s o)).
Proof.
  intros W. unfold ior. pose proof (wf_update s o W) as H. destruct (update h s o) as [[[]|e] h']; assumption.
Qed.

Lemma wf_pop h s k : wf h -> wf (snd (pop h s k)).
Proof.
  intros W. unfold pop. destruct (getitem h s k); [|assumption].
  pose proof (wf_delitem k s W) as H. destruct (delitem h s k) as [[[]|e] h']; assumption.
Qed.

Lemma wf_step h o : wf h -> wf (step h o).
Proof.
  intros W. destruct o; cbn [step].
  - apply wf_app_dict; [assumption|]. exact (od_wf_update String.eqb seqb_spec e [] (NoDup_nil _)).
  - apply wf_new; assumption.
  - apply wf_setitem; assumption.
  - apply wf_delitem; assumption.
  - apply wf_update; assumption.
  - apply wf_ior; assumption.
  - unfold or_, copy. pose proof (wf_new (Some self) W) as H.
    destruct (new h (Some self)) as [[v|e] h']; [apply wf_ior; assumption|assumption].
  - apply wf_new; assumption.
  - unfold clear. destruct (dict_of h self) as [d|] eqn:E; [|assumption]. cbn [snd].
    eapply wf_update_at; try eassumption. constructor.
  - apply wf_pop; assumption.
  - unfold setdefault. destruct (getitem h self k) as [v|[]]; try assumption.
    pose proof (wf_setitem k self w W) as H. destruct (setitem h self k w) as [[[]|e] h']; assumption.
  - unfold popitem. destruct (keys_of h self) as [|k ks]; [assumption|].
    pose proof (wf_pop self (KStr k) W) as H. destruct (pop h self (KStr k)) as [[v|e] h']; assumption.
Qed.

Lemma wf_run ops : wf (run ops).
Proof.
  unfold run. assert (H : forall h, wf h -> wf (fold_left step ops h)).
  { induction ops as [|o ops IH]; intros h W; simpl; [assumption|]. apply IH. apply wf_step. assumption. }
  apply H. apply wf_nil.
Qed.

(** ** Isolation of copies *)
Lemma set_entries_holds_iff h v d e v2 d2 : wf h -> holds h v d ->
  (holds (set_entries h d e) v2 d2 <-> holds h v2 d2).
Proof. intros W Hd. destruct (holds_dict_at Hd) as [e0 He0]. eapply holds_set_entries; eassumption. Qed.

Lemma direct_mutation_effect h c h' d : wf h -> holds h c d -> direct_mutation h c h' ->
  wf h' /\ same_except h h' d /\ (forall v d2, holds h' v d2 <-> holds h v d2).
Proof.
  intros W Hd Hm. pose proof (proj2 (dict_of_holds _ _ W) Hd) as Hdo.
  assert (Hid : forall e, NoDup (map fst e) ->
     wf (set_entries h d e) /\ same_except h (set_entries h d e) d /\
     (forall v d2, holds (set_entries h d e) v d2 <-> holds h v d2)).
  { intros e Hnd. split; [eapply wf_update_at; eassumption|]. split; [apply set_entries_same_except|].
    intros v d2. eapply set_entries_holds_iff; eassumption. }
  assert (Hno : wf h /\ same_except h h d /\ (forall v d2, holds h v d2 <-> holds h v d2)).
  { split; [assumption|]. split; [apply same_except_refl|]. intros; tauto. }
  inversion Hm as [k w Hk|k Hk|o|]; subst.
  - simpl. rewrite Hk. unfold store. rewrite Hdo. apply Hid.
    apply (od_wf_set String.eqb seqb_spec). apply wf_entries; assumption.
  - simpl. rewrite Hk. unfold remove. rewrite Hdo. destruct (od_mem _ _ _); [|exact Hno]. apply Hid.
    apply (od_wf_del String.eqb seqb_spec). apply wf_entries; assumption.
  - unfold update. destruct (dict_of h o) as [od|]; [|exact Hno]. rewrite Hdo. apply Hid.
    apply (od_wf_update String.eqb seqb_spec). apply wf_entries; assumption.
  - unfold clear. rewrite Hdo. apply Hid. constructor.
Qed.

Lemma direct_mutations_effect c : forall h h' d, wf h -> holds h c d -> direct_mutations c h h' ->
  wf h' /\ same_except h h' d /\ (forall v d2, holds h' v d2 <-> holds h v d2).
Proof.
  intros h h' d W Hd Hm. revert d W Hd. induction Hm as [h|h h1 h2 Hm1 Hm IH]; intros d W Hd.
  - split; [assumption|]. split; [apply same_except_refl|]. intros; tauto.
  - destruct (direct_mutation_effect W Hd Hm1) as (W1 & [L1 S1] & H1).
    destruct (IH d W1 (proj2 (H1 _ _) Hd)) as (W2 & [L2 S2] & H2).
    split; [assumption|]. split; [split; [congruence|]|].
    + intros l N. rewrite S2, S1; auto.
    + intros v d2. rewrite H2. apply H1.
Qed.

Lemma copy_isolated h self d e : wf h -> holds h self d -> nth_error h d = Some (Dict e) ->
  exists c h1, copy h self = (Ok c, h1) /\
    (forall k w, entry h1 c k w <-> entry h self k w) /\
    (exists dc, holds h1 c dc /\ nth_error h1 dc = Some (Dict e)) /\
    (forall i o, nth_error h i = Some o -> nth_error h1 i = Some o) /\
    (forall h2 i o, direct_mutations c h1 h2 -> nth_error h i = Some o -> nth_error h2 i = Some o) /\
    (forall h2 k w, direct_mutations self h1 h2 -> (entry h2 c k w <-> entry h self k w)).
Proof.
  intros W Hd He. destruct (copy_spec W Hd He) as (l & dn & Hc & -> & -> & W1 & Hl).
  set (h1 := (h ++ [Dict e; DD (List.length h)])%list) in *.
  assert (Hold : forall i o, nth_error h i = Some o -> nth_error h1 i = Some o).
  { intros i o Hi. apply nth_app_new. assumption. }
  assert (He1 : nth_error h1 (List.length h) = Some (Dict e)).
  { unfold h1. rewrite nth_error_app2, Nat.sub_diag by lia. reflexivity. }
  assert (Hself : forall k w, entry h self k w <-> In (k, w) e).
  { intros k w. split.
    - intros (d2 & e2 & H1 & H2 & H3). assert (d2 = d) by (eapply holds_fun; eassumption). subst d2. congruence.
    - intros Hin. exists d, e. auto. }
  exists (VRef (S (List.length h))), h1. split; [assumption|]. split; [|split; [|split; [|split]]].
  - intros k w. rewrite Hself. split.
    + intros (d2 & e2 & H1 & H2 & H3). assert (d2 = List.length h) by (eapply holds_fun; eassumption).
      subst d2. congruence.
    + intros Hin. exists (List.length h), e. auto.
  - exists (List.length h). auto.
  - assumption.
  - intros h2 i o Hm Hi. destruct (direct_mutations_effect W1 Hl Hm) as (_ & [_ S2] & _).
    rewrite S2; [apply Hold; assumption|]. apply nth_lt in Hi. lia.
  - intros h2 k w Hm. rewrite Hself.
    assert (Hd1 : holds h1 self d).
    { inversion Hd as [l e1 H1|l d1 e1 H1 H2]; subst.
      - eapply holds_dict; apply Hold; eassumption.
      - eapply holds_dd; apply Hold; eassumption. }
    destruct (direct_mutations_effect W1 Hd1 Hm) as (_ & [_ S2] & Hh2).
    assert (Hne : d <> List.length h) by (apply nth_lt in He; lia).
    assert (He2 : nth_error h2 (List.length h) = Some (Dict e)) by (rewrite S2; auto).
    split.
    + intros (d2 & e2 & H1 & H2 & H3). apply Hh2 in H1.
      assert (d2 = List.length h) by (eapply holds_fun; eassumption). subst d2. congruence.
    + intros Hin. exists (List.length h), e. split; [apply Hh2; assumption|auto].
Qed.

Lemma mget_spec h self s p dflt : wf h -> names s p -> p <> [] ->
  (forall v, reaches h self p v -> mget h self (KStr s) dflt = Ok v) /\
  ((exists pre k suf u, p = (pre ++ k :: suf)%list /\ reaches h self pre u /\ is_mapping h u /\
       ~ exists w, entry h u k w) -> mget h self (KStr s) dflt = Ok dflt) /\
  ((exists pre k suf u, p = (pre ++ k :: suf)%list /\ reaches h self pre u /\ ~ is_mapping h u) ->
       mget h self (KStr s) dflt = Err TypeError).
Proof.
  intros W Hn Hp. destruct (get_string self W Hn) as (H1 & H2 & H3 & _). unfold mget.
  split; [|split].
  - intros v Hv. apply (H1 Hp) in Hv. rewrite Hv. reflexivity.
  - intros H. apply (H2 Hp) in H. rewrite H. reflexivity.
  - intros H. apply (H3 Hp) in H. rewrite H. reflexivity.
Qed.
