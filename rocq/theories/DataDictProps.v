(** Property theorems C01-C06 (DataDict).  See DataDictSpec.v and OdictSpec.v for the vocabulary. *)
From Verif Require Import Base Str OdictSpec DataDictModel DataDictSpec DataDictProofs.
Open Scope string_scope.

(** Every heap reachable by public operations is well-formed, so the hypothesis [wf h] below is met by
    every program state. *)
Theorem C01_reachable_heaps_wf : forall ops, wf (run ops).
Proof. exact wf_run. Qed.
Print Assumptions C01_reachable_heaps_wf.

(** Every str subscript addresses exactly one list of names. *)
Theorem C01_names_total : forall s, exists p, names s p /\ forall q, names s q -> q = p.
Proof. exact names_total. Qed.
Print Assumptions C01_names_total.

Theorem C01_getitem_path : forall h self s p, wf h -> names s p ->
  (p <> [] -> forall v, getitem h self (KStr s) = Ok v <-> reaches h self p v) /\
  (p <> [] -> (getitem h self (KStr s) = Err KeyError <->
     exists pre k suf u, p = (pre ++ k :: suf)%list /\ reaches h self pre u /\ is_mapping h u /\
                         ~ exists w, entry h u k w)) /\
  (p <> [] -> (getitem h self (KStr s) = Err TypeError <->
     exists pre k suf u, p = (pre ++ k :: suf)%list /\ reaches h self pre u /\ ~ is_mapping h u)) /\
  (p = [] -> getitem h self (KStr s) = Err AssertionError) /\
  (p <> [] -> forall e, getitem h self (KStr s) = Err e -> e = KeyError \/ e = TypeError).
Proof. intros h self s p. exact (@get_string h self s p). Qed.
Print Assumptions C01_getitem_path.

(** [d.get(key, default)]: a scalar in the middle of the path is a TypeError, not the default. *)
Theorem C01_get_default : forall h self s p dflt, wf h -> names s p -> p <> [] ->
  (forall v, reaches h self p v -> mget h self (KStr s) dflt = Ok v) /\
  ((exists pre k suf u, p = (pre ++ k :: suf)%list /\ reaches h self pre u /\ is_mapping h u /\
       ~ exists w, entry h u k w) -> mget h self (KStr s) dflt = Ok dflt) /\
  ((exists pre k suf u, p = (pre ++ k :: suf)%list /\ reaches h self pre u /\ ~ is_mapping h u) ->
       mget h self (KStr s) dflt = Err TypeError).
Proof. exact mget_spec. Qed.
Print Assumptions C01_get_default.

Theorem C02_getitem_tuple : forall h self ks,
  (forall r, getitem h self (KTup ks) = Ok r <->
     exists vs, r = VTup vs /\ Forall2 (fun k v => getitem h self k = Ok v) ks vs) /\
  (forall e, getitem h self (KTup ks) = Err e <->
     exists pre k suf, ks = (pre ++ k :: suf)%list /\
       (forall k', In k' pre -> exists v, getitem h self k' = Ok v) /\ getitem h self k = Err e).
Proof. exact get_tuple. Qed.
Print Assumptions C02_getitem_tuple.

(** A single assignment writes exactly one cell, or fails and changes nothing. *)
Theorem C03_setitem_frame : forall h self s pre last w, wf h -> names s (pre ++ [last]) ->
  (forall u d e, reaches h self pre u -> holds h u d -> nth_error h d = Some (Dict e) ->
     exists h' e', setitem h self (KStr s) w = (Ok tt, h') /\ same_except h h' d /\
       nth_error h' d = Some (Dict e') /\ stored e e' last w /\ wf h') /\
  ((~ exists u, reaches h self pre u /\ is_mapping h u) ->
     exists ex, setitem h self (KStr s) w = (Err ex, h) /\ (ex = KeyError \/ ex = TypeError)).
Proof. intros h self s pre last w. exact (@set_string h self s pre last w). Qed.
Print Assumptions C03_setitem_frame.

Theorem C03_setitem_empty_path : forall h self s w, names s [] ->
  setitem h self (KStr s) w = (Err AssertionError, h).
Proof. exact set_string_empty. Qed.
Print Assumptions C03_setitem_empty_path.

(** Read your own write, unless the path to the cell runs through the very cell that was written. *)
Theorem C03_set_then_get : forall h self s pre last w u d es, wf h -> names s (pre ++ [last]) ->
  trace h self pre u es -> holds h u d -> ~ In (d, last) es ->
  exists h', setitem h self (KStr s) w = (Ok tt, h') /\ getitem h' self (KStr s) = Ok w.
Proof. exact set_then_get. Qed.
Print Assumptions C03_set_then_get.

(** The proviso can not be dropped: with d['a'] = d, after d['a/a'] = 5 the read d['a/a'] fails. *)
Theorem C03_set_then_get_unconditional_refuted :
  exists ops self h', setitem (run ops) self (KStr "a/a") (VNum 5) = (Ok tt, h') /\
                      getitem h' self (KStr "a/a") = Err TypeError.
Proof.
  exists [OpNew None; OpSet (VRef 1) (KStr "a") (VRef 1)], (VRef 1).
  eexists. split; vm_compute; reflexivity.
Qed.
Print Assumptions C03_set_then_get_unconditional_refuted.

Theorem C04_setitem_tuple : forall h self ks vs,
  (List.length ks = List.length vs ->
     forall r h', setitem h self (KTup ks) (VTup vs) = (r, h') <-> set_seq self h ks vs r h') /\
  (List.length ks <> List.length vs ->
     setitem h self (KTup ks) (VTup vs) = (Err AssertionError, h)).
Proof. exact set_tuple. Qed.
Print Assumptions C04_setitem_tuple.

Theorem C04_delitem_tuple : forall h self ks r h',
  delitem h self (KTup ks) = (r, h') <-> del_seq self h ks r h'.
Proof. exact del_tuple. Qed.
Print Assumptions C04_delitem_tuple.

Theorem C05_delitem_frame : forall h self s pre last, wf h -> names s (pre ++ [last]) ->
  (forall u d e w, reaches h self pre u -> holds h u d -> nth_error h d = Some (Dict e) -> In (last, w) e ->
     exists h', delitem h self (KStr s) = (Ok tt, h') /\ same_except h h' d /\
       nth_error h' d = Some (Dict (filter (fun kv => negb (String.eqb last (fst kv))) e)) /\ wf h') /\
  ((forall u w, reaches h self pre u -> ~ entry h u last w) ->
     exists ex, delitem h self (KStr s) = (Err ex, h) /\ (ex = KeyError \/ ex = TypeError)).
Proof. intros h self s pre last. exact (@del_string h self s pre last). Qed.
Print Assumptions C05_delitem_frame.

Theorem C05_delitem_empty_path : forall h self s, names s [] ->
  delitem h self (KStr s) = (Err AssertionError, h).
Proof. exact del_string_empty. Qed.
Print Assumptions C05_delitem_empty_path.

Theorem C05_del_then_get : forall h self s pre last u d e w es, wf h -> names s (pre ++ [last]) ->
  trace h self pre u es -> holds h u d -> nth_error h d = Some (Dict e) -> In (last, w) e ->
  ~ In (d, last) es ->
  exists h', delitem h self (KStr s) = (Ok tt, h') /\ getitem h' self (KStr s) = Err KeyError.
Proof. exact del_then_get. Qed.
Print Assumptions C05_del_then_get.

(** copy(): equal entries in equal order, fresh, isolated from later direct mutations both ways. *)
Theorem C06_copy_isolated : forall h self d e, wf h -> holds h self d -> nth_error h d = Some (Dict e) ->
  exists c h1, copy h self = (Ok c, h1) /\
    (forall k w, entry h1 c k w <-> entry h self k w) /\
    (exists dc, holds h1 c dc /\ nth_error h1 dc = Some (Dict e)) /\
    (forall i o, nth_error h i = Some o -> nth_error h1 i = Some o) /\
    (forall h2 i o, direct_mutations c h1 h2 -> nth_error h i = Some o -> nth_error h2 i = Some o) /\
    (forall h2 k w, direct_mutations self h1 h2 -> (entry h2 c k w <-> entry h self k w)).
Proof. exact copy_isolated. Qed.
Print Assumptions C06_copy_isolated.

Theorem C06_update_union : forall h self other d e od eo, wf h ->
  holds h self d -> nth_error h d = Some (Dict e) ->
  holds h other od -> nth_error h od = Some (Dict eo) ->
  exists h' e', update h self other = (Ok tt, h') /\ ior h self other = (Ok self, h') /\
    same_except h h' d /\ nth_error h' d = Some (Dict e') /\ union_of e eo e' /\ wf h'.
Proof. exact update_spec. Qed.
Print Assumptions C06_update_union.

Theorem C06_update_not_mapping : forall h self other, wf h -> ~ is_mapping h other ->
  update h self other = (Err AssertionError, h) /\ ior h self other = (Err AssertionError, h).
Proof. exact update_not_mapping. Qed.
Print Assumptions C06_update_not_mapping.

Theorem C06_or_fresh_union : forall h self other d e od eo, wf h ->
  holds h self d -> nth_error h d = Some (Dict e) ->
  holds h other od -> nth_error h od = Some (Dict eo) ->
  exists h' l dn e', or_ h self other = (Ok (VRef l), h') /\
    (forall i o, nth_error h i = Some o -> nth_error h' i = Some o) /\
    nth_error h l = None /\ nth_error h dn = None /\
    holds h' (VRef l) dn /\ nth_error h' dn = Some (Dict e') /\ union_of e eo e' /\ wf h'.
Proof. exact or_spec. Qed.
Print Assumptions C06_or_fresh_union.

Theorem C06_contains_direct : forall h self k, wf h ->
  (contains h self k = true <-> exists w, entry h self k w).
Proof. exact contains_spec. Qed.
Print Assumptions C06_contains_direct.

Theorem C06_contains_iff_readable : forall h self k, wf h -> has_char slash k = false ->
  (contains h self k = true <-> exists w, getitem h self (KStr k) = Ok w).
Proof. exact contains_get. Qed.
Print Assumptions C06_contains_iff_readable.

Theorem C06_keys_distinct : forall h self d e, wf h -> holds h self d -> nth_error h d = Some (Dict e) ->
  keys_of h self = map fst e /\ NoDup (keys_of h self).
Proof. exact keys_spec. Qed.
Print Assumptions C06_keys_distinct.

(** Deleting fails exactly when, and with the same exception as, reading would, and then changes nothing. *)
Theorem C05_delitem_errors : forall h self s e, wf h ->
  (getitem h self (KStr s) = Err e <-> exists h', delitem h self (KStr s) = (Err e, h')) /\
  (forall h', delitem h self (KStr s) = (Err e, h') -> h' = h).
Proof.
  intros h self s e W. destruct (names_total s) as (p & Hn & _). destruct p as [|k0 p0] using rev_ind; [|clear IHp0].
  - rewrite (getitem_empty h self Hn), (del_string_empty h self Hn). split; [split; [intros E; injection E as <-; eauto|intros (h' & E); congruence]|congruence].
  - rewrite (getitem_walk h self Hn) by (destruct p0; discriminate). rewrite (delitem_names h self _ _ Hn), walk_app.
    destruct (walk h self p0) as [v|e'] eqn:E; cbn [bind].
    + cbn [walk]. unfold subscript, remove, od_mem. destruct (dict_of h v) as [d|]; [destruct (od_get String.eqb (entries h d) k0)|]; cbn [bind];
        (split; [split; [intros H; try discriminate; injection H as <-; eauto|intros (h' & H); congruence]|congruence]).
    + split; [split; [intros H; injection H as <-; eauto|intros (h' & H); congruence]|congruence].
Qed.
Print Assumptions C05_delitem_errors.
(** Assigning: a missing name on the way is a KeyError, a value that is no mapping where one is needed a TypeError; nothing changes. *)
Theorem C03_setitem_errors : forall h self s pre last w, wf h -> names s (pre ++ [last]) ->
  (setitem h self (KStr s) w = (Err KeyError, h) <->
     exists a k b u, pre = (a ++ k :: b)%list /\ reaches h self a u /\ is_mapping h u /\ ~ exists x, entry h u k x) /\
  (setitem h self (KStr s) w = (Err TypeError, h) <->
     exists a k b u, (pre ++ [last])%list = (a ++ k :: b)%list /\ reaches h self a u /\ ~ is_mapping h u).
Proof.
  intros h self s pre last w W Hn. rewrite (setitem_names h self _ _ w Hn). destruct (walk h self pre) as [v|e] eqn:E.
  - assert (NE : forall a k b u e, pre = (a ++ k :: b)%list -> reaches h self a u -> subscript h u k = Err e -> False).
    { intros a k b u e H1 H2 H3. assert (X : walk h self pre = Err e) by (apply (@walk_Err h self pre e W); eauto 10). congruence. }
    unfold store. split.
    + split; [destruct (dict_of h v); intros H; congruence|]. intros (a & k & b & u & H1 & H2 & H3 & H4). exfalso. apply (NE a k b u KeyError H1 H2). apply (subscript_KeyError _ _ W). auto.
    + split.
      * intros H. assert (D : dict_of h v = None) by (destruct (dict_of h v); [discriminate|reflexivity]). exists pre, last, [], v.
        split; [reflexivity|]. split; [apply (@walk_Ok h self pre v W); exact E|]. apply (dict_of_none _ W). exact D.
      * intros (a & k & b & u & H1 & H2 & H3). destruct b as [|b0 b _] using rev_ind.
        -- apply app_inj_tail in H1. destruct H1 as [-> _]. apply (@walk_Ok h self a u W) in H2. assert (u = v) by congruence. subst u. apply (dict_of_none _ W) in H3. rewrite H3. reflexivity.
        -- exfalso. rewrite app_comm_cons, app_assoc in H1. apply app_inj_tail in H1. destruct H1 as [H1 _]. apply (NE a k b u TypeError H1 H2). apply (subscript_TypeError _ _ W). exact H3.
  - assert (EE : exists a k b u, pre = (a ++ k :: b)%list /\ reaches h self a u /\ subscript h u k = Err e) by (apply (@walk_Err h self pre e W); exact E). split; split.
    + intros H. injection H as ->. destruct EE as (a & k & b & u & H1 & H2 & H3). exists a, k, b, u. apply (subscript_KeyError _ _ W) in H3. tauto.
    + intros (a & k & b & u & H1 & H2 & H3). assert (X : walk h self pre = Err KeyError) by (apply (@walk_Err h self pre KeyError W); exists a, k, b, u; rewrite (subscript_KeyError _ _ W); tauto). congruence.
    + intros H. injection H as ->. destruct EE as (a & k & b & u & H1 & H2 & H3). exists a, k, (b ++ [last])%list, u. apply (subscript_TypeError _ _ W) in H3.
      split; [rewrite H1, <- app_assoc; reflexivity|tauto].
    + intros (a & k & b & u & H1 & H2 & H3). destruct b as [|b0 b _] using rev_ind.
      * apply app_inj_tail in H1. destruct H1 as [-> _]. apply (@walk_Ok h self a u W) in H2. congruence.
      * rewrite app_comm_cons, app_assoc in H1. apply app_inj_tail in H1. destruct H1 as [H1 _].
        assert (X : walk h self pre = Err TypeError) by (apply (@walk_Err h self pre TypeError W); exists a, k, b, u; rewrite (subscript_TypeError _ _ W); tauto). congruence.
Qed.
Print Assumptions C03_setitem_errors.
(** A key that is neither a str nor a tuple is a TypeError everywhere. *)
Theorem C01_other_keys : forall h self w, getitem h self KOther = Err TypeError /\ setitem h self KOther w = (Err TypeError, h) /\ delitem h self KOther = (Err TypeError, h).
Proof. intros. repeat split. Qed.
Print Assumptions C01_other_keys.
(** The constructor: empty, or a fresh mapping with the same entries in the same order; anything else is refused. *)
Theorem C06_constructor : forall h init, wf h ->
  match init with
  | None => exists c h', new h None = (Ok c, h') /\ exists d, holds h' c d /\ nth_error h' d = Some (Dict []) /\ nth_error h d = None /\ forall i o, nth_error h i = Some o -> nth_error h' i = Some o
  | Some v => (forall d e, holds h v d -> nth_error h d = Some (Dict e) ->
                 exists c h', new h (Some v) = (Ok c, h') /\ exists d', holds h' c d' /\ nth_error h' d' = Some (Dict e) /\ nth_error h d' = None /\ forall i o, nth_error h i = Some o -> nth_error h' i = Some o) /\
              (~ is_mapping h v -> new h (Some v) = (Err AssertionError, h))
  end.
Proof.
  assert (G : forall h (e : list (string * value)), exists c h', (Ok (VRef (S (List.length h))), (h ++ [Dict e; DD (List.length h)])%list) = (Ok c, h') /\
     exists d, holds h' c d /\ nth_error h' d = Some (Dict e) /\ nth_error h d = None /\ forall i o, nth_error h i = Some o -> nth_error h' i = Some o).
  { intros h e. eexists _, _. split; [reflexivity|]. exists (List.length h).
    assert (N : nth_error (h ++ [Dict e; DD (List.length h)])%list (List.length h) = Some (Dict e)) by (rewrite nth_error_app2, Nat.sub_diag by lia; reflexivity).
    split; [|split; [exact N|split; [apply nth_error_None; lia|intros i o; apply nth_app_new]]].
    eapply holds_dd; [|exact N]. rewrite nth_error_app2 by lia. replace (S (List.length h) - List.length h) with 1 by lia. reflexivity. }
  intros h [v|] W; [split|].
  - intros d e Hd He. unfold new. rewrite (proj2 (dict_of_holds _ _ W) Hd), (entries_eq _ _ He), (od_update_id String.eqb seqb_spec e (wf_keys W _ _ He)). apply G.
  - intros N. unfold new. apply (dict_of_none _ W) in N. rewrite N. reflexivity.
  - apply G.
Qed.
Print Assumptions C06_constructor.
(** clear(): the mapping itself becomes empty, every other object stays as it is. *)
Theorem C06_clear : forall h self d, wf h -> holds h self d ->
  exists h', clear h self = (Ok tt, h') /\ same_except h h' d /\ nth_error h' d = Some (Dict []).
Proof.
  intros h self d W Hd. unfold clear. rewrite (proj2 (dict_of_holds _ _ W) Hd). eexists. split; [reflexivity|]. split; [apply set_entries_same_except|].
  destruct (holds_dict_at Hd) as [e He]. exact (set_entries_at _ _ [] He).
Qed.
Print Assumptions C06_clear.
(** pop(key): the value is returned and its entry deleted; it fails as reading fails, changing nothing. *)
Theorem C06_pop : forall h self s, wf h ->
  (forall v, getitem h self (KStr s) = Ok v -> exists h', pop h self (KStr s) = (Ok v, h') /\ delitem h self (KStr s) = (Ok tt, h')) /\
  (forall e, getitem h self (KStr s) = Err e -> pop h self (KStr s) = (Err e, h)).
Proof.
  intros h self s W. unfold pop. split.
  - intros v G. rewrite G. destruct (delitem h self (KStr s)) as [[[]|e] h'] eqn:D; [eauto|]. exfalso.
    assert (X : getitem h self (KStr s) = Err e) by (apply (proj1 (C05_delitem_errors h self s e W)); eauto). congruence.
  - intros e G. rewrite G. reflexivity.
Qed.
Print Assumptions C06_pop.
(** setdefault(key, x): the value if there is one; else x, which is assigned; other failures are passed on. *)
Theorem C06_setdefault : forall h self s p x, wf h -> names s p -> p <> [] ->
  (forall v, reaches h self p v -> setdefault h self (KStr s) x = (Ok v, h)) /\
  (forall pre last u, p = (pre ++ [last])%list -> reaches h self pre u -> is_mapping h u -> (~ exists w, entry h u last w) ->
     exists h', setdefault h self (KStr s) x = (Ok x, h') /\ setitem h self (KStr s) x = (Ok tt, h')) /\
  (forall pre k suf u, p = (pre ++ k :: suf)%list -> suf <> [] -> reaches h self pre u -> is_mapping h u -> (~ exists w, entry h u k w) ->
     setdefault h self (KStr s) x = (Err KeyError, h)) /\
  (forall pre k suf u, p = (pre ++ k :: suf)%list -> reaches h self pre u -> ~ is_mapping h u -> setdefault h self (KStr s) x = (Err TypeError, h)).
Proof.
  intros h self s p x W Hn Hp. destruct (get_string self W Hn) as (H1 & H2 & H3 & _). unfold setdefault. split; [|split; [|split]].
  - intros v R. rewrite (proj2 (H1 Hp v) R). reflexivity.
  - intros pre last u -> R M N. assert (G : getitem h self (KStr s) = Err KeyError) by (apply (H2 Hp); exists pre, last, [], u; auto). rewrite G.
    destruct M as [d Hd]. destruct (holds_dict_at Hd) as [e He]. destruct (proj1 (C03_setitem_frame h self s pre last x W Hn) u d e R Hd He) as (h' & e' & E & _).
    rewrite E. eauto.
  - intros pre k suf u -> NS R M N. assert (G : getitem h self (KStr s) = Err KeyError) by (apply (H2 Hp); exists pre, k, suf, u; auto). rewrite G.
    destruct suf as [|l suf _] using rev_ind; [congruence|]. rewrite app_comm_cons, app_assoc in Hn.
    assert (E : setitem h self (KStr s) x = (Err KeyError, h)) by (apply (C03_setitem_errors h self s _ l x W Hn); exists pre, k, suf, u; auto). rewrite E. reflexivity.
  - intros pre k suf u -> R M. assert (G : getitem h self (KStr s) = Err TypeError) by (apply (H3 Hp); exists pre, k, suf, u; auto). rewrite G. reflexivity.
Qed.
Print Assumptions C06_setdefault.
(** popitem(): a KeyError on an empty mapping; otherwise the first entry, deleted, if its name has no slash. *)
Theorem C06_popitem : forall h self d e, wf h -> holds h self d -> nth_error h d = Some (Dict e) ->
  match e with
  | [] => popitem h self = (Err KeyError, h)
  | (k, v) :: e' => has_char slash k = false -> exists h', popitem h self = (Ok (k, v), h') /\ same_except h h' d /\ nth_error h' d = Some (Dict e')
  end.
Proof.
  intros h self d e W Hd He. unfold popitem. rewrite (proj1 (C06_keys_distinct h self d e W Hd He)). destruct e as [|[k v] e]; [reflexivity|]. intros Hk. cbn [map fst].
  assert (Hn : names k ([] ++ [k])) by (constructor; exact Hk). assert (In (k, v) ((k, v) :: e)) as I by (left; reflexivity).
  destruct (proj1 (C05_delitem_frame h self k [] k W Hn) self d _ v (reaches_nil h self) Hd He I) as (h' & D & S & N & _).
  assert (G : getitem h self (KStr k) = Ok v).
  { destruct (get_string self W Hn) as (H1 & _). apply H1; [discriminate|]. cbn [app]. econstructor; [|constructor]. exists d, ((k, v) :: e). auto. }
  destruct (proj1 (C06_pop h self k W) v G) as (h'' & P & D'). rewrite P. exists h''. split; [reflexivity|]. assert (h'' = h') by congruence. subst h''. split; [exact S|].
  rewrite N. f_equal. f_equal. cbn [filter fst]. rewrite String.eqb_refl. cbn [negb]. pose proof (wf_keys W _ _ He) as ND. cbn [map fst] in ND. inversion ND as [|? ? NI _]; subst.
  clear -NI. induction e as [|[k' v'] e IH]; [reflexivity|]. cbn [filter fst map In] in *. destruct (String.eqb_spec k k') as [->|_]; [tauto|]. cbn [negb]. f_equal. apply IH. tauto.
Qed.
Print Assumptions C06_popitem.

(** Finding: a key with a slash that entered through the constructor is listed by iteration and [in]
    but neither readable nor deletable through [], and popitem() raises KeyError on a non-empty
    DataDict. *)
Theorem C06_slash_key_unreachable_refuted :
  exists ops self, contains (run ops) self "a/b" = true /\
    keys_of (run ops) self = ["a/b"] /\
    getitem (run ops) self (KStr "a/b") = Err KeyError /\
    delitem (run ops) self (KStr "a/b") = (Err KeyError, run ops) /\
    popitem (run ops) self = (Err KeyError, run ops).
Proof.
  exists [OpNewDict [("a/b", VNum 1)]; OpNew (Some (VRef 0))], (VRef 2).
  vm_compute. repeat split; reflexivity.
Qed.
Print Assumptions C06_slash_key_unreachable_refuted.

(** Non-vacuity: a nested, aliased heap that meets the hypotheses above.
    d = DataDict({'a': 1, 'c': x}); x = DataDict({'d': 3}). *)
Definition ex_ops := [OpNew None; OpSet (VRef 1) (KStr "d") (VNum 3); OpNew None;
                      OpSet (VRef 3) (KTup [KStr "a"; KStr "c"]) (VTup [VNum 1; VRef 1])].
Example ex_paths : names "/c//d" ["c"; "d"] /\ names "//" [] /\ names "" [""].
Proof. repeat split; apply names_segments; reflexivity. Qed.
Example ex_read : getitem (run ex_ops) (VRef 3) (KTup [KStr "a"; KStr "/c//d"]) = Ok (VTup [VNum 1; VNum 3]).
Proof. reflexivity. Qed.
Example ex_trace : trace (run ex_ops) (VRef 3) ["c"] (VRef 1) [(2, "c")] /\
                   holds (run ex_ops) (VRef 1) 0 /\ ~ In (0, "d") [(2, "c")].
Proof.
  split; [|split].
  - econstructor; [| |constructor].
    + eapply holds_dd; reflexivity.
    + eexists 2, _. split; [eapply holds_dd; reflexivity|]. split; [reflexivity|]. right; left; reflexivity.
  - eapply holds_dd; reflexivity.
  - intros [H|[]]. discriminate.
Qed.
Example ex_set : exists h', setitem (run ex_ops) (VRef 3) (KStr "c/d") (VNum 7) = (Ok tt, h') /\
                            getitem h' (VRef 3) (KStr "c/d") = Ok (VNum 7) /\ getitem h' (VRef 1) (KStr "d") = Ok (VNum 7).
Proof. eexists. split; [reflexivity|]. split; reflexivity. Qed.
Example ex_prefix_kept : exists h',
  setitem (run ex_ops) (VRef 3) (KTup [KStr "a"; KStr "a/z"; KStr "b"]) (VTup [VNum 9; VNum 8; VNum 7]) = (Err TypeError, h')
  /\ getitem h' (VRef 3) (KStr "a") = Ok (VNum 9) /\ contains h' (VRef 3) "b" = false.
Proof. eexists. split; [reflexivity|]. split; reflexivity. Qed.
(** Assigning to a tuple of names from something that is not a tuple: a string is taken apart into its characters, a mapping gives its keys (not its values) in
    order, and a number raises TypeError, without any change. *)
Theorem C04_setitem_unpacks : forall h self ks w,
  (forall s, w = VStr s -> setitem h self (KTup ks) w = setitem h self (KTup ks) (VTup (map (fun c => VStr (String c EmptyString)) (list_ascii_of_string s)))) /\
  (forall l e, nth_error h l = Some (Dict e) -> w = VRef l -> setitem h self (KTup ks) w = setitem h self (KTup ks) (VTup (map (fun kv => VStr (fst kv)) e))) /\
  (forall l d e, nth_error h l = Some (DD d) -> nth_error h d = Some (Dict e) -> w = VRef l ->
     setitem h self (KTup ks) w = setitem h self (KTup ks) (VTup (map (fun kv => VStr (fst kv)) e))) /\
  (forall z, w = VNum z -> setitem h self (KTup ks) w = (Err TypeError, h)).
Proof.
  intros h self ks w. repeat split.
  - intros s ->. rewrite !setitem_tup. reflexivity.
  - intros l e H ->. rewrite !setitem_tup. cbn [val_items dict_of]. rewrite H. cbv iota beta. unfold entries. rewrite H. reflexivity.
  - intros l d e H H' ->. rewrite !setitem_tup. cbn [val_items dict_of]. rewrite H. cbv iota beta. unfold entries. rewrite H'. reflexivity.
  - intros z ->. rewrite setitem_tup. reflexivity.
Qed.
Print Assumptions C04_setitem_unpacks.
