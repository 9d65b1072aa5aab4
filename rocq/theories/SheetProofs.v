From Verif Require Import Base Str SheetModel SheetSpec.
Local Open Scope list_scope. Local Open Scope nat_scope.

Section Proofs.
  Context {T : Type}.
  Variable ok_name : string -> bool.
  Variable overlay : T -> T -> T.
  Notation node := (node T). Notation dict := (list (string * node)).

  Lemma node_ind2 (P : node -> Prop) : (forall t, P (Table t)) ->
    (forall es, Forall (fun kv => P (snd kv)) es -> P (Dict es)) -> forall v, P v.
  Proof.
    intros HT HD. fix IH 1. intros [t|es]; [apply HT|]. apply HD.
    induction es as [|[k v] es IHes]; constructor; [apply IH|exact IHes].
  Qed.

  Lemma put_cons2 (d : dict) k k1 p v : put d (k :: k1 :: p) v =
    match od_get String.eqb d k with
    | None => rmap (fun sub => od_set String.eqb d k (Dict sub)) (put [] (k1 :: p) v)
    | Some (Dict sub) => rmap (fun sub => od_set String.eqb d k (Dict sub)) (put sub (k1 :: p) v)
    | Some (Table _) => Err (match p with [] => ValueError | _ => AttributeError end)
    end.
  Proof. cbn [put]. destruct (od_get String.eqb d k) as [[t|sub]|]; reflexivity. Qed.
  Lemma put_cons1 (d : dict) k v : put d [k] v = Ok (od_set String.eqb d k v). Proof. reflexivity. Qed.

  Fixpoint puts (d : dict) (ps : list (list string * T)) : result dict :=
    match ps with [] => Ok d | (p, t) :: ps' => bind (put d p (Table t)) (fun d => puts d ps') end.

  Lemma puts_app ps qs : forall d, puts d (ps ++ qs) = bind (puts d ps) (fun d => puts d qs).
  Proof.
    induction ps as [|[p t] ps IH]; intros d; cbn [puts app bind]; [reflexivity|].
    destruct (put d p (Table t)); cbn [bind]; [apply IH|reflexivity].
  Qed.

  Lemma reorder_puts items : forall d,
    reorder_loop d items = puts d (map (fun kv => (split_on dot (fst kv), snd kv)) items).
  Proof.
    induction items as [|[k t] items IH]; intros d; cbn [reorder_loop map puts fst snd]; [reflexivity|].
    destruct (has_char dot k) eqn:E; cbn [negb].
    - destruct (put d (split_on dot k) (Table t)); cbn [bind]; [apply IH|reflexivity].
    - rewrite (split_on_nochar _ _ E). cbn [put bind]. apply IH.
  Qed.

  Lemma od_set_new (d : dict) k v : ~ In k (map fst d) -> od_set String.eqb d k v = d ++ [(k, v)].
  Proof.
    induction d as [|[k' v'] d IH]; cbn [od_set map fst In app]; intros H; [reflexivity|].
    destruct (String.eqb_spec k k') as [->|N]; [exfalso; apply H; left; reflexivity|].
    rewrite IH by tauto. reflexivity.
  Qed.

  Lemma od_set_last (d : dict) k v w : ~ In k (map fst d) -> od_set String.eqb (d ++ [(k, w)]) k v = d ++ [(k, v)].
  Proof.
    induction d as [|[k' v'] d IH]; cbn [od_set map fst In app]; intros H.
    - rewrite String.eqb_refl. reflexivity.
    - destruct (String.eqb_spec k k') as [->|N]; [exfalso; apply H; left; reflexivity|].
      rewrite IH by tauto. reflexivity.
  Qed.

  Lemma od_get_last (d : dict) k w : ~ In k (map fst d) -> od_get String.eqb (d ++ [(k, w)]) k = Some w.
  Proof.
    induction d as [|[k' v'] d IH]; cbn [od_get map fst In app]; intros H.
    - rewrite String.eqb_refl. reflexivity.
    - destruct (String.eqb_spec k k') as [->|N]; [exfalso; apply H; left; reflexivity|]. apply IH. tauto.
  Qed.

  Lemma puts_under k (d0 : dict) ps : ~ In k (map fst d0) -> Forall (fun p => fst p <> []) ps ->
    forall s, puts (d0 ++ [(k, Dict s)]) (map (fun p => (k :: fst p, snd p)) ps)
              = rmap (fun s' => d0 ++ [(k, Dict s')]) (puts s ps).
  Proof.
    intros Hk. induction 1 as [|[p t] ps Hp Hps IH]; intros s; cbn [map puts fst snd rmap]; [reflexivity|].
    cbn [fst] in Hp. destruct p as [|k1 p]; [congruence|].
    rewrite put_cons2, od_get_last by assumption.
    destruct (put s (k1 :: p) (Table t)) as [s'|e]; cbn [rmap bind]; [|reflexivity].
    rewrite od_set_last by assumption. apply IH.
  Qed.

  Lemma puts_sub k (d0 : dict) ps s : ~ In k (map fst d0) -> Forall (fun p => fst p <> []) ps -> ps <> [] ->
    puts [] ps = Ok s -> puts d0 (map (fun p => (k :: fst p, snd p)) ps) = Ok (d0 ++ [(k, Dict s)]).
  Proof.
    intros Hk Hps Hne H. destruct ps as [|[p t] ps]; [congruence|]. inversion Hps as [|? ? Hp Hps']; subst.
    cbn [fst] in Hp. destruct p as [|k1 p]; [congruence|].
    cbn [puts] in H. cbn [map puts fst snd]. rewrite put_cons2.
    assert (G : od_get String.eqb d0 k = None).
    { destruct (od_get String.eqb d0 k) eqn:G; [|reflexivity]. apply (od_get_In String.eqb String.eqb_spec) in G.
      exfalso. apply Hk. apply in_map_iff. exists (k, n). auto. }
    rewrite G. destruct (put [] (k1 :: p) (Table t)) as [s'|e]; cbn [bind rmap] in *; [|discriminate].
    rewrite od_set_new by assumption. rewrite puts_under by assumption. rewrite H. reflexivity.
  Qed.

  Lemma paths_dict_nonnil (es : dict) : Forall (fun p => fst p <> []) (paths (Dict es)).
  Proof.
    cbn [paths]. apply Forall_forall. intros p Hp. apply in_flat_map in Hp. destruct Hp as (kv & _ & Hp).
    apply in_map_iff in Hp. destruct Hp as (q & <- & _). discriminate.
  Qed.

  Lemma paths_nonempty (v : node) : plain v -> v <> Dict [] -> paths v <> [].
  Proof.
    induction v as [t|es IH] using node_ind2; intros Hp Hne; cbn [paths]; [discriminate|].
    destruct es as [|[k v] es]; [congruence|]. inversion Hp as [|? H]; subst. inversion IH as [|? ? IH1 _]; subst.
    cbn [flat_map fst snd]. destruct (H k v (or_introl eq_refl)) as (_ & H1 & H2). specialize (IH1 H1 H2).
    cbn [snd] in IH1. destruct (paths v); [congruence|discriminate].
  Qed.

  Lemma puts_paths : forall v : node, unique_keys v -> plain v ->
    match v with Table _ => True | Dict es => puts [] (paths (Dict es)) = Ok es end.
  Proof.
    induction v as [t|es IH] using node_ind2; [auto|]. intros Hu Hp.
    inversion Hu as [|? Hnd Hu']; subst. inversion Hp as [|? Hp']; subst.
    cbn [paths].
    enough (G : forall d0 : dict, NoDup (map fst d0 ++ map fst es) ->
      puts d0 (flat_map (fun kv => map (fun p => (fst kv :: fst p, snd p)) (paths (snd kv))) es) = Ok (d0 ++ es))
      by (apply (G []); exact Hnd).
    clear Hu Hp Hnd. induction es as [|[k v] es IHes]; intros d0 Hnd; cbn [flat_map fst snd].
    - cbn [puts]. rewrite app_nil_r. reflexivity.
    - rewrite puts_app. cbn [map fst] in Hnd.
      assert (Hk : ~ In k (map fst d0)).
      { intros Hin. apply NoDup_remove_2 in Hnd. apply Hnd. apply in_or_app. left; assumption. }
      assert (Hnd2 : NoDup (map fst (d0 ++ [(k, v)]) ++ map fst es)) by (rewrite map_app, <- app_assoc; exact Hnd).
      inversion IH as [|? ? IHv IHt]; subst. cbn [snd] in IHv.
      assert (E : puts d0 (map (fun p => (k :: fst p, snd p)) (paths v)) = Ok (d0 ++ [(k, v)])).
      { destruct (Hp' k v (or_introl eq_refl)) as (_ & Pv & Nv). pose proof (Hu' k v (or_introl eq_refl)) as Uv.
        destruct v as [t|sub].
        - cbn. rewrite od_set_new by assumption. reflexivity.
        - apply puts_sub; [assumption|apply paths_dict_nonnil|apply paths_nonempty; assumption|]. apply (IHv Uv Pv). }
      rewrite E. cbn [bind]. rewrite IHes; [rewrite <- app_assoc; reflexivity|assumption| | |assumption].
      + intros k' v' H'. apply (Hu' k' v'). right; assumption.
      + intros k' v' H'. apply (Hp' k' v'). right; assumption.
  Qed.

  (** ** The names of the sheets *)
  Lemma join_app_one pl k : pl <> [] -> join_with dot (pl ++ [k]) = String.append (join_with dot pl) (String dot k).
  Proof.
    intros H. induction pl as [|a pl IH]; [congruence|]. destruct pl as [|b pl]; [reflexivity|].
    change (join_with dot ((a :: b :: pl) ++ [k])) with (String.append a (String dot (join_with dot ((b :: pl) ++ [k])))).
    rewrite IH by discriminate.
    change (join_with dot (a :: b :: pl)) with (String.append a (String dot (join_with dot (b :: pl)))).
    clear. induction a as [|c a IHa]; cbn [String.append]; [reflexivity|]. rewrite IHa. reflexivity.
  Qed.

  Lemma append_nonempty s c t : is_empty (String.append s (String c t)) = false.
  Proof. destruct s; reflexivity. Qed.

  Lemma sheets_paths : forall (v : node) pl, pl <> [] -> is_empty (join_with dot pl) = false ->
    sheets_of (join_with dot pl) v = map (fun p => (join_with dot (pl ++ fst p), snd p)) (paths v).
  Proof.
    induction v as [t|es IH] using node_ind2; intros pl Hpl Hne; cbn [sheets_of paths map fst snd].
    - rewrite app_nil_r. reflexivity.
    - induction es as [|[k v] es IHes]; [reflexivity|]. inversion IH as [|? ? IHv IHt]; subst. cbn [flat_map fst snd] in *.
      rewrite map_app, IHes by assumption. f_equal. unfold dotted. rewrite Hne, <- join_app_one by assumption.
      rewrite IHv.
      + rewrite map_map. apply map_ext. intros [p t]. cbn [fst snd]. rewrite <- app_assoc. reflexivity.
      + destruct pl; discriminate.
      + rewrite join_app_one by assumption. apply append_nonempty.
  Qed.

  Lemma sheets_top (es : dict) : top_named es ->
    sheets_of EmptyString (Dict es) = map (fun p => (join_with dot (fst p), snd p)) (paths (Dict es)).
  Proof.
    intros Ht. cbn [sheets_of paths]. induction es as [|[k v] es IH]; [reflexivity|]. cbn [flat_map fst snd].
    rewrite map_app, IH by (intros sub Hin; apply (Ht sub); right; assumption). f_equal.
    unfold dotted. cbn [is_empty]. destruct v as [t|sub]; [reflexivity|].
    assert (Hk : is_empty k = false).
    { destruct k; [|reflexivity]. exfalso. apply (Ht sub). left; reflexivity. }
    change k with (join_with dot [k]) at 1. rewrite sheets_paths; [|discriminate|exact Hk].
    rewrite map_map. reflexivity.
  Qed.

  Lemma paths_nodot : forall v : node, plain v -> forall p, In p (paths v) -> forall w, In w (fst p) -> has_char dot w = false.
  Proof.
    induction v as [t|es IH] using node_ind2; intros Hp p; cbn [paths].
    - intros [<-|[]] w [].
    - intros Hin w Hw. apply in_flat_map in Hin. destruct Hin as ([k v] & Hkv & Hin).
      apply in_map_iff in Hin. destruct Hin as (q & <- & Hq). cbn [fst snd] in *.
      inversion Hp as [|? H]; subst. destruct (H k v Hkv) as (H1 & H2 & _).
      destruct Hw as [<-|Hw]; [assumption|]. rewrite Forall_forall in IH. exact (IH (k, v) Hkv H2 q Hq w Hw).
  Qed.

  Lemma NoDup_app_intro {A} (l l' : list A) : NoDup l -> NoDup l' -> (forall a, In a l -> In a l' -> False) -> NoDup (l ++ l').
  Proof.
    induction l as [|a l IH]; intros H H' D; [assumption|]. inversion H; subst. cbn [app]. constructor.
    - intros Hin. apply in_app_or in Hin. destruct Hin; [contradiction|]. eapply D; [left; reflexivity|assumption].
    - apply IH; auto. intros x Hx Hx'. eapply D; [right; eassumption|assumption].
  Qed.

  Lemma map_NoDup {A B} (f : A -> B) l : (forall a b, In a l -> In b l -> f a = f b -> a = b) -> NoDup l -> NoDup (map f l).
  Proof.
    intros Hf. induction 1 as [|a l Hni Hnd IH]; cbn [map]; constructor.
    - intros Hin. apply in_map_iff in Hin. destruct Hin as (b & Hb & Hin).
      assert (b = a) by (apply Hf; [right; assumption|left; reflexivity|assumption]). congruence.
    - apply IH. intros x y Hx Hy. apply Hf; right; assumption.
  Qed.

  Lemma paths_unique : forall v : node, unique_keys v -> NoDup (map fst (paths v)).
  Proof.
    induction v as [t|es IH] using node_ind2; intros Hu; cbn [paths].
    - cbn. constructor; [intros []|constructor].
    - inversion Hu as [|? Hnd Hu']; subst. clear Hu. induction es as [|[k v] es IHes]; [constructor|].
      cbn [flat_map fst snd]. rewrite map_app. inversion IH as [|? ? IHv IHt]; subst. cbn [map fst] in Hnd.
      inversion Hnd as [|? ? Hni Hnd']; subst. apply NoDup_app_intro.
      + rewrite map_map. cbn [fst]. rewrite <- (map_map fst (cons k)). apply map_NoDup; [intros; congruence|].
        apply IHv. apply (Hu' k v). left; reflexivity.
      + apply IHes; auto. intros k' v' H'. apply (Hu' k' v'). right; assumption.
      + intros p Hp Hp'. apply in_map_iff in Hp. destruct Hp as (q & <- & Hq). apply in_map_iff in Hq.
        destruct Hq as (q' & <- & _). cbn [fst] in Hp'. apply in_map_iff in Hp'. destruct Hp' as (q2 & E & Hq2).
        apply in_flat_map in Hq2. destruct Hq2 as ([k2 v2] & Hin & Hq2). apply in_map_iff in Hq2.
        destruct Hq2 as (q3 & <- & _). cbn [fst snd] in E. injection E as -> _. apply Hni. apply in_map_iff. exists (k, v2). auto.
  Qed.

  (** ** Writing *)
  Lemma write_all_fresh calls : forall book out, NoDup (map fst book ++ map fst calls) ->
    write_all ok_name overlay book calls = Ok out -> out = book ++ calls.
  Proof.
    induction calls as [|[n t] calls IH]; cbn [write_all]; intros book out Hnd H.
    - rewrite app_nil_r. congruence.
    - unfold to_excel in H. destruct (ok_name n); [|discriminate]. cbn [bind] in H. cbn [map fst] in Hnd.
      assert (Hni : ~ In n (map fst book)).
      { intros Hin. apply NoDup_remove_2 in Hnd. apply Hnd. apply in_or_app. left; assumption. }
      assert (E : od_set String.eqb book n match od_get String.eqb book n with Some old => overlay old t | None => t end = book ++ [(n, t)]).
      { clear -Hni. induction book as [|[n' t'] book IH]; [reflexivity|]. cbn [map fst In] in Hni. cbn [od_set od_get].
        destruct (String.eqb_spec n n') as [->|N]; [exfalso; apply Hni; left; reflexivity|].
        cbn [app]. rewrite IH by tauto. reflexivity. }
      rewrite E in H. apply IH in H; [rewrite <- app_assoc in H; exact H|].
      rewrite map_app, <- app_assoc. exact Hnd.
  Qed.

  Lemma write_all_names calls : forall book out, write_all ok_name overlay book calls = Ok out ->
    forall n, In n (map fst out) -> In n (map fst book) \/ In n (map fst calls).
  Proof.
    induction calls as [|[n0 t] calls IH]; cbn [write_all]; intros book out H n Hn.
    - injection H as ->. auto.
    - unfold to_excel in H. destruct (ok_name n0); [|discriminate]. cbn [bind] in H.
      destruct (IH _ _ H n Hn) as [G|G]; [|cbn [map fst In]; tauto].
      match type of G with In _ (map fst (od_set _ _ _ ?v)) => set (w := v) in G end.
      pose proof (od_keys_set String.eqb String.eqb_spec book n0 w) as K. unfold od_keys in K. rewrite K in G.
      destruct (od_mem String.eqb book n0); [auto|]. apply in_app_or in G. destruct G as [G|[<-|[]]]; [auto|].
      right; left; reflexivity.
  Qed.

  Lemma dump_book es book : unique_keys (Dict es) -> plain (Dict es) -> top_named es ->
    dump_file ok_name overlay (Dict es) EmptyString = Ok book ->
    book = map (fun p => (join_with dot (fst p), snd p)) (paths (Dict es)).
  Proof.
    intros Hu Hp Ht. unfold dump_file. rewrite sheets_top by assumption.
    destruct (write_all _ _ [] _) as [b|e] eqn:E; cbn [bind]; [|discriminate].
    intros H. assert (book = b) by (destruct b; congruence). subst b. clear H.
    apply write_all_fresh in E; [exact E|]. cbn [map app]. rewrite map_map. cbn [fst].
    rewrite <- (map_map fst (join_with dot)). apply map_NoDup; [|apply paths_unique; assumption].
    intros a b Ha Hb Hab. apply in_map_iff in Ha, Hb. destruct Ha as (p & <- & Ha), Hb as (q & <- & Hb).
    pose proof (paths_dict_nonnil es) as Hnn. rewrite Forall_forall in Hnn.
    rewrite <- (split_join dot (fst p)), <- (split_join dot (fst q)), Hab; [reflexivity|auto| |auto|].
    - intros w Hw. exact (paths_nodot _ Hp q Hb w Hw).
    - intros w Hw. exact (paths_nodot _ Hp p Ha w Hw).
  Qed.

  Lemma round_trip es book : unique_keys (Dict es) -> plain (Dict es) -> top_named es ->
    dump_file ok_name overlay (Dict es) EmptyString = Ok book -> load_file book false true = Ok es.
  Proof.
    intros Hu Hp Ht H. apply dump_book in H; [|assumption..]. subst book.
    unfold load_file, reorder_input. cbn [andb]. rewrite reorder_puts, map_map. cbn [fst snd].
    rewrite <- (puts_paths (Dict es) Hu Hp). f_equal.
    rewrite <- (map_id (paths (Dict es))) at 2. apply map_ext_in. intros [p t] Hin. cbn [fst snd]. f_equal.
    apply split_join.
    - pose proof (paths_dict_nonnil es) as Hnn. rewrite Forall_forall in Hnn. exact (Hnn _ Hin).
    - exact (paths_nodot _ Hp _ Hin).
  Qed.

  (** ** Everything that load returns is plain *)
  Lemma od_set_In (d : dict) k v k' v' : In (k', v') (od_set String.eqb d k v) -> (k' = k /\ v' = v) \/ In (k', v') d.
  Proof.
    induction d as [|[k2 v2] d IH]; cbn [od_set In].
    - intros [H|[]]. injection H as <- <-. auto.
    - destruct (String.eqb_spec k k2) as [->|N]; cbn [In].
      + intros [H|H]; [injection H as <- <-; auto|auto].
      + intros [H|H]; [auto|]. destruct (IH H); auto.
  Qed.

  Lemma od_set_nonnil (d : dict) k v : od_set String.eqb d k v <> [].
  Proof. destruct d as [|[k' v'] d]; cbn [od_set]; [discriminate|]. destruct (String.eqb k k'); discriminate. Qed.

  Lemma put_plain : forall path (d d' : dict) v, plain (Dict d) -> plain v -> v <> Dict [] ->
    (forall w, In w path -> has_char dot w = false) -> put d path v = Ok d' -> plain (Dict d') /\ d' <> [].
  Proof.
    induction path as [|k path IH]; intros d d' v Hd Hv Hne Hw H; [discriminate|].
    inversion Hd as [|? Hd']; subst.
    destruct path as [|k1 path].
    - cbn [put] in H. assert (d' = od_set String.eqb d k v) by congruence. subst d'. split; [|apply od_set_nonnil].
      constructor. intros k' v' Hin. apply od_set_In in Hin. destruct Hin as [[-> ->]|Hin]; [|auto].
      repeat split; auto. apply Hw. left; reflexivity.
    - rewrite put_cons2 in H.
      assert (G : exists s s', plain (Dict s) /\ put s (k1 :: path) v = Ok s' /\ d' = od_set String.eqb d k (Dict s')).
      { destruct (od_get String.eqb d k) as [[t|sub]|] eqn:E; [discriminate| |].
        - match type of H with rmap _ ?x = _ => destruct x as [s'|] eqn:E2; [|discriminate] end. cbn [rmap] in H.
          exists sub, s'. split; [|split; [exact E2|congruence]]. apply (od_get_In String.eqb String.eqb_spec) in E.
          destruct (Hd' _ _ E) as (_ & P & _). exact P.
        - match type of H with rmap _ ?x = _ => destruct x as [s'|] eqn:E2; [|discriminate] end. cbn [rmap] in H.
          exists [], s'. split; [|split; [exact E2|congruence]]. constructor. intros ? ? []. }
      destruct G as (s & s' & Ps & E2 & ->).
      destruct (IH s s' v Ps Hv Hne (fun w Hin => Hw w (or_intror Hin)) E2) as (P' & N').
      split; [|apply od_set_nonnil]. constructor. intros k' v' Hin. apply od_set_In in Hin.
      destruct Hin as [[-> ->]|Hin]; [|auto]. split; [apply Hw; left; reflexivity|]. split; [exact P'|]. congruence.
  Qed.

  Lemma puts_plain ps : forall d d' : dict, plain (Dict d) ->
    (forall p, In p ps -> forall w, In w (fst p) -> has_char dot w = false) -> puts d ps = Ok d' -> plain (Dict d').
  Proof.
    induction ps as [|[p t] ps IH]; cbn [puts]; intros d d' Hd Hw H; [congruence|].
    destruct (put d p (Table t)) as [d1|] eqn:E; cbn [bind] in H; [|discriminate].
    apply (IH d1 d'); [|intros q Hq; apply Hw; right; assumption|assumption].
    eapply put_plain; [exact Hd|constructor|discriminate|apply (Hw (p, t)); left; reflexivity|exact E].
  Qed.

  Lemma load_plain (book : list (string * T)) es : load_file book false true = Ok es -> plain (Dict es).
  Proof.
    unfold load_file, reorder_input. cbn [andb]. rewrite reorder_puts. apply puts_plain.
    - constructor. intros ? ? [].
    - intros p Hp w Hw. apply in_map_iff in Hp. destruct Hp as ([n t] & <- & _). cbn [fst] in Hw.
      exact (split_on_pieces dot n w Hw).
  Qed.

  Definition lone_empty (p : list string) : Prop := forall r, p = EmptyString :: r -> r = [].

  Lemma put_top path (d d' : dict) t : top_named d -> lone_empty path -> put d path (Table t) = Ok d' -> top_named d'.
  Proof.
    intros Hd Hl H sub Hin. destruct path as [|k path]; [discriminate|].
    assert (G : exists v, d' = od_set String.eqb d k v /\ (forall s, v = Dict s -> path <> [])).
    { destruct path as [|k1 path]; [rewrite put_cons1 in H|rewrite put_cons2 in H].
      - exists (Table t). split; [congruence|]. intros; discriminate.
      - destruct (od_get String.eqb d k) as [[t'|s]|]; [discriminate| |];
        match type of H with rmap _ ?x = _ => destruct x as [s'|] eqn:E2; [|discriminate] end; cbn [rmap] in H;
        exists (Dict s'); (split; [congruence|intros; discriminate]). }
    destruct G as (v & -> & Hv). apply od_set_In in Hin. destruct Hin as [[E1 E2]|Hin]; [|exact (Hd sub Hin)].
    apply (Hv sub); [congruence|]. apply (Hl path). congruence.
  Qed.

  Lemma puts_top ps : forall d d' : dict, top_named d -> (forall p, In p ps -> lone_empty (fst p)) ->
    puts d ps = Ok d' -> top_named d'.
  Proof.
    induction ps as [|[p t] ps IH]; cbn [puts]; intros d d' Hd Hw H; [injection H as <-; assumption|].
    destruct (put d p (Table t)) as [d1|] eqn:E; cbn [bind] in H; [|discriminate].
    apply (IH d1 d'); [|intros q Hq; apply Hw; right; assumption|assumption].
    eapply put_top; [exact Hd|apply (Hw (p, t)); left; reflexivity|exact E].
  Qed.

  (** A sheet name made from dot-free keys does not start with a dot. *)
  Definition no_lead (s : string) : Prop := forall r, s <> String dot r.
  Lemma no_lead_split s : no_lead s -> lone_empty (split_on dot s).
  Proof.
    intros H r E. destruct s as [|a s]; cbn [split_on] in E; [congruence|].
    destruct (Ascii.eqb_spec a dot) as [->|N]; [exfalso; apply (H s); reflexivity|].
    destruct (split_on dot s); discriminate.
  Qed.

  Lemma nodot_no_lead s : has_char dot s = false -> no_lead s.
  Proof. intros H r ->. cbn [has_char] in H. rewrite Ascii.eqb_refl in H. discriminate. Qed.

  Lemma sheets_no_lead : forall (v : node) prefix, plain v -> no_lead prefix ->
    forall n, In n (map fst (sheets_of prefix v)) -> no_lead n.
  Proof.
    induction v as [t|es IH] using node_ind2; intros prefix Hp Hpre n; cbn [sheets_of].
    - intros [<-|[]]. assumption.
    - intros Hin. apply in_map_iff in Hin. destruct Hin as (x & <- & Hx). apply in_flat_map in Hx.
      destruct Hx as ([k v] & Hkv & Hx). cbn [fst snd] in Hx. inversion Hp as [|? Hp']; subst.
      destruct (Hp' k v Hkv) as (Hk & Hv & _). rewrite Forall_forall in IH.
      apply (IH (k, v) Hkv (dotted prefix k) Hv); [|apply in_map; assumption].
      unfold dotted. destruct prefix as [|a prefix]; cbn [is_empty].
      + apply nodot_no_lead; assumption.
      + intros r E. cbn [String.append] in E. injection E as -> _. exact (Hpre prefix eq_refl).
  Qed.

  Lemma round_trip_only es book : dump_file ok_name overlay (Dict es) EmptyString = Ok book ->
    load_file book false true = Ok es -> plain (Dict es) /\ top_named es.
  Proof.
    intros Hd Hl. pose proof (load_plain _ _ Hl) as Hp. split; [assumption|].
    unfold load_file, reorder_input in Hl. cbn [andb] in Hl. rewrite reorder_puts in Hl.
    eapply puts_top; [|  |exact Hl]; [intros sub []|].
    intros p Hin. apply in_map_iff in Hin. destruct Hin as (kv & <- & Hin). cbn [fst].
    apply no_lead_split. unfold dump_file in Hd. destruct (write_all _ _ [] _) as [b|] eqn:E; cbn [bind] in Hd; [|discriminate].
    assert (book = b) by (destruct b; congruence). subst b.
    destruct (write_all_names _ _ _ E (fst kv)) as [[]|Hn]; [apply in_map; assumption|].
    apply (sheets_no_lead (Dict es) EmptyString Hp); [intros r; discriminate|assumption].
  Qed.
End Proofs.
