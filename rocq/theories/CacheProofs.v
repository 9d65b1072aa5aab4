(** Proofs for C57. *)
From Verif Require Import Base CacheSpec CacheModel.
Local Open Scope list_scope. Local Open Scope nat_scope.

Section Proofs.
  Context {K V : Type}.
  Variable keqb : K -> K -> bool.
  Hypothesis keqb_spec : forall a b, reflect (a = b) (keqb a b).

  (** replay of the events on one entry *)
  Definition upd1 (k : K) (o : option V) (e : event K V) : option V :=
    match e with
    | EDone k' (Ok v) => if keqb k k' then Some v else o
    | EPut k' v => if keqb k k' then Some v else o
    | _ => o
    end.
  Definition replay (k : K) (o : option V) (t : list (event K V)) := fold_left (upd1 k) t o.
  Lemma replay_latest k o t : latest k o t (replay k o t).
  Proof.
    induction t as [|e t IH] using rev_ind; [constructor|].
    unfold replay in *. rewrite fold_left_app. cbn [fold_left]. destruct e as [k'|k' [v|x]|k' v|k' v]; cbn [upd1].
    - eapply latest_other; [exact IH| |]; discriminate.
    - destruct (keqb_spec k k') as [<-|N]; [eapply latest_done; exact IH|].
      eapply latest_other; [exact IH| |]; congruence.
    - eapply latest_other; [exact IH| |]; discriminate.
    - eapply latest_other; [exact IH| |]; discriminate.
    - destruct (keqb_spec k k') as [<-|N]; [eapply latest_put; exact IH|].
      eapply latest_other; [exact IH| |]; congruence.
  Qed.
  Lemma app_last_inj {A} (l l' : list A) a a' : l ++ [a] = l' ++ [a'] -> l = l' /\ a = a'.
  Proof. apply app_inj_tail. Qed.
  Lemma latest_replay k o t x : latest k o t x -> x = replay k o t.
  Proof.
    induction 1 as [|t o' v L IH|t o' v L IH|t o' e L IH N1 N2]; unfold replay in *; rewrite ?fold_left_app; cbn [fold_left upd1].
    - reflexivity.
    - destruct (keqb_spec k k); congruence.
    - destruct (keqb_spec k k); congruence.
    - destruct e as [k'|k' [v|y]|k' v|k' v]; cbn [upd1]; try exact IH;
        (destruct (keqb_spec k k') as [->|]; [exfalso|exact IH]); [exact (N1 v eq_refl)|exact (N2 v eq_refl)].
  Qed.
  Lemma replay_app k o t1 t2 : replay k o (t1 ++ t2) = replay k (replay k o t1) t2.
  Proof. unfold replay. apply fold_left_app. Qed.

  (** every hit and every call is justified by the entry at that point *)
  Fixpoint justified (g : K -> option V) (t : list (event K V)) : Prop :=
    match t with
    | [] => True
    | e :: t' => match e with ECall k => g k = None | EHit k v => g k = Some v | _ => True end
                 /\ justified (fun k => upd1 k (g k) e) t'
    end.
  Lemma justified_ext t : forall g h, (forall k, g k = h k) -> justified g t -> justified h t.
  Proof.
    induction t as [|e t IH]; cbn [justified]; intros g h E J; [exact I|]. destruct J as [J1 J2]. split.
    - destruct e; rewrite <- ?E; assumption.
    - eapply IH; [|exact J2]. intros k. cbn beta. rewrite (E k). reflexivity.
  Qed.
  Lemma justified_app t1 t2 : forall g, justified g (t1 ++ t2) <-> justified g t1 /\ justified (fun k => replay k (g k) t1) t2.
  Proof.
    induction t1 as [|e t1 IH]; intros g; cbn [app justified].
    - split; [intros J; split; [exact I|exact J]|intros [_ J]; exact J].
    - rewrite IH. unfold replay. cbn [fold_left]. tauto.
  Qed.

  Lemma run_spec (p : prog K V) : forall c r c' t, run keqb p c = (r, c', t) ->
    (forall k, od_get keqb c' k = replay k (od_get keqb c k) t) /\ justified (od_get keqb c) t.
  Proof.
    induction p as [v|e|k fb IHfb cont IHc|k v p IH]; intros c r c' t E; cbn [run] in E.
    - inversion E; subst. split; [reflexivity|exact I].
    - inversion E; subst. split; [reflexivity|exact I].
    - destruct (od_get keqb c k) as [v|] eqn:G.
      + destruct (run keqb (cont (Ok v)) c) as [[r0 c0] t0] eqn:R. inversion E; subst.
        destruct (IHc _ _ _ _ _ R) as [H J]. split; [exact H|]. cbn [justified upd1]. split; assumption.
      + destruct (run keqb fb c) as [[r1 c1] t1] eqn:R1. cbv zeta in E.
        destruct (run keqb (cont r1) (keep keqb c1 k r1)) as [[r0 c0] t0] eqn:R.
        injection E as <- <- <-. destruct (IHfb _ _ _ _ R1) as [H1 J1]. destruct (IHc _ _ _ _ _ R) as [HA JA].
        assert (U : forall k', od_get keqb (keep keqb c1 k r1) k' =
                     upd1 k' (replay k' (od_get keqb c k') t1) (EDone k r1)).
        { intros k'. unfold keep. destruct r1 as [v|x]; cbn [upd1]; [rewrite (od_get_set keqb keqb_spec)|]; rewrite H1; reflexivity. }
        split.
        * intros k'. rewrite HA, U. change (ECall k :: t1 ++ EDone k r1 :: t0) with ((ECall k :: t1) ++ EDone k r1 :: t0).
          rewrite replay_app. reflexivity.
        * cbn [justified upd1]. split; [exact G|]. apply justified_app. split; [exact J1|]. cbn [justified]. split; [exact I|].
          eapply justified_ext; [|exact JA]. exact U.
    - destruct (run keqb p (od_set keqb c k v)) as [[r0 c0] t0] eqn:R. inversion E; subst. destruct (IH _ _ _ _ R) as [H J].
      assert (U : forall k', od_get keqb (od_set keqb c k v) k' = upd1 k' (od_get keqb c k') (EPut k v)).
      { intros k'. cbn [upd1]. apply (od_get_set keqb keqb_spec). }
      split; [intros k'; rewrite H, U; reflexivity|]. cbn [justified]. split; [exact I|].
      eapply justified_ext; [|exact J]. exact U.
  Qed.

  Lemma replay_some k t : forall o, o <> None -> replay k o t <> None.
  Proof.
    induction t as [|e t IH]; intros o N; [exact N|]. unfold replay. cbn [fold_left]. apply IH.
    destruct e as [k'|k' [v|x]|k' v|k' v]; cbn [upd1]; try exact N; destruct (keqb k k'); congruence.
  Qed.
  Lemma justified_no_call k t : forall g, g k <> None -> justified g t -> ~ In (ECall k) t.
  Proof.
    intros g N J Hin. apply in_split in Hin. destruct Hin as (t1 & t2 & ->). apply justified_app in J. destruct J as [_ J].
    cbn [justified] in J. destruct J as [J _]. exact (replay_some k t1 _ N J).
  Qed.
  Lemma supplied k g t1 e t2 : supplies k e -> justified g (t1 ++ e :: t2) -> ~ In (ECall k) t2.
  Proof.
    intros Su J. apply justified_app in J. destruct J as [_ J]. cbn [justified] in J. destruct J as [J1 J].
    eapply justified_no_call; [|exact J]. cbn beta.
    destruct e as [k'|k' [v|x]|k' v|k' v]; cbn [supplies] in Su; try contradiction; subst k'; cbn [upd1].
    - destruct (keqb_spec k k); congruence.
    - rewrite J1. discriminate.
    - destruct (keqb_spec k k); congruence.
  Qed.

  (** counting *)
  Definition is_call (k : K) (e : event K V) : bool := match e with ECall k' => keqb k k' | _ => false end.
  Definition is_fail (k : K) (e : event K V) : bool := match e with EDone k' (Err _) => keqb k k' | _ => false end.
  Definition is_ok (k : K) (e : event K V) : bool := match e with EDone k' (Ok _) => keqb k k' | _ => false end.
  Definition count (f : event K V -> bool) (t : list (event K V)) := length (filter f t).
  Lemma count_app f t1 t2 : count f (t1 ++ t2) = count f t1 + count f t2.
  Proof. unfold count. rewrite filter_app, app_length. reflexivity. Qed.
  Lemma count_cons f e t : count f (e :: t) = (if f e then 1 else 0) + count f t.
  Proof. unfold count. cbn [filter]. destruct (f e); reflexivity. Qed.
  Lemma count_0 f t : (forall e, In e t -> f e = false) -> count f t = 0.
  Proof.
    induction t as [|e t IH]; intros H; [reflexivity|]. rewrite count_cons, (H e (or_introl eq_refl)), IH; [reflexivity|].
    intros x Hx. apply H. right. exact Hx.
  Qed.
  Lemma calls_return (p : prog K V) : forall c r c' t k, run keqb p c = (r, c', t) ->
    count (is_call k) t = count (is_ok k) t + count (is_fail k) t.
  Proof.
    induction p as [v|e|k fb IHfb cont IHc|k v p IH]; intros c r c' t k' E; cbn [run] in E.
    - inversion E; reflexivity.
    - inversion E; reflexivity.
    - destruct (od_get keqb c k) as [v|] eqn:G.
      + destruct (run keqb (cont (Ok v)) c) as [[r0 c0] t0] eqn:R. inversion E; subst.
        rewrite !count_cons. cbn [is_call is_ok is_fail]. eapply IHc; exact R.
      + destruct (run keqb fb c) as [[r1 c1] t1] eqn:R1. cbv zeta in E.
        destruct (run keqb (cont r1) (keep keqb c1 k r1)) as [[r0 c0] t0] eqn:R.
        injection E as <- <- <-. specialize (IHfb _ _ _ _ k' R1). specialize (IHc _ _ _ _ _ k' R).
        rewrite !count_cons, !count_app, !count_cons. destruct r1; cbn [is_call is_ok is_fail]; lia.
    - destruct (run keqb p (od_set keqb c k v)) as [[r0 c0] t0] eqn:R. inversion E; subst.
      rewrite !count_cons. cbn [is_call is_ok is_fail]. eapply IH; exact R.
  Qed.
  Lemma no_request_no_call (p : prog K V) : forall c r c' t k, run keqb p c = (r, c', t) -> ~ requests k p -> ~ In (ECall k) t.
  Proof.
    induction p as [v|e|k fb IHfb cont IHc|k v p IH]; intros c r c' t k' E N; cbn [run] in E; cbn [requests] in N.
    - inversion E; subst. intros [].
    - inversion E; subst. intros [].
    - destruct (od_get keqb c k) as [v|] eqn:G.
      + destruct (run keqb (cont (Ok v)) c) as [[r0 c0] t0] eqn:R. inversion E; subst. intros [D|Hin]; [discriminate|].
        refine (IHc _ _ _ _ _ k' R _ Hin). intros Q. apply N. right. right. eauto.
      + destruct (run keqb fb c) as [[r1 c1] t1] eqn:R1. cbv zeta in E.
        destruct (run keqb (cont r1) (keep keqb c1 k r1)) as [[r0 c0] t0] eqn:R.
        inversion E; subst. intros [D|Hin]; [inversion D; subst; tauto|].
        apply in_app_or in Hin. destruct Hin as [Hin|[D|Hin]]; [|discriminate|].
        * refine (IHfb _ _ _ _ k' R1 _ Hin). tauto.
        * refine (IHc _ _ _ _ _ k' R _ Hin). intros Q. apply N. right. right. eauto.
    - destruct (run keqb p (od_set keqb c k v)) as [[r0 c0] t0] eqn:R. inversion E; subst. intros [D|Hin]; [discriminate|].
      exact (IH _ _ _ _ k' R N Hin).
  Qed.
  Lemma count_call_0 k t : ~ In (ECall k) t -> count (is_call k) t = 0.
  Proof.
    intros N. apply count_0. intros e He. destruct e as [k'| | |]; try reflexivity. cbn [is_call].
    destruct (keqb_spec k k') as [->|]; [contradiction|reflexivity].
  Qed.
  Lemma calls_bound (p : prog K V) : no_self_request p -> forall c r c' t k, run keqb p c = (r, c', t) ->
    count (is_call k) t <= (match od_get keqb c k with Some _ => 0 | None => 1 end) + count (is_fail k) t.
  Proof.
    induction p as [v|e|k fb IHfb cont IHc|k v p IH]; intros W c r c' t k' E; cbn [run] in E; cbn [no_self_request] in W.
    - inversion E; subst. cbn. lia.
    - inversion E; subst. cbn. lia.
    - destruct W as (W1 & W2 & W3). destruct (od_get keqb c k) as [v|] eqn:G.
      + destruct (run keqb (cont (Ok v)) c) as [[r0 c0] t0] eqn:R. inversion E; subst.
        rewrite !count_cons. cbn [is_call is_fail]. exact (IHc _ (W3 _) _ _ _ _ k' R).
      + destruct (run keqb fb c) as [[r1 c1] t1] eqn:R1. cbv zeta in E.
        destruct (run keqb (cont r1) (keep keqb c1 k r1)) as [[r0 c0] t0] eqn:R.
        injection E as <- <- <-. pose proof (IHfb W2 _ _ _ _ k' R1) as B1. pose proof (IHc _ (W3 _) _ _ _ _ k' R) as B0.
        destruct (run_spec _ _ _ _ _ R1) as [H1 J1].
        rewrite !count_cons, !count_app, !count_cons. cbn [is_call is_fail].
        destruct (keqb_spec k' k) as [->|N].
        * pose proof (count_call_0 k t1 (no_request_no_call fb _ _ _ _ k R1 W1)) as Z. rewrite Z in *. rewrite G.
          unfold keep in *. destruct r1 as [v|x]; cbn [is_fail].
          -- rewrite (od_get_set_same keqb keqb_spec) in B0. lia.
          -- destruct (keqb_spec k k) as [_|]; [|congruence].
             destruct (od_get keqb c1 k); lia.
        * assert (S1 : match od_get keqb (keep keqb c1 k r1) k' with Some _ => 0 | None => 1 end
                  = match od_get keqb c1 k' with Some _ => 0 | None => 1 end).
          { unfold keep. destruct r1; [rewrite (od_get_set_other keqb keqb_spec) by exact N|]; reflexivity. }
          rewrite S1 in B0. clear S1.
          replace (match r1 with Ok _ | _ => false end) with false by (destruct r1; reflexivity).
          pose proof (calls_return fb _ _ _ _ k' R1) as CR.
          destruct (od_get keqb c k') as [v0|] eqn:G'.
          -- assert (E1 : od_get keqb c1 k' <> None) by (rewrite H1; apply replay_some; congruence).
             destruct (od_get keqb c1 k'); [lia|congruence].
          -- destruct (od_get keqb c1 k') as [v1|] eqn:G1; [lia|].
             (* nothing was stored for k' during the fallback, so every call failed *)
             assert (Z : count (is_ok k') t1 = 0).
             { apply count_0. intros e He. destruct e as [x|x [v|y]|x v|x v]; try reflexivity. cbn [is_ok].
               destruct (keqb_spec k' x) as [<-|]; [|reflexivity]. exfalso. apply in_split in He. destruct He as (a & b & ->).
               rewrite H1 in G1. rewrite replay_app in G1. unfold replay in G1. cbn [fold_left upd1] in G1.
               destruct (keqb_spec k' k') as [_|]; [|congruence]. apply (replay_some k' b (Some v)) in G1; [exact G1|discriminate]. }
             lia.
    - destruct (run keqb p (od_set keqb c k v)) as [[r0 c0] t0] eqn:R. inversion E; subst.
      pose proof (IH W _ _ _ _ k' R) as B. rewrite !count_cons. cbn [is_call is_fail].
      rewrite (od_get_set keqb keqb_spec) in B. destruct (keqb k' k); destruct (od_get keqb c k'); lia.
  Qed.
End Proofs.
