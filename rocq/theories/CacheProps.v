(** C57: caches. *)
From Verif Require Import Base CacheSpec CacheModel CacheProofs.
Local Open Scope list_scope. Local Open Scope nat_scope.

(** What the cache holds after any program, and what every request was answered with: the value most recently computed or
    put for that key, the initial entry if there was none; a fallback is only started when there is no entry. *)
Theorem C57_value : forall K V (keqb : K -> K -> bool), (forall a b, reflect (a = b) (keqb a b)) ->
  forall (p : prog K V) c r c' t, run keqb p c = (r, c', t) ->
  (forall k, latest k (od_get keqb c k) t (od_get keqb c' k)) /\
  (forall t1 k v t2, t = t1 ++ EHit k v :: t2 -> latest k (od_get keqb c k) t1 (Some v)) /\
  (forall t1 k t2, t = t1 ++ ECall k :: t2 -> latest k (od_get keqb c k) t1 None).
Proof.
  intros K V keqb Hs p c r c' t E. destruct (run_spec keqb Hs p c r c' t E) as [H J]. split; [|split].
  - intros k. rewrite H. apply replay_latest. exact Hs.
  - intros t1 k v t2 ->. apply justified_app in J. destruct J as [_ [J _]]. rewrite <- J. apply replay_latest. exact Hs.
  - intros t1 k t2 ->. apply justified_app in J. destruct J as [_ [J _]]. rewrite <- J. apply replay_latest. exact Hs.
Qed.
Print Assumptions C57_value.

(** The value of [latest] is determined by the events. *)
Theorem C57_latest_unique : forall K V (keqb : K -> K -> bool), (forall a b, reflect (a = b) (keqb a b)) ->
  forall (k : K) (init : option V) t a b, latest k init t a -> latest k init t b -> a = b.
Proof. intros K V keqb Hs k init t a b A B. rewrite (latest_replay keqb Hs k init t a A), (latest_replay keqb Hs k init t b B). reflexivity. Qed.
Print Assumptions C57_latest_unique.

(** Once an entry exists (computed, put, or found), no fallback for that key starts again. *)
Theorem C57_once : forall K V (keqb : K -> K -> bool), (forall a b, reflect (a = b) (keqb a b)) ->
  forall (p : prog K V) c r c' t1 e t2 k, run keqb p c = (r, c', t1 ++ e :: t2) -> supplies k e -> ~ In (ECall k) t2.
Proof.
  intros K V keqb Hs p c r c' t1 e t2 k E Su. destruct (run_spec keqb Hs p c r c' _ E) as [_ J]. exact (supplied keqb Hs k _ t1 e t2 Su J).
Qed.
Print Assumptions C57_once.

(** Counting: every started fallback ends, and unless fallbacks ask for their own key, at most one call per key does not end in
    an exception; none at all if the key was there from the start. *)
Definition ncalls {K V} (keqb : K -> K -> bool) (k : K) (t : list (event K V)) : nat :=
  length (filter (fun e => match e with ECall k' => keqb k k' | _ => false end) t).
Definition nfailures {K V} (keqb : K -> K -> bool) (k : K) (t : list (event K V)) : nat :=
  length (filter (fun e => match e with EDone k' (Err _) => keqb k k' | _ => false end) t).
Theorem C57_at_most_once : forall K V (keqb : K -> K -> bool), (forall a b, reflect (a = b) (keqb a b)) ->
  forall (p : prog K V) c r c' t k, no_self_request p -> run keqb p c = (r, c', t) ->
  (od_get keqb c k = None -> ncalls keqb k t <= 1 + nfailures keqb k t) /\
  (od_get keqb c k <> None -> ncalls keqb k t = 0).
Proof.
  intros K V keqb Hs p c r c' t k W E. pose proof (calls_bound keqb Hs p W c r c' t k E) as B. split.
  - intros N. rewrite N in B. exact B.
  - intros N. destruct (run_spec keqb Hs p c r c' t E) as [_ J]. exact (count_call_0 keqb Hs k t (justified_no_call keqb k t _ N J)).
Qed.
Print Assumptions C57_at_most_once.

(** A fallback that asks for its own key is called twice and the outer result replaces the inner one. *)
Theorem C57_self_request_refuted : forall (e : exn), exists p : prog nat nat, run Nat.eqb p [] =
  (Ok 2, [(0, 2)], [ECall 0; ECall 0; EDone 0 (Ok 1); EDone 0 (Ok 2)]).
Proof.
  intros e. exists (Get 0 (Get 0 (Ret 1) (fun r => match r with Ok v => Ret (v + 1) | Err e => Raise e end)) (fun r => match r with Ok v => Ret v | Err e => Raise e end)).
  reflexivity.
Qed.
Print Assumptions C57_self_request_refuted.

(** A request whose fallback raises: the exception reaches the caller, the cache is what the fallback left (unchanged if it did
    not use the cache), and the next request calls the fallback again. *)
Theorem C57_failure : forall K V (keqb : K -> K -> bool) (p : prog K V) c k e c1 t1 cont,
  od_get keqb c k = None -> run keqb p c = (Err e, c1, t1) ->
  exists r c' t, run keqb (cont (Err e)) c1 = (r, c', t) /\ run keqb (Get k p cont) c = (r, c', ECall k :: t1 ++ EDone k (Err e) :: t).
Proof.
  intros K V keqb p c k e c1 t1 cont G R. destruct (run keqb (cont (Err e)) c1) as [[r c'] t] eqn:R2. exists r, c', t.
  split; [reflexivity|]. cbn [run]. rewrite G, R. cbn beta iota. unfold keep. rewrite R2. reflexivity.
Qed.
Print Assumptions C57_failure.

(** The two-level cache answers exactly like a one-level cache over pairs of keys. *)
Theorem C57_multi : forall K S V (keqb : K -> K -> bool) (seqb : S -> S -> bool),
  (forall a b, reflect (a = b) (keqb a b)) -> (forall a b, reflect (a = b) (seqb a b)) ->
  let peqb := fun a b : K * S => keqb (fst a) (fst b) && seqb (snd a) (snd b) in
  forall (p : prog (K * S) V) m c, (forall k s, mget keqb seqb m k s = od_get peqb c (k, s)) ->
  exists r m' c' t, mrun keqb seqb p m = (r, m', t) /\ run peqb p c = (r, c', t) /\
    forall k s, mget keqb seqb m' k s = od_get peqb c' (k, s).
Proof.
  intros K S V keqb seqb Hk Hs peqb.
  assert (Hp : forall a b, reflect (a = b) (peqb a b)).
  { intros [a1 a2] [b1 b2]. unfold peqb. cbn [fst snd]. destruct (Hk a1 b1) as [->|N]; [|constructor; congruence].
    destruct (Hs a2 b2) as [->|N]; constructor; congruence. }
  assert (Set_ : forall (m : list (K * list (S * V))) (c : list (K * S * V)) k s v, (forall k' s', mget keqb seqb m k' s' = od_get peqb c (k', s')) ->
             forall k' s', mget keqb seqb (mset keqb seqb m k s v) k' s' = od_get peqb (od_set peqb c (k, s) v) (k', s')).
  { intros m c k s v H k' s'. unfold mget, mset, msub at 1. rewrite (od_get_set keqb Hk), (od_get_set peqb Hp).
    unfold peqb. cbn [fst snd]. destruct (Hk k' k) as [->|N]; cbn [andb].
    - rewrite (od_get_set seqb Hs). destruct (Hs s' s) as [->|]; [reflexivity|]. exact (H k s').
    - exact (H k' s'). }
  induction p as [v|e|[k s] fb IHfb cont IHc|[k s] v p IH]; intros m c H; cbn [run mrun].
  - do 4 eexists. split; [reflexivity|]. split; [reflexivity|]. exact H.
  - do 4 eexists. split; [reflexivity|]. split; [reflexivity|]. exact H.
  - set (m0 := if od_mem keqb m k then m else od_set keqb m k []).
    assert (H0 : forall k' s', mget keqb seqb m0 k' s' = od_get peqb c (k', s')).
    { intros k' s'. rewrite <- H. unfold m0. destruct (od_mem keqb m k) eqn:M; [reflexivity|].
      unfold mget, msub. rewrite (od_get_set keqb Hk). destruct (Hk k' k) as [->|]; [|reflexivity].
      unfold od_mem in M. destruct (od_get keqb m k); [discriminate|reflexivity]. }
    change (od_get seqb (msub keqb m0 k) s) with (mget keqb seqb m0 k s). rewrite H0.
    destruct (od_get peqb c (k, s)) as [v|].
    + destruct (IHc (Ok v) m0 c H0) as (r & m' & c' & t & E1 & E2 & H'). rewrite E1, E2.
      do 4 eexists. split; [reflexivity|]. split; [reflexivity|]. exact H'.
    + destruct (IHfb m0 c H0) as (r1 & m1 & c1 & t1 & E1 & E2 & H1). rewrite E1, E2.
      assert (H2 : forall k' s', mget keqb seqb (mkeep keqb seqb m1 k s r1) k' s'
                   = od_get peqb (keep peqb c1 (k, s) r1) (k', s')).
      { unfold mkeep, keep. destruct r1; [apply Set_; exact H1|exact H1]. }
      destruct (IHc r1 _ _ H2) as (r & m' & c' & t & E3 & E4 & H'). rewrite E3, E4.
      do 4 eexists. split; [reflexivity|]. split; [reflexivity|]. exact H'.
  - destruct (IH _ _ (Set_ m c k s v H)) as (r & m' & c' & t & E1 & E2 & H'). rewrite E1, E2.
    do 4 eexists. split; [reflexivity|]. split; [reflexivity|]. exact H'.
Qed.
Print Assumptions C57_multi.

(** A failing request to the two-level cache leaves an empty group behind: the group key is in the cache although nothing was
    ever computed for it. *)
Theorem C57_multi_failure_refuted : forall K S V (keqb : K -> K -> bool) (seqb : S -> S -> bool) k s e,
  exists m, mrun keqb seqb (Get (k, s) (Raise e) (fun r => match r with Ok v => Ret v | Err e => Raise e end)) [] =
    (Err e : result V, m, [ECall (k, s); EDone (k, s) (Err e)]) /\ m = [(k, [])].
Proof. intros. exists [(k, [])]. split; [|reflexivity]. cbn. unfold msub. cbn. destruct (keqb k k); reflexivity. Qed.
Print Assumptions C57_multi_failure_refuted.

(** Predefined cosmologies: in any session all accesses to one name give the same object (loaded once), names whose file cannot
    be loaded raise that error every time, and asking for them does not disturb the others. *)
Definition inv (files : string -> option exn) (s : pstate) : Prop :=
  (forall n o, od_get String.eqb (snd s) n = Some o -> files n = None /\ snd o = n /\ fst o < fst s) /\
  (forall n n' o o', od_get String.eqb (snd s) n = Some o -> od_get String.eqb (snd s) n' = Some o' -> fst o = fst o' -> n = n').
Lemma access_spec files s n r s' : inv files s -> access files s n = (r, s') ->
  inv files s' /\ (forall n' o, od_get String.eqb (snd s) n' = Some o -> od_get String.eqb (snd s') n' = Some o) /\
  match files n with Some e => r = Err e | None => exists o, r = Ok o /\ od_get String.eqb (snd s') n = Some o /\ snd o = n end.
Proof.
  intros [I1 I2] E. unfold access, load in E. destruct (od_get String.eqb (snd s) n) as [o|] eqn:G.
  - inversion E; subst. destruct (I1 n o G) as (F & S1 & _). rewrite F. split; [split; assumption|]. split; [auto|]. eauto.
  - destruct (files n) as [e|] eqn:F; inversion E; subst; clear E.
    + split; [split; assumption|]. split; auto.
    + split; [|split].
      * split; cbn [fst snd].
        -- intros n' o'. rewrite (od_get_set _ String.eqb_spec). destruct (String.eqb_spec n' n) as [->|].
           ++ intros E. inversion E; subst. cbn. auto.
           ++ intros E. destruct (I1 _ _ E) as (? & ? & ?). auto.
        -- intros n1 n2 o1 o2. rewrite !(od_get_set _ String.eqb_spec).
           destruct (String.eqb_spec n1 n) as [->|]; destruct (String.eqb_spec n2 n) as [->|]; intros E1 E2; auto.
           ++ inversion E1; subst. destruct (I1 _ _ E2) as (_ & _ & L). cbn [fst]. lia.
           ++ inversion E2; subst. destruct (I1 _ _ E1) as (_ & _ & L). cbn [fst]. lia.
           ++ eauto.
      * cbn [snd]. intros n' o' G'. rewrite (od_get_set_other _ String.eqb_spec); [exact G'|]. congruence.
      * exists (fst s, n). split; [reflexivity|]. split; [|reflexivity]. cbn [snd]. apply (od_get_set_same _ String.eqb_spec).
Qed.
Lemma session_spec files names : forall s rs s', inv files s -> session files s names = (rs, s') ->
  inv files s' /\ (forall n' o, od_get String.eqb (snd s) n' = Some o -> od_get String.eqb (snd s') n' = Some o) /\
  Forall2 (fun n r => match files n with Some e => r = Err e | None => exists o, r = Ok o /\ od_get String.eqb (snd s') n = Some o /\ snd o = n end) names rs.
Proof.
  induction names as [|n names IH]; intros s rs s' I E; cbn [session] in E.
  - inversion E; subst. split; [exact I|]. split; [auto|constructor].
  - destruct (access files s n) as [r s1] eqn:A. destruct (session files s1 names) as [rs' s2] eqn:B. inversion E; subst.
    destruct (access_spec _ _ _ _ _ I A) as (I1 & K1 & R1). destruct (IH _ _ _ I1 B) as (I2 & K2 & R2).
    split; [exact I2|]. split; [auto|]. constructor; [|exact R2].
    destruct (files n); [exact R1|]. destruct R1 as (o & -> & G & S1). exists o. auto.
Qed.
Theorem C57_predefined : forall files s names rs s', predefined files = Ok s -> session files s names = (rs, s') ->
  length rs = length names /\
  forall i j n m r r', nth_error names i = Some n -> nth_error rs i = Some r -> nth_error names j = Some m -> nth_error rs j = Some r' ->
    match files n with Some e => r = Err e | None => exists id, r = Ok (id, n) end /\
    (n = m -> r = r') /\ (forall o, r = Ok o -> r' = Ok o -> n = m).
Proof.
  intros files s names rs s' P E.
  assert (I : inv files s).
  { unfold predefined, load in P. destruct (files "tng"%string) eqn:F1; [discriminate|]. cbn [bind] in P.
    destruct (files "eagle"%string) eqn:F2; [discriminate|]. cbn [bind] in P.
    assert (s = (2, [("tng"%string, (0, "tng"%string)); ("eagle"%string, (1, "eagle"%string))])) by (inversion P; reflexivity). subst s. clear P.
    assert (G : forall n o, od_get String.eqb [("tng"%string, (0, "tng"%string)); ("eagle"%string, (1, "eagle"%string))] n = Some o ->
      (n = "tng" /\ o = (0, "tng") \/ n = "eagle" /\ o = (1, "eagle"))%string).
    { intros n o. cbn [od_get]. destruct (String.eqb_spec n "tng"%string) as [->|]; [intros H; inversion H; auto|].
      destruct (String.eqb_spec n "eagle"%string) as [->|]; [intros H; inversion H; auto|discriminate]. }
    split; cbn [fst snd].
    - intros n o H. destruct (G n o H) as [[-> ->]|[-> ->]]; cbn; auto.
    - intros n n' o o' H H' D. destruct (G n o H) as [[-> ->]|[-> ->]]; destruct (G n' o' H') as [[-> ->]|[-> ->]]; cbn in D; congruence. }
  destruct (session_spec files names s rs s' I E) as (I' & _ & F). split.
  { clear -F. induction F; cbn [length]; congruence. }
  intros i j n m r r' N1 R1 N2 R2.
  assert (Q : forall i n r, nth_error names i = Some n -> nth_error rs i = Some r ->
     match files n with Some e => r = Err e | None => exists o, r = Ok o /\ od_get String.eqb (snd s') n = Some o /\ snd o = n end).
  { clear -F. induction F as [|n r names rs P F IH]; intros i n' r' A B; destruct i; cbn [nth_error] in *; try discriminate.
    - assert (n' = n) by congruence. assert (r' = r) by congruence. subst n' r'. exact P.
    - eapply IH; eassumption. }
  pose proof (Q _ _ _ N1 R1) as Q1. pose proof (Q _ _ _ N2 R2) as Q2. split; [|split].
  - destruct (files n); [exact Q1|]. destruct Q1 as ([id n'] & -> & _ & S1). cbn [snd] in S1. subst n'. eauto.
  - intros <-. destruct (files n); [congruence|]. destruct Q1 as (o & -> & G1 & _). destruct Q2 as (o' & -> & G2 & _). congruence.
  - intros o -> ->. destruct (files n); [discriminate|]. destruct (files m); [discriminate|].
    destruct Q1 as (o1 & E1 & _ & S1). destruct Q2 as (o2 & E2 & _ & S2). congruence.
Qed.
Print Assumptions C57_predefined.

(** Non-vacuity. *)
Example C57_example : run Nat.eqb (Get 3 (Get 4 (Ret 40) (fun r => match r with Ok v => Ret (v + 1) | Err e => Raise e end))
    (fun _ => Get 3 (Ret 0) (fun _ => Get 5 (Raise ValueError) (fun _ => Get 5 (Ret 50) (fun r => match r with Ok v => Ret v | Err e => Raise e end))))) [] =
  (Ok 50, [(4, 40); (3, 41); (5, 50)],
   [ECall 3; ECall 4; EDone 4 (Ok 40); EDone 3 (Ok 41); EHit 3 41; ECall 5; EDone 5 (Err ValueError); ECall 5; EDone 5 (Ok 50)]).
Proof. reflexivity. Qed.
Example C57_example_session : fst (session (fun n => if String.eqb n "x" then Some FileNotFoundError else None)
    (2, [("tng", (0, "tng")); ("eagle", (1, "eagle"))])%string ["planck"; "x"; "tng"; "planck"]%string) =
  [Ok (2, "planck"%string); Err FileNotFoundError; Ok (0, "tng"%string); Ok (2, "planck"%string)].
Proof. reflexivity. Qed.
