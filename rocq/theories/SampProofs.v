From Coq Require Import QArith Lqa.
From Verif Require Import Base BinSpec BinProofs SampSpec SampModel ReduProofs3.
Local Open Scope list_scope. Local Open Scope nat_scope.

Lemma choice_ok d c n size : (0 <= size)%Z -> (n = 0 -> size = 0%Z) ->
  exists ids, choice d c n size = Ok ids /\ Z.of_nat (length ids) = size /\ Forall (fun t => t < n) ids.
Proof.
  intros H0 Hn. unfold choice. destruct (Z.ltb_spec size 0); [lia|].
  assert (B : Nat.eqb n 0 && (0 <? size)%Z = false).
  { destruct (Nat.eqb_spec n 0) as [E|E]; [rewrite (Hn E); reflexivity|reflexivity]. }
  rewrite B. eexists. split; [reflexivity|]. rewrite map_length, seq_length. split; [lia|].
  apply Forall_forall. intros t Ht. apply in_map_iff in Ht. destruct Ht as (j & <- & Hj). apply in_seq in Hj.
  apply Nat.mod_upper_bound. intros E. apply Hn in E. lia.
Qed.
Lemma take_rows_ok {V} (v : list V) ids : Forall (fun t => t < length v) ids -> exists rows, take_rows v ids = Ok rows /\ rows_at v ids rows.
Proof.
  induction ids as [|i ids IH]; intros H; [exists []; split; [reflexivity|constructor]|]. inversion_clear H as [|? ? Hi Hr].
  destruct (IH Hr) as (rows & E & R). unfold take_rows in *. cbn [mapM]. destruct (nth_error v i) as [x|] eqn:Ex; [|apply nth_error_None in Ex; lia].
  cbn [bind]. rewrite E. cbn [bind]. exists (x :: rows). split; [reflexivity|]. constructor; assumption.
Qed.

Definition picked {V} (ids : list nat) (kv it : string * list V) : Prop := fst it = fst kv /\ rows_at (snd kv) ids (snd it).
Lemma cols_loop_some {V} d m n (ids : list nat) : Forall (fun t => t < n) ids -> forall (cols : dset V) c out, equal_columns cols n ->
  exists items, Forall2 (picked ids) cols items /\ cols_loop d m cols (Some ids) c out = Ok (od_update String.eqb out items, c).
Proof.
  intros Hi. induction cols as [|[k v] cols IH]; intros c out He.
  - exists []. split; [constructor|reflexivity].
  - cbn [cols_loop bind]. assert (Hv : length v = n) by (apply (He k); left; reflexivity).
    destruct (take_rows_ok v ids) as (rows & Er & Rr); [rewrite Hv; assumption|]. rewrite Er. cbn [bind].
    destruct (IH c (set_ out k rows)) as (items & F & E); [intros k' v' Hin; apply (He k'); right; assumption|].
    exists ((k, rows) :: items). split; [constructor; [split; [reflexivity|assumption]|assumption]|]. rewrite E. reflexivity.
Qed.
Lemma cols_loop_none {V} d m n (cols : dset V) c out : equal_columns cols n -> (0 <= m)%Z ->
  exists ids items c', cols_loop d m cols None c out = Ok (od_update String.eqb out items, c') /\ Forall2 (picked ids) cols items /\
    (cols <> [] -> Z.of_nat (length ids) = Z.min (Z.of_nat n) m /\ Forall (fun t => t < n) ids).
Proof.
  intros He Hm. destruct cols as [|[k v] cols].
  - exists [], [], c. split; [reflexivity|]. split; [constructor|congruence].
  - assert (Hv : length v = n) by (apply (He k); left; reflexivity).
    destruct (choice_ok d c n (Z.min (Z.of_nat n) m)) as (ids & Ei & Li & Fi); [lia|intros ->; lia|].
    destruct (cols_loop_some d m n ids Fi ((k, v) :: cols) (S c) out He) as (items & F & E). cbn [cols_loop bind] in *.
    rewrite Hv, Ei. cbn [rmap bind]. exists ids, items, (S c). split; [exact E|]. split; [assumption|]. auto.
Qed.

Lemma od_update_app {V} (a b : list (string * V)) d : od_update String.eqb (od_update String.eqb d a) b = od_update String.eqb d (a ++ b).
Proof. unfold od_update. rewrite fold_left_app. reflexivity. Qed.
Lemma last_get_app {V} (a b : list (string * V)) k :
  last_get String.eqb (a ++ b) k = match last_get String.eqb b k with Some v => Some v | None => last_get String.eqb a k end.
Proof.
  induction a as [|[k' v'] a IH]; cbn [app last_get]; [destruct (last_get String.eqb b k); reflexivity|]. rewrite IH.
  destruct (last_get String.eqb b k); reflexivity.
Qed.
Lemma last_get_None {V} (a : list (string * V)) k : ~ In k (map fst a) -> last_get String.eqb a k = None.
Proof.
  induction a as [|[k' v'] a IH]; intros H; cbn [last_get]; [reflexivity|]. cbn [map fst In] in H. rewrite IH by tauto.
  destruct (String.eqb_spec k k') as [->|N]; [tauto|reflexivity].
Qed.
Lemma picked_keys {V} ids (cols items : dset V) : Forall2 (picked ids) cols items -> map fst items = map fst cols.
Proof. intros H. induction H as [|? ? ? ? [E _] _ IH]; [reflexivity|]. cbn [map]. rewrite E, IH. reflexivity. Qed.
Lemma picked_last {V} ids (cols items : dset V) k v : Forall2 (picked ids) cols items -> NoDup (map fst cols) -> In (k, v) cols ->
  exists rows, last_get String.eqb items k = Some rows /\ rows_at v ids rows.
Proof.
  intros H. induction H as [|[k1 v1] [k2 r2] cols items [E R] F IH]; intros Nd Hin; [contradiction|].
  cbn [map fst snd] in *. subst k2. inversion_clear Nd as [|? ? Nn Nd']. destruct Hin as [Hin|Hin].
  - assert (k1 = k) by congruence. assert (v1 = v) by congruence. subst. exists r2. split; [|assumption]. cbn [last_get].
    rewrite last_get_None by (rewrite (picked_keys _ _ _ F); assumption). rewrite String.eqb_refl. reflexivity.
  - destruct (IH Nd' Hin) as (rows & Er & Rr). exists rows. split; [|assumption]. cbn [last_get]. rewrite Er. reflexivity.
Qed.

Lemma keys_update {V} (items : list (string * V)) : forall d k,
  In k (map fst (od_update String.eqb d items)) <-> In k (map fst d) \/ In k (map fst items).
Proof.
  intros d k.
  assert (G : forall e : list (string * V), In k (map fst e) <-> od_get String.eqb e k <> None).
  { intros e. split; intros H.
    - intros E. apply (od_get_None String.eqb String.eqb_spec) in E. exact (E H).
    - destruct (in_dec string_dec k (map fst e)) as [I|I]; [assumption|]. exfalso. apply H.
      apply (od_get_None String.eqb String.eqb_spec). exact I. }
  rewrite (G (od_update _ _ _)), (od_get_update String.eqb String.eqb_spec), (G d).
  assert (L : last_get String.eqb items k <> None <-> In k (map fst items)).
  { clear. induction items as [|[k' v'] items IH]; cbn [last_get map fst In]; [tauto|].
    destruct (last_get String.eqb items k) eqn:E.
    - split; [intros _; right; apply IH; discriminate|congruence].
    - destruct (String.eqb_spec k k') as [->|N]; [split; [auto|discriminate]|]. split; [congruence|]. intros [H|H]; [congruence|]. apply IH in H. congruence. }
  destruct (last_get String.eqb items k) eqn:E.
  - split; [intros _; right; apply L; discriminate|discriminate].
  - split; [tauto|]. intros [H|H]; [assumption|]. apply L in H. congruence.
Qed.

(** All datasets. *)
Lemma dsets_loop_ok {V} d : forall (dsets : list (dset V)) maxs c out, good_dsets dsets -> length maxs = length dsets -> Forall (fun m => (0 <= m)%Z) maxs ->
  exists idss itemss c', dsets_loop d (combine dsets maxs) c out = Ok (od_update String.eqb out (concat itemss), c') /\
    length idss = length dsets /\ length itemss = length dsets /\
    forall i ds m, nth_error dsets i = Some ds -> nth_error maxs i = Some m -> exists ids items, nth_error idss i = Some ids /\ nth_error itemss i = Some items /\
      Forall2 (picked ids) ds items /\ forall n, equal_columns ds n -> ds <> [] -> Z.of_nat (length ids) = Z.min (Z.of_nat n) m /\ Forall (fun t => t < n) ids.
Proof.
  induction dsets as [|ds dsets IH]; intros [|m maxs] c out Hg Hl Hm; cbn in Hl; try discriminate.
  - exists [], [], c. split; [reflexivity|]. split; [reflexivity|]. split; [reflexivity|]. intros [|i] ds m; discriminate.
  - inversion_clear Hg as [|? ? [Nd [n He]] Hg']. inversion_clear Hm as [|? ? Hm0 Hm'].
    destruct (cols_loop_none d m n ds c out He Hm0) as (ids & items & c1 & E & F & Hi).
    destruct (IH maxs c1 (od_update String.eqb out items) Hg' ltac:(congruence) Hm') as (idss & itemss & c2 & E2 & L1 & L2 & H).
    exists (ids :: idss), (items :: itemss), c2. cbn [combine dsets_loop]. rewrite E. cbn [bind]. rewrite E2.
    split; [cbn [concat]; rewrite od_update_app; reflexivity|]. split; [cbn; congruence|]. split; [cbn; congruence|].
    intros [|i] ds' m' Hd Hmm; cbn [nth_error] in *.
    + assert (ds' = ds) by congruence. assert (m' = m) by congruence. subst. exists ids, items. split; [reflexivity|]. split; [reflexivity|]. split; [assumption|].
      intros n' He' Hne. assert (n' = n). { destruct ds as [|[k v] ds]; [congruence|]. pose proof (He' k v (or_introl eq_refl)). pose proof (He k v (or_introl eq_refl)). congruence. }
      subst. auto.
    + apply H; assumption.
Qed.
Lemma last_get_concat {V} : forall (itemss : list (list (string * V))) i items k r, nth_error itemss i = Some items -> last_get String.eqb items k = Some r ->
  (forall j items', i < j -> nth_error itemss j = Some items' -> ~ In k (map fst items')) -> last_get String.eqb (concat itemss) k = Some r.
Proof.
  induction itemss as [|it itemss IH]; intros i items k r Hi Hk Hl; [destruct i; discriminate|]. cbn [concat]. rewrite last_get_app.
  destruct i as [|i]; cbn [nth_error] in Hi.
  - assert (it = items) by congruence. subst. rewrite last_get_None; [assumption|]. intros Hin. rewrite concat_map in Hin. apply in_concat in Hin.
    destruct Hin as (ks & Hks & Hin). apply in_map_iff in Hks. destruct Hks as (it' & <- & Hit). apply In_nth_error in Hit. destruct Hit as [j Hj].
    apply (Hl (S j) it'); [lia|exact Hj|assumption].
  - rewrite (IH i items k r Hi Hk); [reflexivity|]. intros j items' Hj Hn. apply (Hl (S j)); [lia|exact Hn].
Qed.
Lemma resample_ok {V} d (dsets : list (dset V)) maxs c : good_dsets dsets -> length maxs = length dsets -> Forall (fun m => (0 <= m)%Z) maxs ->
  exists out c', resample d dsets (Some maxs) c = Ok (out, c') /\ resampling_of dsets maxs out.
Proof.
  intros Hg Hl Hm. unfold resample. rewrite Hl, Nat.eqb_refl.
  destruct (dsets_loop_ok d dsets maxs c [] Hg Hl Hm) as (idss & itemss & c' & E & L1 & L2 & H).
  exists (od_update String.eqb [] (concat itemss)), c'. split; [exact E|]. exists idss. split; [assumption|]. split.
  - intros i ds mx Hi Hmx. destruct (H i ds mx Hi Hmx) as (ids & items & Hid & Hit & F & Hn). exists ids. split; [assumption|].
    unfold good_dsets in Hg. rewrite Forall_forall in Hg. destruct (Hg ds (nth_error_In _ _ Hi)) as (Nd & n & He). intros k v Hkv.
    assert (Hne : ds <> []) by (intros ->; contradiction). destruct (Hn n He Hne) as [A B]. rewrite (He k v Hkv). split; [assumption|]. split; [assumption|].
    intros Hlater. destruct (picked_last ids ds items k v F Nd Hkv) as (rows & Er & Rr). exists rows. split; [|assumption].
    rewrite (od_get_update String.eqb String.eqb_spec). rewrite (last_get_concat itemss i items k rows Hit Er); [reflexivity|].
    intros j items' Hj Hit'. assert (Lj : j < length dsets) by (rewrite <- L2; apply nth_error_Some; congruence).
    destruct (nth_error dsets j) as [ds'|] eqn:Ed; [|apply nth_error_None in Ed; lia].
    destruct (nth_error maxs j) as [mj|] eqn:Em; [|apply nth_error_None in Em; lia].
    destruct (H j ds' mj Ed Em) as (ids' & it2 & _ & Hit2 & F2 & _). assert (it2 = items') by congruence. subst. rewrite (picked_keys _ _ _ F2).
    apply (Hlater j ds' Hj). assumption.
  - intros k. rewrite keys_update. cbn [map In]. rewrite concat_map, in_concat. split.
    + intros [[]|(ks & Hks & Hk)]. apply in_map_iff in Hks. destruct Hks as (items & <- & Hit). apply In_nth_error in Hit. destruct Hit as [i Hi].
      assert (Li : i < length dsets) by (rewrite <- L2; apply nth_error_Some; congruence).
      destruct (nth_error dsets i) as [ds|] eqn:Ed; [|apply nth_error_None in Ed; lia].
      destruct (nth_error maxs i) as [m|] eqn:Em; [|apply nth_error_None in Em; lia].
      destruct (H i ds m Ed Em) as (ids & it2 & _ & Hit2 & F & _). assert (it2 = items) by congruence. subst. rewrite (picked_keys _ _ _ F) in Hk.
      exists ds. split; [eapply nth_error_In; eassumption|assumption].
    + intros (ds & Hds & Hk). right. apply In_nth_error in Hds. destruct Hds as [i Hi]. destruct (nth_error maxs i) as [m|] eqn:Em.
      * destruct (H i ds m Hi Em) as (ids & items & _ & Hit & F & _). exists (map fst items). split; [apply in_map; eapply nth_error_In; eassumption|].
        rewrite (picked_keys _ _ _ F). assumption.
      * apply nth_error_None in Em. assert (i < length dsets) by (apply nth_error_Some; congruence). lia.
Qed.
Lemma resample_none {V} d (dsets : list (dset V)) c : resample d dsets None c = resample d dsets (Some (map (fun _ => (2 ^ 60)%Z) dsets)) c.
Proof. reflexivity. Qed.

(** ** The statistics *)
Lemma Qsum_qmean l : l <> [] -> (qmean l * inject_Z (Z.of_nat (length l)) == Qsum l)%Q.
Proof.
  intros H. unfold qmean. field. intros E. assert ((0 < inject_Z (Z.of_nat (length l)))%Q) by (apply inject_pos; destruct l; [congruence|cbn; lia]). lra.
Qed.
Lemma od_mem_set {V} (acc : list (string * V)) k v k' : od_mem String.eqb (set_ acc k v) k' = String.eqb k' k || od_mem String.eqb acc k'.
Proof. unfold od_mem. rewrite (od_get_set String.eqb String.eqb_spec). destruct (String.eqb k' k); reflexivity. Qed.
Lemma append_inj_r : forall a b s, (a ++ s = b ++ s)%string -> a = b.
Proof.
  assert (L : forall a b, String.length (a ++ b) = String.length a + String.length b) by (induction a; intros; cbn; auto).
  induction a as [|c a IH]; intros [|e b] s H; cbn [append] in H; auto.
  - apply (f_equal String.length) in H. cbn [String.length] in H. rewrite L in H. lia.
  - apply (f_equal String.length) in H. cbn [String.length] in H. rewrite L in H. lia.
  - injection H as -> H. f_equal. eapply IH. eassumption.
Qed.

Lemma boot_loop_spec {V C} (f : nat -> kwargs V C -> result (list (string * Q))) d (dsets : list (dset V)) maxs kw0 : forall n i c calls,
  boot_loop f d n i (Again dsets) (option_map Again maxs) kw0 c = Ok calls ->
  length calls = n /\ forall j kw o, nth_error calls j = Some (kw, o) -> f (i + j) kw = Ok o /\
    exists out cj cj', resample d dsets maxs cj = Ok (out, cj') /\
      kw = od_update String.eqb (map (fun '(k, v) => (k, Col v)) out) (map (fun '(k, x) => (k, Const x)) kw0).
Proof.
  induction n as [|n IH]; intros i c calls H; cbn [boot_loop read] in H.
  - apply Ok_inj in H. subst. split; [reflexivity|]. intros [|j] kw o; discriminate.
  - replace (option_map (fun m => fst (read m)) (option_map Again maxs)) with maxs in H by (destruct maxs; reflexivity).
    replace (option_map (fun m => snd (read m)) (option_map (@Again Z) maxs)) with (option_map (@Again Z) maxs) in H by (destruct maxs; reflexivity).
    destruct (resample d dsets maxs c) as [[out c1]|] eqn:Er; [|discriminate]. cbn [bind] in H.
    destruct (f i _) as [o|] eqn:Ef; [|discriminate]. cbn [bind] in H.
    destruct (boot_loop f d n (S i) (Again dsets) (option_map Again maxs) kw0 c1) as [rest|] eqn:Eb; [|discriminate]. cbn [bind] in H. apply Ok_inj in H. subst calls.
    destruct (IH _ _ _ Eb) as [L N]. split; [cbn; congruence|]. intros [|j] kw o' Hj; cbn [nth_error] in Hj.
    + injection Hj as <- <-. rewrite Nat.add_0_r. split; [assumption|]. exists out, c, c1. split; [assumption|reflexivity].
    + replace (i + S j) with (S i + j) by lia. apply N. assumption.
Qed.
Lemma boot_loop_total {V C} (f : nat -> kwargs V C -> result (list (string * Q))) d (dsets : list (dset V)) maxs kw0 :
  (forall i kw, exists o, f i kw = Ok o) -> (forall c, exists out c', resample d dsets maxs c = Ok (out, c')) ->
  forall n i c, exists calls, boot_loop f d n i (Again dsets) (option_map Again maxs) kw0 c = Ok calls.
Proof.
  intros Hf Hr. induction n as [|n IH]; intros i c; cbn [boot_loop read]; [eauto|].
  replace (option_map (fun m => fst (read m)) (option_map Again maxs)) with maxs by (destruct maxs; reflexivity).
  replace (option_map (fun m => snd (read m)) (option_map (@Again Z) maxs)) with (option_map (@Again Z) maxs) by (destruct maxs; reflexivity).
  destruct (Hr c) as (out & c' & E). rewrite E. cbn [bind].
  match goal with |- context [f i ?kw] => destruct (Hf i kw) as [o Eo]; rewrite Eo end. cbn [bind].
  destruct (IH (S i) c') as [calls Ec]. rewrite Ec. cbn [bind]. eauto.
Qed.

(** Names written for one key. *)
Definition names_of (keep : bool) (k : string) : list string :=
  [k; (k ++ "_sd")%string] ++ (if keep then [(k ++ "_samples")%string] else []).
Lemma add_key_spec keep outs acc k res : add_key keep outs acc k = Ok res -> exists vals, column outs k vals /\
  res = (let acc := set_ (set_ acc k (Num (qmean vals))) (k ++ "_sd")%string (Root (qvar vals)) in
         if keep then set_ acc (k ++ "_samples")%string (Samples vals) else acc).
Proof.
  unfold add_key. destruct (mapM (fun o => match get_ o k with Some q => Ok q | None => Err KeyError end) outs) as [vals|] eqn:E; [|discriminate]. cbn [bind]. intros H. apply Ok_inj in H. exists vals. split; [|symmetry; assumption].
  apply mapM_Ok in E. unfold column. clear H. induction E as [|o q outs vals Ho _ IH]; constructor; [|assumption]. destruct (get_ o k); congruence.
Qed.
Lemma neq_app_sd k : k <> (k ++ "_sd")%string.
Proof.
  intros E. apply (f_equal String.length) in E. assert (L : forall a b, String.length (a ++ b) = String.length a + String.length b) by (induction a; intros; cbn; auto).
  rewrite L in E. cbn in E. lia.
Qed.
Lemma neq_app_samples k : k <> (k ++ "_samples")%string.
Proof.
  intros E. apply (f_equal String.length) in E. assert (L : forall a b, String.length (a ++ b) = String.length a + String.length b) by (induction a; intros; cbn; auto).
  rewrite L in E. cbn in E. lia.
Qed.
Fixpoint last_char (s : string) : option ascii := match s with EmptyString => None | String c EmptyString => Some c | String _ s' => last_char s' end.
Lemma last_char_app : forall a s, s <> EmptyString -> last_char (a ++ s) = last_char s.
Proof.
  induction a as [|c a IH]; intros s H; [reflexivity|]. cbn [append last_char]. destruct (a ++ s)%string as [|c' t] eqn:E.
  - destruct a; [cbn in E; congruence|discriminate].
  - rewrite <- E. apply IH. assumption.
Qed.
Lemma sd_not_samples a b : (a ++ "_sd")%string <> (b ++ "_samples")%string.
Proof. intros E. apply (f_equal last_char) in E. rewrite !last_char_app in E by discriminate. discriminate. Qed.

Lemma add_keys_other keep outs : forall keys acc res name, add_keys keep outs acc keys = Ok res -> (forall k, In k keys -> ~ In name (names_of keep k)) ->
  get_ res name = get_ acc name.
Proof.
  induction keys as [|k keys IH]; intros acc res name H Hn; cbn [add_keys] in H; [apply Ok_inj in H; subst; reflexivity|].
  destruct (add_key keep outs acc k) as [acc1|] eqn:E; [|discriminate]. cbn [bind] in H. rewrite (IH _ _ _ H) by (intros; apply Hn; right; assumption).
  destruct (add_key_spec _ _ _ _ _ E) as (vals & _ & ->). assert (N := Hn k (or_introl eq_refl)). unfold names_of in N. cbn [app In] in N.
  cbn zeta. destruct keep; cbn [In] in N; rewrite ?(od_get_set String.eqb String.eqb_spec);
    repeat match goal with |- context [String.eqb name ?x] => destruct (String.eqb_spec name x) as [->|]; [exfalso; tauto|] end; reflexivity.
Qed.
Lemma add_keys_spec keep outs : forall keys acc res key, add_keys keep outs acc keys = Ok res -> clean keys -> In key keys ->
  exists vals, column outs key vals /\ get_ res key = Some (Num (qmean vals)) /\ get_ res (key ++ "_sd")%string = Some (Root (qvar vals)) /\
    (keep = true -> get_ res (key ++ "_samples")%string = Some (Samples vals)).
Proof.
  induction keys as [|k keys IH]; intros acc res key H Hc Hin; [contradiction|]. cbn [add_keys] in H.
  destruct (add_key keep outs acc k) as [acc1|] eqn:E; [|discriminate]. cbn [bind] in H.
  assert (Hc' : clean keys) by (intros a b Ha Hb; apply Hc; right; assumption).
  destruct (in_dec string_dec key keys) as [I|I]; [apply (IH _ _ _ H Hc' I)|]. destruct Hin as [->|Hin]; [|contradiction].
  destruct (add_key_spec _ _ _ _ _ E) as (vals & Hv & Ea). exists vals. split; [assumption|].
  assert (O : forall name, In name (names_of true key) -> (forall k', In k' keys -> ~ In name (names_of keep k')) -> get_ res name = get_ acc1 name)
    by (intros name _ Hn; apply (add_keys_other keep outs keys acc1); assumption).
  assert (D : forall k', In k' keys -> k' <> key) by (intros k' Hk' ->; contradiction).
  assert (N1 : forall k', In k' keys -> ~ In key (names_of keep k')).
  { intros k' Hk'. destruct (Hc key k' (or_introl eq_refl) (or_intror Hk')). unfold names_of. destruct keep; cbn [app In]; specialize (D k' Hk'); intuition congruence. }
  assert (N2 : forall k', In k' keys -> ~ In (key ++ "_sd")%string (names_of keep k')).
  { intros k' Hk'. destruct (Hc k' key (or_intror Hk') (or_introl eq_refl)). specialize (D k' Hk'). unfold names_of.
    destruct keep; cbn [app In]; intros [X|[X|X]]; try congruence; try (apply append_inj_r in X; congruence); destruct X as [X|[]]; symmetry in X; apply sd_not_samples in X; assumption. }
  assert (N3 : forall k', In k' keys -> ~ In (key ++ "_samples")%string (names_of keep k')).
  { intros k' Hk'. destruct (Hc k' key (or_intror Hk') (or_introl eq_refl)). specialize (D k' Hk'). unfold names_of.
    destruct keep; cbn [app In]; intros [X|[X|X]]; try congruence; try (apply sd_not_samples in X; assumption). destruct X as [X|[]]. apply append_inj_r in X. congruence. }
  rewrite (O key), (O (key ++ "_sd")%string), (O (key ++ "_samples")%string) by (auto; unfold names_of; cbn [app In]; auto).
  pose proof (neq_app_sd key) as K1. pose proof (neq_app_samples key) as K2. pose proof (sd_not_samples key key) as K3.
  subst acc1. cbn zeta. destruct keep; rewrite ?(od_get_set String.eqb String.eqb_spec), ?String.eqb_refl.
  - rewrite (proj2 (String.eqb_neq key (key ++ "_samples"))) by assumption. rewrite (proj2 (String.eqb_neq key (key ++ "_sd"))) by assumption.
    rewrite (proj2 (String.eqb_neq (key ++ "_sd") (key ++ "_samples"))) by assumption. auto.
  - rewrite (proj2 (String.eqb_neq key (key ++ "_sd"))) by assumption. repeat split; try discriminate; reflexivity.
Qed.
Lemma add_keys_total keep outs : forall keys acc, (forall k o, In k keys -> In o outs -> get_ o k <> None) -> exists res, add_keys keep outs acc keys = Ok res.
Proof.
  induction keys as [|k keys IH]; intros acc H; cbn [add_keys]; [eauto|].
  assert (E : exists acc1, add_key keep outs acc k = Ok acc1).
  { unfold add_key. destruct (InterpProofs.mapM_ex (fun o => match get_ o k with Some q => Ok q | None => Err KeyError end) outs) as [vals Ev].
    - intros o Ho. specialize (H k o (or_introl eq_refl) Ho). destruct (get_ o k); [eauto|congruence].
    - rewrite Ev. cbn [bind]. eauto. }
  destruct E as [acc1 E]. rewrite E. cbn [bind]. apply IH. intros; apply H; [right|]; assumption.
Qed.
Lemma setdefault_fold : forall items acc k,
  get_ (fold_left setdefault items acc) k = match get_ acc k with Some v => Some v | None => get_ items k end.
Proof.
  induction items as [|[k' v'] items IH]; intros acc k; cbn [fold_left od_get]; [destruct (get_ acc k); reflexivity|].
  rewrite IH. unfold setdefault. cbn [fst snd]. unfold od_mem. destruct (get_ acc k') as [w|] eqn:E.
  - destruct (String.eqb_spec k k') as [->|N]; [rewrite E; reflexivity|reflexivity].
  - rewrite (od_get_set String.eqb String.eqb_spec). destruct (String.eqb_spec k k') as [->|N]; [rewrite E; reflexivity|reflexivity].
Qed.
Lemma kw_get {V C} (out : dset V) (kw0 : list (string * C)) k : NoDup (map fst kw0) ->
  get_ (od_update String.eqb (map (fun '(k, v) => (k, Col v)) out) (map (fun '(k, x) => (k, Const x)) kw0)) k =
  match get_ kw0 k with Some x => Some (Const x) | None => option_map Col (get_ out k) end.
Proof.
  intros Nd. rewrite (od_get_update String.eqb String.eqb_spec). rewrite (last_get_wf String.eqb String.eqb_spec).
  - assert (G : forall {A B} (f : A -> B) (l : list (string * A)), get_ (map (fun '(k, v) => (k, f v)) l) k = option_map f (get_ l k)).
    { clear. intros A B f. induction l as [|[k' v'] l IH]; cbn [map od_get]; [reflexivity|]. destruct (String.eqb k k'); [reflexivity|assumption]. }
    rewrite !G. destruct (get_ kw0 k); reflexivity.
  - unfold od_wf, od_keys. rewrite map_map. replace (map (fun x : string * C => fst (let '(k, x0) := x in (k, @Const V C x0))) kw0) with (map fst kw0); [assumption|].
    apply map_ext. intros [a b]. reflexivity.
Qed.
