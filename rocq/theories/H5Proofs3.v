(** Lemmas for C13-C19. *)
From Coq Require Import Sorted Permutation QArith.
From Verif Require Import Base Str OdictSpec H5Model H5Spec H5Proofs H5Proofs2.
Local Open Scope list_scope. Local Open Scope nat_scope.

(** ** C13 *)
Lemma broadcasts_dec s : forall d, {broadcasts s d} + {~ broadcasts s d}.
Proof.
  unfold broadcasts. induction s as [|a s IH]; intros [|b d]; [left; constructor|right; intros H; inversion H|right; intros H; inversion H|].
  destruct (IH d) as [Y|N].
  - destruct (Nat.eq_dec a b); [left; constructor; auto|]. destruct (Nat.eq_dec a 1); [left; constructor; auto|].
    right. intros H. inversion H; subst. tauto.
  - right. intros H. inversion H; subst. tauto.
Qed.
Lemma raw_write_spec d src d' : length (dat src) = prod (shp src) -> dset_ok d -> raw_write d src = Ok d' ->
  dt d' = dt d /\ shp d' = shp d /\ dset_ok d' /\
  (prod (shp d) = 0 -> d' = d) /\
  (prod (shp d) <> 0 -> exists s, align (shp src) (shp d) = Some s /\ broadcasts s (shp d) /\
     forall ix, in_range (shp d) ix -> exists e e', nth_error (dat src) (ravel s (bidx s ix)) = Some e /\
        conv (dt d) e = Some e' /\ elem_at d' ix = Some e').
Proof.
  intros Hs Hd H. destruct (raw_write_keeps _ _ _ H) as [H1 H2]. split; [assumption|]. split; [assumption|].
  unfold raw_write in H. destruct (Nat.eqb_spec (prod (shp d)) 0) as [E0|E0].
  - inversion H; subst. split; [assumption|]. split; [reflexivity|]. congruence.
  - unfold bcast in H. destruct (align (shp src) (shp d)) as [s|] eqn:Ea; [|discriminate].
    assert (Hl : length (dat src) = prod s) by (rewrite (align_prod _ _ _ Ea); assumption).
    assert (Hb : broadcasts s (shp d)).
    { assert (Hdec : {broadcasts s (shp d)} + {~ broadcasts s (shp d)}).
      { apply broadcasts_dec. }
      destruct Hdec as [|N]; [assumption|]. rewrite (bc_bad _ _ _ Hl E0 N) in H. discriminate. }
    destruct (bc_ok _ _ _ Hl Hb) as (r & Er & Hr & Hx). rewrite Er in H.
    destruct (conv_all (dt d) r) as [l'|] eqn:Ec; [|discriminate]. inversion H; subst d'. clear H. simpl in *.
    apply conv_all_spec in Ec. split; [|split; [congruence|]].
    + split; simpl; [rewrite <- (Forall2_length' _ _ _ Ec); assumption|].
      clear -Ec. induction Ec as [|e e' l l' Hc _ IH]; constructor; [eapply conv_fits; eassumption|assumption].
    + intros _. exists s. split; [reflexivity|]. split; [assumption|]. intros ix Hix.
      destruct (nth_error r (ravel (shp d) ix)) as [e|] eqn:En.
      * rewrite Hx in En by assumption. exists e.
        rewrite <- Hx in En by assumption. destruct (Forall2_nth_l _ _ _ _ _ Ec En) as (e' & He' & Hc).
        exists e'. split; [rewrite <- Hx by assumption; assumption|]. split; [assumption|exact He'].
      * exfalso. apply nth_error_None in En. pose proof (ravel_lt _ _ Hix). lia.
Qed.


Lemma raw_write_bad_shape d src : length (dat src) = prod (shp src) -> prod (shp d) <> 0 ->
  (forall s, align (shp src) (shp d) = Some s -> ~ broadcasts s (shp d)) -> raw_write d src = Err TypeError.
Proof.
  intros Hs H0 Hn. unfold raw_write. destruct (Nat.eqb_spec (prod (shp d)) 0); [congruence|].
  unfold bcast. destruct (align (shp src) (shp d)) as [s|] eqn:Ea; [|reflexivity].
  rewrite bc_bad; [reflexivity| |assumption|apply Hn; reflexivity]. rewrite (align_prod _ _ _ Ea). assumption.
Qed.

Lemma bidx_same sh : forall ix, in_range sh ix -> bidx sh ix = ix.
Proof.
  unfold in_range. induction sh as [|n sh IH]; intros ix H; inversion H as [|i ? ix' ? Hi Hx]; subst; [reflexivity|].
  cbn [bidx]. rewrite IH by assumption. destruct (Nat.eqb_spec n 1); [|reflexivity]. f_equal. lia.
Qed.
Lemma bc_same sh : forall l, length l = prod sh -> bc sh sh l = Some l.
Proof.
  induction sh as [|n sh IH]; intros l Hl; [reflexivity|]. cbn [bc]. rewrite Nat.eqb_refl. simpl in Hl.
  assert (E : omap_all (bc sh sh) (chunks n (prod sh) l) = Some (chunks n (prod sh) l)).
  { apply omap_all_spec. assert (Hc : forall c, In c (chunks n (prod sh) l) -> bc sh sh c = Some c).
    { intros c Hc. apply in_chunks in Hc. destruct Hc as (i & Hi & ->). apply IH. apply (chunk_length _ n); assumption. }
    induction (chunks n (prod sh) l); constructor; [apply Hc; left; reflexivity|]. apply IHl0. intros; apply Hc; right; assumption. }
  rewrite E. simpl. f_equal. clear E IH. revert l Hl. induction n as [|n IH]; intros l Hl; simpl in *.
  - destruct l; [reflexivity|discriminate].
  - rewrite IH; [apply firstn_skipn|]. rewrite skipn_length. lia.
Qed.
Lemma align_same sh : align sh sh = Some sh.
Proof. apply align_spec. split; [reflexivity|]. left. rewrite Nat.sub_diag. reflexivity. Qed.

Lemma raw_write_same_shape d src : length (dat src) = prod (shp src) -> shp src = shp d -> prod (shp d) <> 0 ->
  (forall l, Forall2 (fun e e' => conv (dt d) e = Some e') (dat src) l ->
     raw_write d src = Ok {| dt := dt d; shp := shp d; dat := l |}) /\
  ((exists e, In e (dat src) /\ conv (dt d) e = None) -> raw_write d src = Err TypeError).
Proof.
  intros Hs He H0. unfold raw_write. destruct (Nat.eqb_spec (prod (shp d)) 0); [congruence|].
  unfold bcast. rewrite He, align_same, bc_same by congruence. split.
  - intros l Hl. apply conv_all_spec in Hl. rewrite Hl. reflexivity.
  - intros Hc. apply conv_all_None in Hc. rewrite Hc. reflexivity.
Qed.
(** Exact read-back for representable data. *)
Lemma raw_write_exact d src : length (dat src) = prod (shp src) -> shp src = shp d -> length (dat d) = prod (shp d) ->
  Forall (fits (dt d)) (dat src) -> raw_write d src = Ok {| dt := dt d; shp := shp d; dat := dat src |}.
Proof.
  intros Hs He Hd Hf. destruct (Nat.eq_dec (prod (shp d)) 0) as [E0|E0].
  - unfold raw_write. rewrite E0. simpl. destruct d as [t s l]; simpl in *. rewrite He, E0 in Hs. rewrite E0 in Hd.
    destruct l; [|discriminate]. destruct (dat src); [|discriminate]. reflexivity.
  - apply (raw_write_same_shape d src Hs He E0). clear -Hf. induction Hf; constructor; [apply fits_conv|]; assumption.
Qed.

(** ** C16: datasets *)
Lemma ds_get_find h g k i : raw_find h g k = Some i ->
  ds_get h g k = match dset_of h i with Some d => Ok d | None => Err KeyError end.
Proof. unfold ds_get. intros ->. reflexivity. Qed.

Lemma set_dset_get h i d d' j : dset_of h i = Some d ->
  dset_of (set_body h i (BDset d')) j = if Nat.eqb j i then Some d' else dset_of h j.
Proof.
  intros Hd. destruct (dset_of_Some _ _ _ Hd) as [a Ha]. destruct (Nat.eqb_spec j i) as [->|N].
  - unfold dset_of. rewrite (nth_set_body_same _ _ _ _ Ha). reflexivity.
  - apply dset_of_eq. apply nth_set_body_other. congruence.
Qed.
Lemma set_dset_links h i d d' j : dset_of h i = Some d -> links_of (set_body h i (BDset d')) j = links_of h j.
Proof.
  intros Hd. destruct (dset_of_Some _ _ _ Hd) as [a Ha]. destruct (Nat.eq_dec i j) as [<-|N].
  - rewrite (dset_not_links _ _ _ Hd). unfold links_of. rewrite (nth_set_body_same _ _ _ _ Ha). reflexivity.
  - apply links_of_eq. apply nth_set_body_other. assumption.
Qed.
Lemma resolve_links_eq h h' : (forall j, links_of h j = links_of h' j) -> forall nl g ss, resolve nl h g ss = resolve nl h' g ss.
Proof.
  intros He. induction nl as [|nl IHn]; intros g ss; revert g; induction ss as [|s ss IH]; intros g; rewrite ?resolve_nil, ?resolve_unfold; auto;
    rewrite He; destruct (links_of h' g) as [ls|]; auto; destruct (sget ls s) as [[]|]; auto.
Qed.
Lemma set_dset_find h i d d' g k : dset_of h i = Some d -> raw_find (set_body h i (BDset d')) g k = raw_find h g k.
Proof.
  intros Hd. unfold raw_find. rewrite set_body_length.
  rewrite (resolve_links_eq (set_body h i (BDset d')) h) by (intros j; eapply set_dset_links; eassumption). reflexivity.
Qed.

Lemma ds_set_spec h g k v :
  (forall e, ds_get h g k = Err e -> ds_set h g k v = (Err KeyError, h)) /\
  (forall d, ds_get h g k = Ok d ->
     (stored_as v = None -> ds_set h g k v = (Err TypeError, h)) /\
     (forall src e, stored_as v = Some src -> raw_write d src = Err e -> ds_set h g k v = (Err e, h)) /\
     (forall src d', stored_as v = Some src -> raw_write d src = Ok d' ->
        exists h', ds_set h g k v = (Ok tt, h') /\ ds_get h' g k = Ok d' /\ dt d' = dt d /\ shp d' = shp d /\
          (forall g2 k2, raw_find h' g2 k2 = raw_find h g2 k2) /\
          (forall j, raw_find h g k <> Some j -> nth_error h' j = nth_error h j) /\
          grows h h')).
Proof.
  unfold ds_set, ds_get. destruct (raw_find h g k) as [i|] eqn:Ef.
  2:{ split; [reflexivity|discriminate]. }
  destruct (dset_of h i) as [d0|] eqn:Ed; [|split; [reflexivity|discriminate]].
  split; [discriminate|]. intros d Hd. inversion Hd; subst d0. split; [|split].
  - intros ->. reflexivity.
  - intros src e -> ->. reflexivity.
  - intros src d' -> Hw. rewrite Hw. destruct (raw_write_keeps _ _ _ Hw). eexists. split; [reflexivity|].
    rewrite (set_dset_find _ _ _ _ _ _ Ed), Ef. rewrite (set_dset_get _ _ _ _ _ Ed), Nat.eqb_refl.
    split; [reflexivity|]. split; [assumption|]. split; [assumption|]. split; [|split].
    + intros. apply (set_dset_find _ _ _ _ _ _ Ed).
    + intros j Hj. apply nth_set_body_other. congruence.
    + eapply evolves_set_dset; eassumption.
Qed.

Lemma ds_create_new h g k ls v d flag : valid_flag flag = true -> plain k -> links_of h g = Some ls -> sget ls k = None ->
  stored_as v = Some d -> exists i h', ds_create h g k v flag = (Ok i, h') /\ ds_get h' g k = Ok d /\ extends h h' /\
    (forall j, j < length h -> j <> g -> nth_error h' j = nth_error h j).
Proof.
  intros Hf Hp Hl Hn Hs. unfold ds_create. rewrite Hf. simpl. rewrite (plain_find _ _ _ _ Hp Hl), Hn, Hs. simpl.
  destruct (raw_create h g k (Some (BDset d))) as [r h'] eqn:E.
  pose proof (raw_create_extends _ _ _ _ _ _ E) as Hx.
  pose proof E as E'. rewrite (plain_create _ _ _ _ (BDset d) Hp Hl Hn) in E'. inversion E'; subst r.
  exists (length h), h'. split; [rewrite H1; reflexivity|]. apply raw_create_new_find in E; [|assumption].
  split; [|split; [assumption|]].
  - rewrite (ds_get_find _ _ _ _ E). rewrite <- H1. unfold dset_of. rewrite nth_error_app2 by (rewrite set_body_length; lia).
    rewrite set_body_length, Nat.sub_diag. reflexivity.
  - intros j Hj Hne. rewrite <- H1. rewrite nth_error_app1 by (rewrite set_body_length; assumption). apply nth_set_body_other. congruence.
Qed.

Lemma ds_create_empty_extends h g k sh t flag r h' : ds_create_empty h g k sh t flag = (r, h') -> extends h h'.
Proof.
  unfold ds_create_empty. destruct (valid_flag flag); simpl; [|intros H; inversion H; apply evolves_refl].
  destruct (ds_contains h g k).
  - destruct (String.eqb flag "x"); intros H; inversion H; apply evolves_refl.
  - apply raw_create_extends.
Qed.

Lemma ds_existing_x h g k v i flag : raw_find h g k = Some i -> flag <> "ac"%string -> flag <> "ca"%string ->
  ds_create h g k v flag = (Err ValueError, h) /\ create_group h g k flag = (Err ValueError, h).
Proof.
  intros Hi N1 N2. unfold ds_create, create_group. rewrite Hi. destruct (valid_flag flag) eqn:Ev; simpl; [|auto].
  destruct (sspec flag "x"%string); [auto|]. apply valid_flag_spec in Ev. tauto.
Qed.
Lemma ds_existing_ac h g k v i flag : flag = "ac"%string \/ flag = "ca"%string -> raw_find h g k = Some i ->
  (forall d, dset_of h i = Some d ->
     fst (ds_create h g k v flag) = match fst (ds_set h g k v) with Ok _ => Ok i | Err e => Err e end /\
     snd (ds_create h g k v flag) = snd (ds_set h g k v)) /\
  (dset_of h i = None -> ds_create h g k v flag = (Err ValueError, h)).
Proof.
  intros Hf Hi. assert (Hv : valid_flag flag = true) by (apply valid_flag_spec; tauto).
  assert (Hx : String.eqb flag "x" = false) by (destruct Hf; subst; reflexivity).
  unfold ds_create, ds_set. rewrite Hv, Hi, Hx. simpl. split.
  - intros d ->. destruct (stored_as v) as [s|]; [|auto]. destruct (raw_write d s); auto.
  - intros ->. reflexivity.
Qed.

Lemma ds_keys_spec h g ls : file_ok h -> links_of h g = Some ls ->
  (forall k l, In (k, l) ls -> exists i, raw_get h g k = Ok i) ->
  exists ks, ds_keys h g = Ok ks /\ StronglySorted name_lt ks /\
    forall k, In k ks <-> In k (map fst ls) /\ exists d, ds_get h g k = Ok d.
Proof.
  intros Hok Hl Hall. unfold ds_keys. rewrite Hl.
  assert (Hp : forall x, In x ls -> exists y : string * nat, fst y = fst x /\ raw_get h g (fst x) = Ok (snd y)).
  { intros [k l] Hin. destruct (Hall _ _ Hin) as [i Hi]. exists (k, i). auto. }
  apply Forall_pick in Hp. destruct Hp as [ys Hys].
  assert (E : mapM (fun x : string * link => rmap (pair (fst x)) (raw_get h g (fst x))) ls = Ok ys).
  { apply mapM_Ok. clear -Hys. induction Hys as [|x [k i] l l' (E & G) _ IH]; constructor; [|assumption].
    simpl in *. rewrite G. simpl. congruence. }
  rewrite E. simpl. eexists. split; [reflexivity|]. destruct (proj2 Hok _ _ Hl) as [Hsort _].
  assert (Hk : map fst ys = map fst ls).
  { clear -Hys. induction Hys as [|x [k i] l l' (E & G) _ IH]; simpl in *; congruence. }
  split.
  - rewrite <- Hk in Hsort. clear -Hsort. induction ys as [|[k i] ys IH]; simpl in *; [constructor|].
    inversion Hsort as [|? ? Hs Ha]; subst. specialize (IH Hs). destruct (is_dset h i); [|assumption].
    simpl. constructor; [assumption|]. rewrite Forall_forall in *. intros x Hx. apply Ha. apply in_map_iff in Hx.
    destruct Hx as (y & <- & Hy). apply filter_In in Hy. apply in_map. tauto.
  - assert (Hr : forall k i, In (k, i) ys -> raw_find h g k = Some i).
    { clear -Hys. induction Hys as [|x [k0 i0] l l' (E & G) _ IH]; intros k i H; [destruct H|]. destruct H as [H|H]; [|auto].
      inversion H; subst. simpl in *. subst. apply raw_get_Ok. assumption. }
    intros k. rewrite in_map_iff. split.
    + intros ([k0 i] & <- & Hin). apply filter_In in Hin. destruct Hin as [Hin Hd]. simpl in *. split.
      * rewrite <- Hk. apply (in_map fst) in Hin. assumption.
      * rewrite (ds_get_find _ _ _ _ (Hr _ _ Hin)). unfold is_dset in Hd. destruct (dset_of h i); [eauto|discriminate].
    + intros [Hin [d Hd]]. rewrite <- Hk in Hin. apply in_map_iff in Hin. destruct Hin as ([k0 i] & Ek & Hin). simpl in Ek. subst k0.
      exists (k, i). split; [reflexivity|]. apply filter_In. split; [assumption|]. simpl.
      rewrite (ds_get_find _ _ _ _ (Hr _ _ Hin)) in Hd. unfold is_dset. destruct (dset_of h i); [reflexivity|discriminate].
Qed.

(** ** C16: attributes *)
Lemma set_attrs_get h i a j : i < length h -> attrs_of (set_attrs h i a) j = if Nat.eqb j i then a else attrs_of h j.
Proof.
  intros Hi. unfold attrs_of, set_attrs. destruct (nth_error h i) as [o|] eqn:E; [|apply nth_error_None in E; lia].
  destruct (Nat.eqb_spec j i) as [->|N]; [rewrite upd_nth_same by assumption; reflexivity|].
  rewrite upd_nth_other by congruence. reflexivity.
Qed.
Lemma set_attrs_bdy h i a j : option_map bdy (nth_error (set_attrs h i a) j) = option_map bdy (nth_error h j).
Proof.
  unfold set_attrs. destruct (nth_error h i) as [o|] eqn:E; [|reflexivity]. destruct (Nat.eq_dec i j) as [<-|N].
  - rewrite upd_nth_same by (apply nth_error_Some; congruence). rewrite E. reflexivity.
  - rewrite upd_nth_other by assumption. reflexivity.
Qed.


Lemma effect_set h i k d d' : attr_get h i k = Ok d -> attr_effect h (set_attrs h i (od_set String.eqb (attrs_of h i) k d')) i k d'.
Proof.
  intros Hd. assert (Hi : i < length h).
  { unfold attr_get, attrs_of in Hd. apply nth_error_Some. destruct (nth_error h i); [congruence|discriminate]. }
  unfold attr_effect, attr_get. split; [|split; [|split]].
  - rewrite set_attrs_get, Nat.eqb_refl by assumption. rewrite (od_get_set_same String.eqb sspec). reflexivity.
  - intros k2 N. rewrite set_attrs_get, Nat.eqb_refl by assumption. rewrite (od_get_set_other String.eqb sspec) by assumption. reflexivity.
  - intros j k2 N. rewrite set_attrs_get by assumption. destruct (Nat.eqb_spec j i); [congruence|reflexivity].
  - intros j. apply set_attrs_bdy.
Qed.
Lemma effect_ins h i k d' : i < length h -> attr_get h i k = Err KeyError -> attr_effect h (set_attrs h i (ins (attrs_of h i) k d')) i k d'.
Proof.
  intros Hi Hn. unfold attr_get in Hn. destruct (sget (attrs_of h i) k) eqn:E; [discriminate|].
  unfold attr_effect, attr_get. split; [|split; [|split]].
  - rewrite set_attrs_get, Nat.eqb_refl by assumption. rewrite ins_get_same by assumption. reflexivity.
  - intros k2 N. rewrite set_attrs_get, Nat.eqb_refl by assumption. rewrite ins_get_other by assumption. reflexivity.
  - intros j k2 N. rewrite set_attrs_get by assumption. destruct (Nat.eqb_spec j i); [congruence|reflexivity].
  - intros j. apply set_attrs_bdy.
Qed.
Lemma raw_modify_keeps d s d' : raw_modify d s = Ok d' -> dt d' = dt d /\ shp d' = shp d /\
  Forall2 (fun e e' => conv (dt d) e = Some e') (dat s) (dat d') /\ (shp s = shp d \/ prod (shp s) = 1 /\ prod (shp d) = 1).
Proof.
  unfold raw_modify. destruct (_ || _) eqn:Eo; [|discriminate].
  destruct (conv_all (dt d) (dat s)) as [l|] eqn:Ec; [|discriminate]. intros H; inversion H; simpl.
  apply conv_all_spec in Ec. split; [reflexivity|]. split; [reflexivity|]. split; [assumption|].
  apply orb_prop in Eo. destruct Eo as [Eo|Eo].
  - left. unfold shape_eqb in Eo. destruct (list_eq_dec Nat.eq_dec (shp s) (shp d)); [assumption|discriminate].
  - right. apply andb_prop in Eo. rewrite !Nat.eqb_eq in Eo. assumption.
Qed.

Lemma attr_set_spec h i k v :
  (attr_get h i k = Err KeyError -> attr_set h i k v = (Err KeyError, h)) /\
  (forall d, attr_get h i k = Ok d ->
     (forall e h', attr_set h i k v = (Err e, h') -> h' = h) /\
     (forall h', attr_set h i k v = (Ok tt, h') -> exists src d', stored_as v = Some src /\
        attr_effect h h' i k d' /\ dt d' = dt d /\ shp d' = shp d /\
        Forall2 (fun e e' => conv (dt d) e = Some e') (dat src) (dat d'))).
Proof.
  unfold attr_set. split.
  - unfold attr_get. destruct (sget (attrs_of h i) k); [discriminate|reflexivity].
  - intros d Hd. pose proof Hd as Hd'. unfold attr_get in Hd. destruct (sget (attrs_of h i) k) as [d0|] eqn:E; [|discriminate]. inversion Hd; subst d0.
    unfold attr_modify. destruct (stored_as v) as [s|]; [|split; intros; congruence].
    destruct (raw_modify d s) as [d'|e] eqn:Em; [|split; intros; congruence].
    split; [intros; congruence|]. intros h' H. inversion H; subst. destruct (raw_modify_keeps _ _ _ Em) as (A & B & C & _).
    exists s, d'. split; [reflexivity|]. split; [eapply effect_set; eassumption|]. auto.
Qed.
Lemma attr_create_spec h i k v flag : i < length h ->
  (valid_flag flag = false -> attr_create h i k v flag = (Err ValueError, h)) /\
  (forall e h', attr_create h i k v flag = (Err e, h') -> h' = h) /\
  (valid_flag flag = true -> attr_get h i k = Err KeyError -> forall d, stored_as v = Some d ->
     exists h', attr_create h i k v flag = (Ok tt, h') /\ attr_effect h h' i k d) /\
  (forall d, attr_get h i k = Ok d -> attr_create h i k v "x" = (Err ValueError, h)) /\
  (forall d, attr_get h i k = Ok d -> flag = "ac"%string \/ flag = "ca"%string -> attr_create h i k v flag = attr_set h i k v).
Proof.
  intros Hi. unfold attr_create, attr_set, attr_get. split; [|split; [|split; [|split]]].
  - intros ->. reflexivity.
  - intros e h'. destruct (valid_flag flag); simpl; [|congruence]. destruct (sget (attrs_of h i) k) as [d|].
    + destruct (String.eqb flag "x"); [congruence|]. unfold attr_modify. destruct (stored_as v); [|congruence].
      destruct (raw_modify d d0); congruence.
    + destruct (stored_as v); congruence.
  - intros -> Hn d Hs. simpl. destruct (sget (attrs_of h i) k) as [d0|] eqn:E; [discriminate|]. rewrite Hs.
    eexists. split; [reflexivity|]. apply effect_ins; [assumption|]. unfold attr_get. rewrite E. reflexivity.
  - intros d. destruct (sget (attrs_of h i) k); [reflexivity|discriminate].
  - intros d Hd Hf. assert (Hv : valid_flag flag = true) by (apply valid_flag_spec; tauto). rewrite Hv. simpl.
    destruct (sget (attrs_of h i) k); [|discriminate]. destruct Hf; subst; reflexivity.
Qed.
Lemma attr_create_empty_spec h i k sh t flag : i < length h ->
  (valid_flag flag = false -> attr_create_empty h i k sh t flag = (Err ValueError, h)) /\
  (forall d, attr_get h i k = Ok d -> snd (attr_create_empty h i k sh t flag) = h /\
     fst (attr_create_empty h i k sh t "x") = Err ValueError /\ fst (attr_create_empty h i k sh t "ac") = Ok tt) /\
  (attr_get h i k = Err KeyError -> valid_flag flag = true -> exists h' d, attr_create_empty h i k sh t flag = (Ok tt, h') /\
     attr_effect h h' i k d /\ dt d = t /\ shp d = sh /\ dat d = repeat (match t with TInt _ _ => EInt 0 | TFlt => EFlt 0 | TStr => EStr EmptyString end) (prod sh)).
Proof.
  intros Hi. unfold attr_create_empty. split; [|split].
  - intros ->. reflexivity.
  - unfold attr_get. intros d. destruct (sget (attrs_of h i) k); [|discriminate]. intros _.
    destruct (valid_flag flag); simpl; [|auto]. destruct (String.eqb flag "x"); auto.
  - intros Hn Hv. rewrite Hv. simpl. pose proof Hn as Hn'. unfold attr_get in Hn. destruct (sget (attrs_of h i) k); [discriminate|].
    eexists. eexists. split; [reflexivity|]. split; [apply effect_ins; assumption|]. auto.
Qed.
Lemma attr_keys_spec h i k : In k (attr_keys h i) <-> exists d, attr_get h i k = Ok d.
Proof.
  unfold attr_keys, attr_get. rewrite <- sget_In_key. destruct (sget (attrs_of h i) k); split; intros H; try congruence; eauto.
  destruct H. discriminate.
Qed.

(** ** C18 *)
Lemma create_link_extends h g k l flag r h' : create_link h g k l flag = (r, h') -> extends h h'.
Proof.
  unfold create_link. destruct (valid_flag flag); simpl; [|intros H; inversion H; apply evolves_refl].
  destruct (raw_in h g k).
  - destruct (String.eqb flag "x"); intros H; inversion H; apply evolves_refl.
  - apply raw_create_link_extends.
Qed.
Lemma create_link_spec h g k l flag ls : plain k -> links_of h g = Some ls ->
  (valid_flag flag = false -> create_link h g k l flag = (Err ValueError, h)) /\
  (valid_flag flag = true -> sget ls k = None -> exists h', create_link h g k l flag = (Ok tt, h') /\
     links_of h' g = Some (ins ls k l) /\ (forall j, j <> g -> nth_error h' j = nth_error h j)) /\
  (raw_in h g k = true -> create_link h g k l "x" = (Err ValueError, h) /\
     create_link h g k l "ac" = (Ok tt, h) /\ create_link h g k l "ca" = (Ok tt, h)) /\
  (* a member that is a dangling link *)
  (raw_in h g k = false -> sget ls k <> None -> forall flag, create_link h g k l flag = (Err ValueError, h)).
Proof.
  intros Hp Hl. unfold create_link. destruct (links_of_Some _ _ _ Hl) as [a Ha]. split; [|split; [|split]].
  - intros ->. reflexivity.
  - intros -> Hn. simpl. unfold raw_in. rewrite (plain_find _ _ _ _ Hp Hl), Hn.
    unfold raw_create_link. rewrite (plain_segs _ Hp). cbn [rev app mk_parents]. rewrite (plain_start _ _ Hp).
    unfold add_link. rewrite Hl, Hn. eexists. split; [reflexivity|]. split.
    + unfold links_of. rewrite (nth_set_body_same _ _ _ _ Ha). reflexivity.
    + intros j N. apply nth_set_body_other. congruence.
  - intros ->. auto.
  - intros Hr Hn f. rewrite Hr. destruct (valid_flag f); simpl; [|reflexivity].
    unfold raw_create_link. rewrite (plain_segs _ Hp). cbn [rev app mk_parents]. rewrite (plain_start _ _ Hp).
    unfold add_link. rewrite Hl. destruct (sget ls k); [reflexivity|congruence].
Qed.

(** ** C19 *)
Lemma load_selected_spec {V} (get : string -> result V) own m keys :
  let ks := match keys with None => own | Some l => l end in
  let sel := filter (fun k => match m with None => true | Some f => f k end) ks in
  (forall r, load_selected get own m keys = Ok r ->
     NoDup (map fst r) /\ (forall k v, In (k, v) r <-> In k sel /\ get k = Ok v) /\ (NoDup sel -> map fst r = sel)) /\
  ((exists r, load_selected get own m keys = Ok r) <-> forall k, In k sel -> exists v, get k = Ok v) /\
  (forall e, load_selected get own m keys = Err e -> exists k, In k sel /\ get k = Err e).
Proof.
  intros ks sel. unfold load_selected. fold ks.
  assert (Hsel : matched m ks = sel).
  { unfold matched, sel. destruct m; [reflexivity|]. induction ks as [|k l IH]; simpl; [reflexivity|]. f_equal. assumption. }
  rewrite Hsel. clearbody sel. clear Hsel ks.
  assert (Hm : forall items, mapM (fun k => rmap (pair k) (get k)) sel = Ok items <->
     Forall2 (fun k kv => fst kv = k /\ get k = Ok (snd kv)) sel items).
  { intros items. rewrite mapM_Ok. split; induction 1 as [|k [k' v] l l' H _ IH]; constructor; auto; simpl in *.
    - destruct (get k); inversion H; subst. auto.
    - destruct H as [-> ->]. reflexivity. }
  split; [|split].
  - intros r H. destruct (mapM _ sel) as [items|e] eqn:E; [|discriminate]. simpl in H. inversion H; subst r. clear H.
    pose proof (proj1 (Hm items) eq_refl) as E0. clear E. rename E0 into E. assert (Hwf : od_wf (od_update String.eqb [] items)) by (apply (od_wf_update String.eqb sspec), od_wf_nil).
    split; [exact Hwf|].
    assert (Hlast : forall k v, last_get String.eqb items k = Some v <-> In k sel /\ get k = Ok v).
    { clear Hwf Hm. intros k v. revert v. induction E as [|k0 [k1 v1] l l' [H1 H2] HF IH]; intros v; simpl in *.
      - split; [discriminate|]. intros [[] _].
      - subst k1. specialize (IH v). destruct (last_get String.eqb l' k) as [w|] eqn:El.
        + split; [intros Hw; destruct (proj1 IH Hw); auto|]. intros [[->|Hin] Hg]; [|apply IH; auto].
          assert (Hw : In k l /\ get k = Ok w).
          { clear -HF El. revert w El. induction HF as [|a [b c] l l' [A B] _ IHx]; intros w El; simpl in *; [discriminate|].
            subst b. destruct (last_get String.eqb l' k) eqn:E2; [destruct (IHx _ eq_refl); inversion El; subst; auto|].
            destruct (sspec k a); inversion El; subst; auto. }
          destruct Hw. congruence.
        + destruct (sspec k k0) as [->|N].
          * split; [intros Hv; inversion Hv; subst; auto|]. intros [_ Hg]. congruence.
          * split; [discriminate|]. intros [[->|Hin] Hg]; [congruence|]. apply IH. auto. }
    split.
    + intros k v. rewrite <- Hlast.
      pose proof (od_get_update String.eqb sspec items [] k) as Hu. simpl in Hu.
      split.
      * intros Hin. apply (od_In_get String.eqb sspec) in Hin; [|assumption]. rewrite Hu in Hin.
        destruct (last_get String.eqb items k); congruence.
      * intros Hv. apply (od_get_In String.eqb sspec). rewrite Hu, Hv. reflexivity.
    + intros Hnd. assert (Hk : map fst items = sel).
      { clear -E. induction E as [|a [b c] l l' [A B] _ IH]; simpl in *; [reflexivity|]. congruence. }
      rewrite (od_update_id String.eqb sspec); [assumption|]. unfold od_wf, od_keys. rewrite Hk. assumption.
  - split.
    + intros [r H]. destruct (mapM _ sel) as [items|e] eqn:E; [|discriminate]. pose proof (proj1 (Hm items) eq_refl) as E0. clear -E0. rename E0 into E.
      induction E as [|a [b c] l l' [A B] _ IH]; intros k Hk; [destruct Hk|destruct Hk as [<-|Hk]; eauto].
    + intros H. assert (Hp : forall k, In k sel -> exists kv, fst kv = k /\ get k = Ok (snd kv)).
      { intros k Hk. destruct (H k Hk) as [v Hv]. exists (k, v). auto. }
      apply Forall_pick in Hp. destruct Hp as [items Hi]. apply Hm in Hi. rewrite Hi. simpl. eauto.
  - intros e H. destruct (mapM _ sel) as [items|e'] eqn:E; [discriminate|]. simpl in H. inversion H; subst e'.
    apply mapM_Err in E. destruct E as (pre & k & suf & -> & _ & Hk). exists k. split; [apply in_app_iff; right; left; reflexivity|].
    destruct (get k); [discriminate|]. simpl in Hk. congruence.
Qed.

Lemma attr_rel_refl ns i h : attr_rel ns i h h.
Proof. split; [eauto|]. auto. Qed.
Lemma attr_rel_trans ns i a b c : attr_rel ns i a b -> attr_rel ns i b c -> attr_rel ns i a c.
Proof.
  intros (A1 & A2 & A3 & A4) (B1 & B2 & B3 & B4). split; [|split; [|split]].
  - intros k d H. destruct (A1 _ _ H) as (d1 & H1 & E1 & E2). destruct (B1 _ _ H1) as (d2 & H2 & E3 & E4). exists d2. split; [assumption|]. split; congruence.
  - intros k H. rewrite B2, A2 by assumption. reflexivity.
  - intros j k H. rewrite B3, A3 by assumption. reflexivity.
  - intros j. rewrite B4, A4. reflexivity.
Qed.
Lemma attr_effect_rel ns i h h' k d : In k ns -> attr_effect h h' i k d ->
  (forall d0, attr_get h i k = Ok d0 -> dt d = dt d0 /\ shp d = shp d0) -> attr_rel ns i h h'.
Proof.
  intros Hk (E1 & E2 & E3 & E4) Hd. split; [|split; [|split]]; [| |assumption|assumption].
  - intros k0 d0 H0. destruct (string_dec k0 k) as [->|N]; [exists d; split; [assumption|apply Hd; assumption]|].
    exists d0. rewrite E2 by assumption. auto.
  - intros k0 Hn. apply E2. intros ->. contradiction.
Qed.
Lemma attr_get_err h i k e : attr_get h i k = Err e -> e = KeyError.
Proof. unfold attr_get. destruct (sget _ _); intros H; inversion H; reflexivity. Qed.
Lemma attr_set_rel ns i h k v : In k ns -> attr_rel ns i h (snd (attr_set h i k v)).
Proof.
  intros Hk. destruct (attr_set_spec h i k v) as [S1 S2]. destruct (attr_get h i k) as [d|e] eqn:E.
  - destruct (S2 d eq_refl) as [F1 F2]. destruct (attr_set h i k v) as [[u|e] h'] eqn:Es; simpl.
    + destruct u. destruct (F2 _ eq_refl) as (src & d' & _ & He & H1 & H2 & _). eapply attr_effect_rel; [exact Hk|exact He|].
      intros d0 H0. assert (d0 = d) by congruence. subst. auto.
    + rewrite (F1 _ _ eq_refl). apply attr_rel_refl.
  - rewrite (S1 (f_equal _ (attr_get_err _ _ _ _ E))). apply attr_rel_refl.
Qed.
Lemma arun1_rel ns i h o : i < length h -> In (aop_key o) ns -> attr_rel ns i h (snd (arun1 h i o)).
Proof.
  intros Hi Hk. destruct o as [k v|k v f|k sh t f]; simpl in *; [apply attr_set_rel; assumption| |].
  - destruct (attr_create_spec h i k v f Hi) as (C1 & C2 & C3 & C4 & C5). destruct (valid_flag f) eqn:Ef.
    + destruct (attr_get h i k) as [d|e] eqn:E.
      * apply valid_flag_spec in Ef. destruct Ef as [->|Ef].
        { rewrite (C4 _ eq_refl). apply attr_rel_refl. }
        { rewrite (C5 _ eq_refl Ef). apply attr_set_rel. assumption. }
      * pose proof (attr_get_err _ _ _ _ E). subst e. destruct (stored_as v) as [d|] eqn:Es.
        { destruct (C3 eq_refl eq_refl d eq_refl) as (h' & -> & He). eapply attr_effect_rel; [exact Hk|exact He|]. intros d0 H0. congruence. }
        { destruct (attr_create h i k v f) as [[u|e] h'] eqn:Ec; [|rewrite (C2 _ _ eq_refl); apply attr_rel_refl].
          exfalso. unfold attr_create in Ec. rewrite Ef in Ec. unfold attr_get in E. destruct (sget (attrs_of h i) k); [discriminate|]. 
          rewrite Es in Ec. discriminate. }
    + rewrite (C1 eq_refl). apply attr_rel_refl.
  - destruct (attr_create_empty_spec h i k sh t f Hi) as (C1 & C2 & C3). destruct (valid_flag f) eqn:Ef.
    + destruct (attr_get h i k) as [d|e] eqn:E.
      * destruct (C2 _ eq_refl) as (-> & _). apply attr_rel_refl.
      * pose proof (attr_get_err _ _ _ _ E). subst e. destruct (C3 eq_refl eq_refl) as (h' & d & -> & He & _).
        eapply attr_effect_rel; [exact Hk|exact He|]. intros d0 H0. congruence.
    + rewrite (C1 eq_refl). apply attr_rel_refl.
Qed.
Lemma attr_rel_length ns i h h' : attr_rel ns i h h' -> i < length h -> i < length h'.
Proof.
  intros (_ & _ & _ & H) Hi. specialize (H i). apply nth_error_Some. apply nth_error_Some in Hi. intros E. rewrite E in H.
  destruct (nth_error h i); [discriminate|congruence].
Qed.
Lemma aruns_rel i l : forall h, i < length h -> attr_rel (map aop_key l) i h (aruns h i l).
Proof.
  assert (G : forall l ns h, i < length h -> (forall o, In o l -> In (aop_key o) ns) -> attr_rel ns i h (aruns h i l)).
  { clear l. induction l as [|o l IH]; intros ns h Hi Hn; [apply attr_rel_refl|]. change (aruns h i (o :: l)) with (aruns (snd (arun1 h i o)) i l).
    assert (A : attr_rel ns i h (snd (arun1 h i o))) by (apply arun1_rel; [assumption|apply Hn; left; reflexivity]).
    eapply attr_rel_trans; [exact A|]. apply IH; [eapply attr_rel_length; eassumption|]. intros; apply Hn; right; assumption. }
  intros h Hi. apply G; [assumption|]. intros o Ho. apply in_map. assumption.
Qed.
