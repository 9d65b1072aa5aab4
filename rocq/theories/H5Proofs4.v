(** Lemmas for C14, C15, C17. *)
From Coq Require Import Sorted Permutation QArith.
From Verif Require Import Base Str OdictSpec H5Model H5Spec H5Proofs H5Proofs2 H5Proofs3.
Local Open Scope list_scope. Local Open Scope nat_scope.

(** ** C14 *)
Lemma resolve_hard_app h : forall a g i nl b, resolve 0 h g a = Some i -> resolve nl h g (a ++ b) = resolve nl h i b.
Proof.
  induction a as [|s a IH]; intros g i nl b; rewrite ?resolve_nil; [intros H; inversion H; reflexivity|].
  simpl app. rewrite !resolve_unfold. destruct (links_of h g) as [ls|]; [|discriminate].
  destruct (sget ls s) as [[]|]; try discriminate. apply IH.
Qed.

Lemma new_child h g k ls a b : plain k -> nth_error h g = Some {| bdy := BGroup ls; atts := a |} -> sget ls k = None ->
  exists h1, raw_create h g k (Some b) = (Ok (length h), h1) /\ length h1 = S (length h) /\
    (forall j, j < length h -> j <> g -> nth_error h1 j = nth_error h j) /\
    nth_error h1 g = Some {| bdy := BGroup (ins ls k (Hard (length h))); atts := a |} /\
    nth_error h1 (length h) = Some {| bdy := b; atts := [] |}.
Proof.
  intros Hp Hg Hn. assert (Hl : links_of h g = Some ls) by (unfold links_of; rewrite Hg; reflexivity).
  assert (Hlt : g < length h) by (eapply links_lt; eassumption).
  rewrite (plain_create _ _ _ _ b Hp Hl Hn). eexists. split; [reflexivity|]. split; [|split; [|split]].
  - rewrite app_length, set_body_length. simpl. lia.
  - intros j Hj Hne. rewrite nth_error_app1 by (rewrite set_body_length; assumption). apply nth_set_body_other. congruence.
  - rewrite nth_error_app1 by (rewrite set_body_length; assumption). rewrite (nth_set_body_same _ _ _ _ Hg). reflexivity.
  - rewrite nth_error_app2 by (rewrite set_body_length; lia). rewrite set_body_length, Nat.sub_diag. reflexivity.
Qed.
Lemma create_group_new h g k ls a flag : valid_flag flag = true -> plain k -> nth_error h g = Some {| bdy := BGroup ls; atts := a |} -> sget ls k = None ->
  create_group h g k flag = raw_create h g k (Some (BGroup [])).
Proof.
  intros Hf Hp Hg Hn. assert (Hl : links_of h g = Some ls) by (unfold links_of; rewrite Hg; reflexivity).
  unfold create_group. rewrite Hf, (plain_find _ _ _ _ Hp Hl), Hn. reflexivity.
Qed.

Lemma parents_extends ps cr : forall h g r h', parents h g ps cr = (r, h') -> extends h h'.
Proof.
  induction ps as [|k ps IH]; intros h g r h'; cbn [parents]; [intros H; inversion H; apply evolves_refl|].
  destruct cr.
  - destruct (create_group h g k "ac") as [[g1|e] h1] eqn:E; apply create_group_extends in E.
    + intros H. eapply evolves_trans; [exact E|]. eapply IH; eassumption.
    + intros H; inversion H; subst. assumption.
  - destruct (raw_get h g k) as [i|e]; [|intros H; inversion H; apply evolves_refl].
    destruct (is_group h i); [apply IH|intros H; inversion H; apply evolves_refl].
Qed.
Lemma parents_ok ps cr : forall h g r h', file_ok h -> parents h g ps cr = (r, h') -> file_ok h'.
Proof.
  induction ps as [|k ps IH]; intros h g r h' Hok; cbn [parents]; [intros H; inversion H; subst; assumption|].
  destruct cr.
  - destruct (create_group h g k "ac") as [[g1|e] h1] eqn:E; apply create_group_ok in E; try assumption.
    + intros H. eapply IH; eassumption.
    + intros H; inversion H; subst. assumption.
  - destruct (raw_get h g k) as [i|e]; [|intros H; inversion H; subst; assumption].
    destruct (is_group h i); [apply IH; assumption|intros H; inversion H; subst; assumption].
Qed.

Lemma parents_fresh ps : forall h g a, Forall plain ps -> nth_error h g = Some {| bdy := BGroup []; atts := a |} ->
  exists g1 h1 a1, parents h g ps true = (Ok g1, h1) /\ nth_error h1 g1 = Some {| bdy := BGroup []; atts := a1 |} /\
    resolve 0 h1 g ps = Some g1 /\ (forall j, j < length h -> j <> g -> nth_error h1 j = nth_error h j) /\
    length h <= length h1 /\ (g1 = g \/ length h <= g1).
Proof.
  induction ps as [|k ps IH]; intros h g a Hp Hg; cbn [parents].
  - exists g, h, a. rewrite resolve_nil. auto 7.
  - inversion Hp as [|? ? Hk Hps]; subst.
    rewrite (create_group_new _ _ _ _ _ "ac"%string eq_refl Hk Hg eq_refl).
    destruct (new_child _ _ _ _ _ (BGroup []) Hk Hg eq_refl) as (h1 & E & Hlen & Hs & Hg1 & Hn1). rewrite E.
    assert (Hgl : g < length h) by (apply nth_error_Some; congruence).
    destruct (IH h1 (length h) [] Hps Hn1) as (g2 & h2 & a2 & E2 & Hg2 & Hr2 & Hs2 & Hlen2 & Hor).
    exists g2, h2, a2. split; [assumption|]. split; [assumption|]. split; [|split; [|split]].
    + rewrite resolve_unfold. rewrite (links_of_eq h2 h1) by (apply Hs2; lia). unfold links_of. rewrite Hg1.
      rewrite ins_get_same by reflexivity. assumption.
    + intros j Hj Hne. rewrite Hs2 by lia. apply Hs; assumption.
    + lia.
    + right. lia.
Qed.


Lemma parents_vacant ps : forall h g s, file_ok h -> Forall plain (ps ++ [s]) -> vacant h g (ps ++ [s]) ->
  exists g1 h1 ls1 a1, parents h g ps true = (Ok g1, h1) /\ nth_error h1 g1 = Some {| bdy := BGroup ls1; atts := a1 |} /\
    sget ls1 s = None /\ resolve 0 h1 g ps = Some g1 /\ length h <= length h1 /\
    ((h1 = h /\ g1 < length h) \/ (length h <= g1 /\ exists gp name, gp < length h /\ one_link h h1 gp name)).
Proof.
  induction ps as [|k ps IH]; intros h g s Hok Hp Hv.
  - simpl in *. inversion Hv as [? ls ? ? Hl Hn|? ls ? i ? Hl Hn Hv']; subst; [|inversion Hv'].
    destruct (links_of_Some _ _ _ Hl) as [a Ha]. exists g, h, ls, a.
    split; [reflexivity|]. split; [assumption|]. split; [assumption|]. split; [reflexivity|]. split; [lia|].
    left. split; [reflexivity|]. eapply links_lt; eassumption.
  - simpl in Hp, Hv. inversion Hp as [|? ? Hk Hps]; subst. cbn [parents].
    inversion Hv as [? ls ? ? Hl Hn|? ls ? i ? Hl Hn Hv']; subst.
    + destruct (links_of_Some _ _ _ Hl) as [a Ha]. rewrite (create_group_new _ _ _ _ _ "ac"%string eq_refl Hk Ha Hn).
      destruct (new_child _ _ _ _ _ (BGroup []) Hk Ha Hn) as (h1 & E & Hlen & Hs & Hg1 & Hn1). rewrite E.
      assert (Hgl : g < length h) by (apply nth_error_Some; congruence).
      apply Forall_app in Hps. destruct Hps as [Hps _].
      destruct (parents_fresh ps h1 (length h) [] Hps Hn1) as (g2 & h2 & a2 & E2 & Hg2 & Hr2 & Hs2 & Hlen2 & Hor).
      exists g2, h2, [], a2. split; [assumption|]. split; [assumption|]. split; [reflexivity|]. split; [|split; [lia|right; split; [lia|]]].
      * rewrite resolve_unfold. rewrite (links_of_eq h2 h1) by (apply Hs2; lia). unfold links_of. rewrite Hg1.
        rewrite ins_get_same by assumption. assumption.
      * exists g, k. split; [assumption|]. split; [|split].
        { intros j Hj Hne. rewrite Hs2 by lia. apply Hs; assumption. }
        { intros ls0 Hl0. rewrite Hl in Hl0. inversion Hl0; subst ls0. rewrite (links_of_eq h2 h1) by (apply Hs2; lia).
          unfold links_of. rewrite Hg1. eexists. split; [reflexivity|]. intros k' N. apply ins_get_other. assumption. }
        { unfold attrs_of. rewrite Hs2 by lia. rewrite Hg1, Ha. reflexivity. }
    + assert (Hi : i < length h) by (eapply (proj2 Hok); [exact Hl|apply sget_In; exact Hn]).
      assert (Hc : create_group h g k "ac" = (Ok i, h)).
      { unfold create_group. simpl. rewrite (plain_find _ _ _ _ Hk Hl), Hn. destruct (Nat.ltb_spec i (length h)); [|lia].
        unfold is_group. destruct ps; inversion Hv'; subst;
          match goal with H : links_of h i = Some _ |- _ => rewrite H; reflexivity end. }
      rewrite Hc. destruct (IH h i s Hok Hps Hv') as (g1 & h1 & ls1 & a1 & E & Hg1 & Hs1 & Hr1 & Hlen1 & Hor).
      exists g1, h1, ls1, a1. split; [assumption|]. split; [assumption|]. split; [assumption|]. split; [|split; [assumption|assumption]].
      rewrite resolve_unfold. apply parents_extends in E. destruct (evolves_links _ _ _ _ _ E Hl) as (ls' & -> & Hkeep).
      rewrite (Hkeep _ _ Hn). assumption.
Qed.

Lemma one_link_trans_fresh h h1 h' gp name : length h <= length h1 -> one_link h h1 gp name -> gp < length h ->
  (forall j, j < length h -> nth_error h' j = nth_error h1 j) -> one_link h h' gp name.
Proof.
  intros Hl (A & B & C) Hgp Hs. split; [|split].
  - intros j Hj N. rewrite Hs by assumption. apply A; assumption.
  - intros ls Hls. destruct (B ls Hls) as (ls' & E & K). exists ls'. split; [|assumption]. rewrite <- E. apply links_of_eq. apply Hs. assumption.
  - rewrite <- C. unfold attrs_of. rewrite Hs by assumption. reflexivity.
Qed.

Lemma segs_plain key p : is_path "/" key p -> Forall plain p -> segs key = p.
Proof.
  intros Hp Hf. apply is_path_segments in Hp. unfold segs. rewrite <- Hp. clear Hp. induction Hf as [|s p Hs _ IH]; [reflexivity|].
  simpl. destruct (sspec s "."%string) as [E|N]; [destruct Hs as (_ & N & _); congruence|]. simpl. congruence.
Qed.

Lemma dump_file_vacant h key p d g_flag dump_flag : file_ok h -> is_path "/" key p -> p <> [] -> Forall plain p ->
  vacant h root p -> valid_flag g_flag = true -> valid_flag dump_flag = true ->
  dumpable d \/ (exists l x, d = DLeaf l /\ stored_as l = Some x) ->
  exists h' i t, dump_file h d (Some key) g_flag dump_flag true = (Ok tt, h') /\ file_ok h' /\ extends h h' /\
    raw_get h' root key = Ok i /\ loads_as d t /\ reads h' i t /\ exists gp name, one_link h h' gp name.
Proof.
  intros Hok Hpath Hne Hpl Hv Hgf Hdf Hd.
  destruct (exists_last Hne) as (ps & s & ->).
  destruct (parents_vacant ps h root s Hok Hpl Hv) as (g1 & h1 & ls1 & a1 & E1 & Hg1 & Hs1 & Hr1 & Hlen1 & Hor).
  assert (Hok1 : file_ok h1) by (eapply parents_ok; eassumption).
  assert (Hx1 : extends h h1) by (eapply parents_extends; eassumption).
  assert (Hps : plain s) by (apply Forall_app in Hpl; destruct Hpl as [_ Hl]; inversion Hl; assumption).
  assert (Hdf_unf : dump_file h d (Some key) g_flag dump_flag true =
     match d with
     | DMap _ => match create_group h1 g1 s g_flag with (Err e, h2) => (Err e, h2) | (Ok g2, h2) => dump h2 g2 d dump_flag end
     | DLeaf l => match ds_create h1 g1 s l dump_flag with (Err e, h2) => (Err e, h2) | (Ok _, h2) => (Ok tt, h2) end
     end).
  { unfold dump_file. apply is_path_segments in Hpath. rewrite <- Hpath. rewrite rev_app_distr. cbn [rev app].
    rewrite rev_involutive, E1. reflexivity. }
  assert (Hg1l : g1 < length h1) by (apply nth_error_Some; congruence).
  assert (Hlk1 : links_of h1 g1 = Some ls1) by (unfold links_of; rewrite Hg1; reflexivity).
  assert (Hfin : forall h' i, i < length h' -> nth_error h' g1 = Some {| bdy := BGroup (ins ls1 s (Hard i)); atts := a1 |} ->
     (forall j, j < length h1 -> j <> g1 -> nth_error h' j = nth_error h1 j) -> 
     extends h h' /\ raw_get h' root key = Ok i /\ exists gp name, one_link h h' gp name).
  { intros h' i Hi Hg' Hs'.
    assert (Hx : extends h1 h').
    { intros j o Ho. destruct (Nat.eq_dec j g1) as [->|N].
      - rewrite Hg1 in Ho. inversion Ho; subst. rewrite Hg'. eexists. split; [reflexivity|]. split; [reflexivity|]. simpl.
        intros k l Hk. rewrite ins_get_other; [assumption|]. congruence.
      - assert (j < length h1) by (apply nth_error_Some; congruence). rewrite Hs' by assumption. exists o. split; [assumption|].
        apply obj_evolves_refl. }
    split; [eapply evolves_trans; eassumption|]. split.
    - apply raw_get_Ok. unfold raw_find. destruct (sspec key ""%string) as [->|_].
      { exfalso. apply is_path_segments in Hpath. destruct ps; discriminate. }
      assert (Hst : start root key = root) by (unfold start; destruct (is_abs key); reflexivity).
      rewrite Hst, (segs_plain _ _ Hpath Hpl). rewrite (resolve_hard_app h' ps root g1).
      + rewrite resolve_unfold. unfold links_of. rewrite Hg'. rewrite ins_get_same by assumption. rewrite resolve_nil.
        destruct (Nat.ltb_spec i (length h')); [reflexivity|lia].
      + eapply resolve_mono; eassumption.
    - destruct Hor as [[-> Hlt]|(Hge & gp & name & Hgp & Ho)].
      + exists g1, s. split; [assumption|]. split.
        * intros ls Hls. rewrite Hlk1 in Hls. inversion Hls; subst. unfold links_of. rewrite Hg'. eexists. split; [reflexivity|].
          intros k N. apply ins_get_other. assumption.
        * unfold attrs_of. rewrite Hg', Hg1. reflexivity.
      + exists gp, name. apply (one_link_trans_fresh h h1 h'); try assumption. intros j Hj. apply Hs'; lia. }
  rewrite Hdf_unf. destruct d as [items|l].
  - destruct Hd as [Hd|(l & x & E & _)]; [|discriminate].
    rewrite (create_group_new _ _ _ _ _ g_flag Hgf Hps Hg1 Hs1).
    destruct (new_child _ _ _ _ _ (BGroup []) Hps Hg1 Hs1) as (h2 & E2 & Hlen2 & Hs2 & Hg2 & Hn2). rewrite E2.
    assert (Hok2 : file_ok h2). { eapply raw_create_ok; [exact Hok1| |exact E2]. intros x Hx. inversion Hx; auto. }
    assert (Hl2 : links_of h2 (length h1) = Some []) by (unfold links_of; rewrite Hn2; reflexivity).
    destruct (dump_roundtrip dump_flag items h2 (length h1) [] Hdf Hok2 Hd Hl2 (fun _ _ => eq_refl))
      as (h' & E' & Hok' & Hs' & _ & _ & Hread). destruct (Hread eq_refl) as (its & Hla & Hrd).
    assert (Hlen' : length h1 < length h').
    { apply dump_grows in E'. apply evolves_length in E'. lia. }
    destruct (Hfin h' (length h1)) as (Hx' & Hget & Hone); [assumption| | |].
    + rewrite Hs' by lia. assumption.
    + intros j Hj N. rewrite Hs' by lia. apply Hs2; assumption.
    + exists h', (length h1), (LMap its). split; [assumption|]. split; [assumption|]. split; [assumption|]. split; [assumption|].
      split; [assumption|]. split; [|assumption]. split; [|assumption].
      apply dump_grows in E'. destruct (evolves_links _ _ _ _ _ E' Hl2) as (ls' & Hls' & _). eapply links_not_dset; eassumption.
  - destruct Hd as [Hd|(l0 & x & E & Hx)]; [inversion Hd|]. inversion E; subst l0.
    unfold ds_create. rewrite Hdf. cbn [negb]. rewrite (plain_find _ _ _ _ Hps Hlk1), Hs1, Hx. cbn [option_map].
    destruct (new_child _ _ _ _ _ (BDset x) Hps Hg1 Hs1) as (h2 & E2 & Hlen2 & Hs2 & Hg2 & Hn2). rewrite E2.
    assert (Hok2 : file_ok h2). { eapply raw_create_ok; [exact Hok1| |exact E2]. intros y Hy. inversion Hy; eauto. }
    destruct (Hfin h2 (length h1)) as (Hx' & Hget & Hone); [lia|assumption|assumption|].
    exists h2, (length h1), (LVal x). split; [reflexivity|]. split; [assumption|]. split; [assumption|]. split; [assumption|].
    split; [constructor; assumption|]. split; [|assumption]. simpl. unfold dset_of. rewrite Hn2. reflexivity.
Qed.

Lemma dump_file_grows h d k gf df cr r h' : dump_file h d k gf df cr = (r, h') -> grows h h'.
Proof.
  unfold dump_file. destruct k as [k|]; [|apply dump_grows].
  destruct (rev (nonempty_segments "/" k)) as [|s ps]; [apply dump_grows|].
  destruct (parents h root (rev ps) cr) as [[g|e] h1] eqn:E; apply parents_extends, extends_grows in E.
  - intros H. eapply evolves_trans; [exact E|]. clear E. destruct d as [items|l].
    + destruct (create_group h1 g s gf) as [[g2|e] h2] eqn:E2; apply create_group_extends, extends_grows in E2.
      * eapply evolves_trans; [exact E2|]. eapply dump_grows; eassumption.
      * inversion H; subst; assumption.
    + destruct (ds_create h1 g s l df) as [[g2|e] h2] eqn:E2; apply ds_create_grows in E2; inversion H; subst; assumption.
  - intros H; inversion H; subst; assumption.
Qed.
Lemma dump_file_x_extends h d k gf df cr r h' : df <> "ac"%string -> df <> "ca"%string -> dump_file h d k gf df cr = (r, h') -> extends h h'.
Proof.
  intros N1 N2. unfold dump_file. destruct k as [k|]; [|apply dump_x_extends; assumption].
  destruct (rev (nonempty_segments "/" k)) as [|s ps]; [apply dump_x_extends; assumption|].
  destruct (parents h root (rev ps) cr) as [[g|e] h1] eqn:E; apply parents_extends in E.
  - intros H. eapply evolves_trans; [exact E|]. clear E. destruct d as [items|l].
    + destruct (create_group h1 g s gf) as [[g2|e] h2] eqn:E2; apply create_group_extends in E2.
      * eapply evolves_trans; [exact E2|]. eapply dump_x_extends; eassumption.
      * inversion H; subst; assumption.
    + destruct (ds_create h1 g s l df) as [[g2|e] h2] eqn:E2; apply ds_create_x_extends in E2; try assumption; inversion H; subst; assumption.
  - intros H; inversion H; subst; assumption.
Qed.
Lemma dump_file_root h d key gf df cr : (key = None \/ exists k, key = Some k /\ is_path "/" k []) ->
  dump_file h d key gf df cr = dump h root d df.
Proof.
  intros [->|(k & -> & H)]; [reflexivity|]. unfold dump_file. apply is_path_segments in H. rewrite <- H. reflexivity.
Qed.

Lemma parents_nocreate_app h pre : forall g gp post, groups h g pre gp ->
  parents h g (pre ++ post) false = parents h gp post false.
Proof.
  induction pre as [|k pre IH]; intros g gp post H; inversion H; subst; [reflexivity|]. cbn [parents app].
  match goal with E : raw_get _ _ _ = Ok _, G : is_group _ _ = true |- _ => rewrite E, G end. apply IH. assumption.
Qed.
Lemma dump_file_noparent h key pre k post gp d gf df e : is_path "/" key (pre ++ k :: post) -> post <> [] ->
  groups h root pre gp -> (raw_get h gp k = Err e \/ e = ValueError /\ exists i, raw_get h gp k = Ok i /\ is_group h i = false) ->
  dump_file h d (Some key) gf df false = (Err e, h).
Proof.
  intros Hp Hne Hg He. unfold dump_file. apply is_path_segments in Hp. rewrite <- Hp.
  destruct (exists_last Hne) as (post' & s & ->).
  replace (pre ++ k :: post' ++ [s]) with ((pre ++ k :: post') ++ [s]) by (rewrite <- app_assoc; reflexivity).
  rewrite rev_app_distr. cbn [rev app]. rewrite rev_involutive, (parents_nocreate_app _ _ _ _ _ Hg). cbn [parents].
  destruct He as [->|(-> & i & -> & ->)]; reflexivity.
Qed.
Lemma raw_get_err h g k e : raw_get h g k = Err e -> e = KeyError.
Proof. unfold raw_get. destruct (raw_find h g k); intros H; inversion H; reflexivity. Qed.

(** files on disk *)
Lemma dump_to_other f path d k ff gf df cr r f' p : dump_to f path d k ff gf df cr = (r, f') -> p <> path -> f' p = f p.
Proof.
  unfold dump_to. destruct (open_file f path ff) as [[h [|]]|e]; try (intros H; inversion H; reflexivity).
  destruct (dump_file h d k gf df cr) as [r0 h'] eqn:E. intros H N; inversion H; subst.
  destruct (sspec p path); [contradiction|reflexivity].
Qed.
Lemma reads_load_from fuel f path h i t k : f path = Some h -> match k with None => i = root | Some k => raw_get h root k = Ok i end ->
  reads h i t -> depth t <= fuel -> load_from fuel f path k = Ok t.
Proof.
  intros Hf Hk Hr Hd. unfold load_from, open_file. simpl. rewrite Hf. simpl.
  destruct k as [k|]; [rewrite Hk|subst i]; simpl; (destruct t as [its|d]; [destruct Hr as [-> Hr]; apply Hr; assumption|rewrite Hr; reflexivity]).
Qed.
Lemma dump_to_vacant f path h key p d ff gf df : open_file f path ff = Ok (h, RW) -> file_ok h -> is_path "/" key p -> p <> [] ->
  Forall plain p -> vacant h root p -> valid_flag gf = true -> valid_flag df = true ->
  dumpable d \/ (exists l x, d = DLeaf l /\ stored_as l = Some x) ->
  exists f' h' t, dump_to f path d (Some key) ff gf df true = (Ok tt, f') /\ f' path = Some h' /\ file_ok h' /\ extends h h' /\
    (exists gp name, one_link h h' gp name) /\ loads_as d t /\ (forall fuel, depth t <= fuel -> load_from fuel f' path (Some key) = Ok t).
Proof.
  intros Ho Hok Hp Hne Hpl Hv Hg Hd Hda.
  destruct (dump_file_vacant h key p d gf df Hok Hp Hne Hpl Hv Hg Hd Hda) as (h' & i & t & E & Hok' & Hx & Hget & Hla & Hr & Hone).
  unfold dump_to. rewrite Ho, E.
  exists (fun q => if String.eqb q path then Some h' else f q), h', t.
  assert (Hf' : (fun q => if String.eqb q path then Some h' else f q) path = Some h') by (cbv beta; rewrite String.eqb_refl; reflexivity).
  split; [reflexivity|]. split; [exact Hf'|]. split; [assumption|]. split; [assumption|]. split; [assumption|]. split; [assumption|].
  intros fuel Hfu. eapply reads_load_from; [exact Hf'|exact Hget|exact Hr|exact Hfu].
Qed.
Lemma dump_to_root f path h items key ff gf df cr : open_file f path ff = Ok (h, RW) -> file_ok h -> links_of h root = Some [] ->
  (key = None \/ exists k, key = Some k /\ is_path "/" k []) -> valid_flag df = true -> dumpable (DMap items) ->
  exists f' h' t, dump_to f path (DMap items) key ff gf df cr = (Ok tt, f') /\ f' path = Some h' /\ file_ok h' /\
    loads_as (DMap items) t /\ (forall fuel, depth t <= fuel -> load_from fuel f' path None = Ok t).
Proof.
  intros Ho Hok Hl Hk Hf Hd. destruct (dump_roundtrip df items h root [] Hf Hok Hd Hl (fun _ _ => eq_refl)) as (h' & E & Hok' & _ & (ls' & a & _ & Hr' & _) & _ & Hld).
  destruct (Hld eq_refl) as (its & Hla & Hfu).
  unfold dump_to. rewrite Ho, (dump_file_root _ _ _ _ _ _ Hk), E.
  exists (fun q => if String.eqb q path then Some h' else f q), h', (LMap its).
  assert (Hf' : (fun q => if String.eqb q path then Some h' else f q) path = Some h') by (cbv beta; rewrite String.eqb_refl; reflexivity).
  split; [reflexivity|]. split; [exact Hf'|]. split; [assumption|]. split; [assumption|].
  intros fuel Hfl. eapply (reads_load_from _ _ _ h' root); [exact Hf'|reflexivity| |exact Hfl].
  split; [|assumption]. unfold dset_of. rewrite Hr'. reflexivity.
Qed.

(** ** C15 *)
Section HtyInd.
  Variable P : hty -> Prop.
  Hypothesis Harr : P HArr.
  Hypothesis Hstr : P HStr.
  Hypothesis Htab : P HTab.
  Hypothesis Hobj : forall fs, (forall k t, In (k, t) fs -> P t) -> P (HObj fs).
  Fixpoint hty_ind' (t : hty) : P t :=
    match t with
    | HArr => Harr
    | HStr => Hstr
    | HTab => Htab
    | HObj fs => Hobj fs
        ((fix go (fs : list (string * hty)) : forall k t, In (k, t) fs -> P t :=
            match fs with
            | [] => fun k t (H : In (k, t) []) => match H with end
            | (k0, t0) :: fs' => fun k t H => match H with
                | or_introl E => match E in _ = y return P (snd y) with eq_refl => hty_ind' t0 end
                | or_intror H' => go fs' k t H'
                end
            end) fs)
    end.
End HtyInd.
Definition to_fields (vals : list (string * hobj)) :=
  fix go (fs : list (string * hty)) : result (list (key * data)) :=
    match fs with
    | [] => Ok []
    | (k, t1) :: fs' =>
        match sget vals k with
        | None => Err AttributeError
        | Some v => bind (to_h5_data t1 v) (fun d => rmap (cons (KStr k, d)) (go fs'))
        end
    end.
Definition from_fields :=
  fix go (fs : list (string * hty)) (items : list (string * ltree)) : result (list (string * hobj)) :=
    match fs with
    | [] => Ok []
    | (k, t1) :: fs' =>
        match sget items k with
        | None => Err KeyError
        | Some v => bind (from_h5_data t1 v) (fun o => rmap (cons (k, o)) (go fs' (od_del String.eqb items k)))
        end
    end.
Lemma Forall2_flip {A B} (P : A -> B -> Prop) l l' : Forall2 P l l' -> Forall2 (fun b a => P a b) l' l.
Proof. induction 1; constructor; assumption. Qed.
Definition good_data (t : hty) (o : hobj) (d : data) : Prop :=
  to_h5_data t o = Ok d /\
  match t with
  | HObj _ | HTab => exists items, d = DMap items /\ dumpable d
  | _ => exists l x, d = DLeaf l /\ stored_as l = Some x
  end /\
  (forall t', loads_as d t' -> exists o', from_h5_data t t' = Ok o' /\ same_obj o o').

Lemma loads_as_get items its : NoDup (map fst items) -> loads_as (DMap items) (LMap its) ->
  forall k d, In (KStr k, d) items -> exists t, sget its k = Some t /\ loads_as d t.
Proof.
  intros Hnd H k d Hin. inversion H as [|? items' ? Hperm Hs Hf]; subst.
  assert (Hin' : In (KStr k, d) items') by (eapply Permutation_in; eassumption).
  destruct (In_nth_error _ _ Hin') as [n Hn]. destruct (Forall2_nth_l _ _ _ _ _ Hf Hn) as ([k' t] & Hn' & E & Hla).
  simpl in E. inversion E; subst k'. exists t. split; [|exact Hla]. apply In_sget; [exact Hs|]. eapply nth_error_In; eassumption.
Qed.

Definition uncol (x : key * data) : string * column :=
  match x with (KStr k, DLeaf (LArr d)) => (k, CArr d) | _ => (""%string, COdd) end.
Lemma table_good cols : instance HTab (OTab cols) -> exists d, good_data HTab (OTab cols) d.
Proof.
  intros H. inversion H as [| |? ND PL CA|]; subst.
  assert (M : exists items, mapM (fun c : string * column => match snd c with CArr d => Ok (KStr (fst c), DLeaf (LArr d)) | COdd => Err TypeError end) cols = Ok items /\
     map fst items = map KStr (map fst cols) /\ map uncol items = cols /\ forall k v, In (k, v) items -> exists d, v = DLeaf (LArr d)).
  { clear -CA. induction cols as [|[k c] cols IH]; [exists []; cbn; repeat split; intros k v []|].
    destruct IH as (its & E & F & U & A); [intros; eapply CA; right; eassumption|]. destruct (CA k c (or_introl eq_refl)) as [d ->].
    exists ((KStr k, DLeaf (LArr d)) :: its). cbn [mapM snd fst bind rmap]. rewrite E. cbn. rewrite F, U. repeat split.
    intros k0 v [E0|I]; [inversion E0; eauto|eapply A; eassumption]. }
  destruct M as (items & E & F & U & A). exists (DMap items). split; [cbn [to_h5_data]; unfold table_to_h5; rewrite E; reflexivity|]. split.
  - exists items. split; [reflexivity|]. constructor.
    + rewrite F. apply FinFun.Injective_map_NoDup; [intros a b Q; congruence|assumption].
    + intros k v I. apply (in_map fst) in I. cbn [fst] in I. rewrite F in I. apply in_map_iff in I. destruct I as (s & <- & Is). eauto.
    + intros k v I. destruct (A k v I) as [d ->]. left. exists (LArr d), d. auto.
  - intros t' La. inversion La as [|? items' its Hp Hs Hf]; subst. cbn [from_h5_data table_from_h5].
    set (g := fun it : string * ltree => (fst it, match snd it with LVal d => CArr d | LMap _ => COdd end)).
    assert (G : map fst (map g its) = map fst its) by (rewrite map_map; reflexivity).
    exists (OTab (map g its)). split.
    + f_equal. f_equal. apply (od_update_id String.eqb String.eqb_spec). assert (W : NoDup (map fst (map g its))) by (rewrite G; apply sorted_NoDup; exact Hs). exact W.
    + constructor; [|rewrite G; exact Hs]. replace (map g its) with (map uncol items').
      * apply Permutation_map. exact Hp.
      * assert (A' : forall k v, In (k, v) items' -> exists d, v = DLeaf (LArr d)) by (intros k v I; eapply A; eapply Permutation_in; [apply Permutation_sym; exact Hp|exact I]).
        clear -Hf A'. induction Hf as [|[k v] [k' t] l l' [Ek Hl] Hf IH]; [reflexivity|]. cbn [map]. f_equal; [|apply IH; intros; eapply A'; right; eassumption].
        cbn [fst snd] in Ek, Hl. subst k. destruct (A' (KStr k') v (or_introl eq_refl)) as [d ->]. inversion Hl as [? d' Q|]; subst. cbn in Q. inversion Q; subst. reflexivity.
Qed.

Lemma h5_data_roundtrip t : forall o, instance t o -> exists d, good_data t o d.
Proof.
  induction t as [| | |fs IH] using hty_ind'; intros o Ho; inversion Ho as [x|x|cols|? vals Hnd Hpl Hf]; subst.
  - exists (DLeaf (LArr x)). split; [reflexivity|]. split; [exists (LArr x), x; auto|]. intros t' H; inversion H; subst. exists (OArr x). split; [|constructor].
    match goal with E : stored_as _ = Some _ |- _ => inversion E; reflexivity end.
  - exists (DLeaf (LStr x)). split; [reflexivity|]. split; [eexists _, _; split; reflexivity|]. intros t' H; inversion H; subst. exists (OStr x). split; [|constructor].
    match goal with E : stored_as _ = Some _ |- _ => inversion E; reflexivity end.
  - apply table_good. exact Ho.
  - assert (Hkeys : map fst fs = map fst vals).
    { clear -Hf. induction Hf as [|? ? ? ? [E _] _ IHf]; [reflexivity|]. simpl. congruence. }
    assert (HndV : NoDup (map fst vals)) by congruence.
    assert (Hget : forall k v, In (k, v) vals -> sget vals k = Some v).
    { clear -HndV. induction vals as [|[k0 v0] vals IHv]; intros k v Hin; [destruct Hin|]. inversion HndV; subst. simpl.
      destruct Hin as [E|Hin]; [inversion E; subst; rewrite String.eqb_refl; reflexivity|].
      destruct (sspec k k0) as [->|N]; [exfalso; apply H1; apply (in_map fst) in Hin; exact Hin|apply IHv; assumption]. }
    assert (Hall : exists items, to_fields vals fs = Ok items /\
       Forall2 (fun f it => fst it = KStr (fst f) /\ exists v, In (fst f, v) vals /\ good_data (snd f) v (snd it)) fs items).
    { clear Hkeys HndV Hnd Ho Hpl.
      assert (Hgen : forall fs vs, (forall k t, In (k, t) fs -> forall o, instance t o -> exists d, good_data t o d) ->
          Forall2 (fun f v => fst f = fst v /\ instance (snd f) (snd v)) fs vs -> (forall k v, In (k, v) vs -> In (k, v) vals) ->
          exists items, to_fields vals fs = Ok items /\
          Forall2 (fun f it => fst it = KStr (fst f) /\ exists v, In (fst f, v) vals /\ good_data (snd f) v (snd it)) fs items).
      { clear -Hget. induction fs as [|[k t] fs IHfs]; intros vs HI HF Hs; inversion HF as [|? [k' v] ? vs' [E Hi] HF']; subst.
        - exists []. split; [reflexivity|constructor].
        - simpl in E, Hi. subst k'. destruct (HI k t (or_introl eq_refl) v Hi) as [d Hd].
          destruct (IHfs vs') as (items & Ei & Fi); [intros; eapply HI; [right; eassumption|assumption]|assumption|intros; apply Hs; right; assumption|].
          exists ((KStr k, d) :: items). split.
          + cbn [to_fields]. rewrite (Hget k v) by (apply Hs; left; reflexivity). destruct Hd as (-> & _). cbn [bind].
            fold (to_fields vals). rewrite Ei. reflexivity.
          + constructor; [|assumption]. split; [reflexivity|]. exists v. split; [apply Hs; left; reflexivity|exact Hd]. }
      apply (Hgen fs vals IH Hf). auto. }
    destruct Hall as (items & Ei & Fi).
    assert (Hfst : map fst items = map KStr (map fst fs)).
    { clear -Fi. induction Fi as [|? ? ? ? [E _] _ IHf]; [reflexivity|]. simpl. congruence. }
    assert (HndI : NoDup (map fst items)). { rewrite Hfst. apply FinFun.Injective_map_NoDup; [intros a b E; congruence|assumption]. }
    exists (DMap items). split; [change (rmap DMap (to_fields vals fs) = Ok (DMap items)); rewrite Ei; reflexivity|]. split.
    + exists items. split; [reflexivity|]. constructor; [assumption| |].
      * intros k v Hin. assert (Hk : In k (map fst items)) by (apply (in_map fst) in Hin; exact Hin). rewrite Hfst in Hk.
        apply in_map_iff in Hk. destruct Hk as (s & <- & Hs). eauto.
      * intros k v Hin. destruct (In_nth_error _ _ Hin) as [n Hn].
        destruct (Forall2_nth_l _ items fs n (k, v) (Forall2_flip _ _ _ Fi) Hn) as ([k' t'] & _ & Ek & v' & _ & _ & Hc & _).
        simpl in Hc. destruct t'; [left|left|right|right]; [assumption|assumption| |]. all: destruct Hc as (its & -> & Hdm); eauto.
    + intros t' Hla. inversion Hla as [|? items' its Hp Hs Hf2]; subst.
      assert (Hg : forall f d, In (KStr f, d) items -> exists t, sget its f = Some t /\ loads_as d t) by (apply loads_as_get; assumption).
      assert (Hfin : exists vals', from_fields fs its = Ok vals' /\ Forall2 (fun v v' => fst v = fst v' /\ same_obj (snd v) (snd v')) vals vals');
        [|destruct Hfin as (vals' & Hfin & Hsame); exists (OObj vals'); split; [change (rmap OObj (from_fields fs its) = Ok (OObj vals')); rewrite Hfin; reflexivity|constructor; exact Hsame]].
      clear Hla Hp Hs Hf2 Ei HndI Hfst Ho Hpl HndV. 
      assert (Hgen : forall fs items vs its, NoDup (map fst fs) ->
        Forall2 (fun f it => fst it = KStr (fst f) /\ exists v, In (fst f, v) vals /\ good_data (snd f) v (snd it)) fs items ->
        Forall2 (fun f v => fst f = fst v /\ instance (snd f) (snd v)) fs vs -> (forall k v, In (k, v) vs -> In (k, v) vals) ->
        (forall f d, In (KStr f, d) items -> exists t, sget its f = Some t /\ loads_as d t) ->
        exists vs', from_fields fs its = Ok vs' /\ Forall2 (fun v v' => fst v = fst v' /\ same_obj (snd v) (snd v')) vs vs').
      { clear -Hget. induction fs as [|[k t] fs IHfs]; intros items vs its Hnd F1 F2 Hs Hg.
        - inversion F2; subst. exists []. split; [reflexivity|constructor].
        - inversion F1 as [|? [k1 d] ? items1 [Ek (v & Hv & Hgd)] F1']; subst. inversion F2 as [|? [k2 v2] ? vs2 [Ek2 _] F2']; subst.
          simpl in Ek, Ek2, Hv, Hgd. subst k1 k2. inversion Hnd as [|? ? Hni Hnd']; subst.
          assert (v2 = v). { pose proof (Hget _ _ Hv) as A. pose proof (Hget k v2 (Hs _ _ (or_introl eq_refl))) as B. congruence. }
          subst v2. cbn [from_fields]. destruct (Hg k d (or_introl eq_refl)) as (tt0 & -> & Hl). destruct Hgd as (_ & _ & Hfr).
          destruct (Hfr _ Hl) as (o' & Eo & So). rewrite Eo. cbn [bind]. fold from_fields.
          destruct (IHfs items1 vs2 (od_del String.eqb its k)) as (vs' & Ev & Fv); [assumption|assumption|assumption| | |exists ((k, o') :: vs'); rewrite Ev; split; [reflexivity|constructor; [split; [reflexivity|exact So]|exact Fv]]].
          + intros; apply Hs; right; assumption.
          + intros f d' Hin. destruct (Hg f d' (or_intror Hin)) as (t2 & Ht2 & Hl2). exists t2. split; [|assumption].
            rewrite od_get_del_other; [assumption|exact sspec|]. intros ->. apply Hni.
            destruct (In_nth_error _ _ Hin) as [n Hn]. destruct (Forall2_nth_l _ items1 fs n _ (Forall2_flip _ _ _ F1') Hn) as ([k' t'] & Hn' & Ek' & _).
            simpl in Ek'. inversion Ek'; subst. apply nth_error_In in Hn'. apply (in_map fst) in Hn'. exact Hn'. }
      eapply Hgen; eauto.
Qed.

Lemma dump_to_flags f path d k ff gf df cr r f' : dump_to f path d k ff gf df cr = (r, f') ->
  (ff = "x" -> f path <> None -> r = Err FileExistsError /\ f' = f)%string /\
  (ff = "r" -> (exists e, r = Err e) /\ f' = f)%string /\
  (ff = "a" -> f path = None -> r = Err FileNotFoundError /\ f' = f)%string /\
  (~ In ff ["r"; "a"; "x"; "ac"; "ca"; "w"] -> r = Err ValueError /\ f' = f)%string /\
  (forall h0, (ff = "a" /\ f path = Some h0 \/ (ff = "ac" \/ ff = "ca") /\ f path = Some h0 \/
               (ff = "ac" \/ ff = "ca" \/ ff = "x") /\ f path = None /\ h0 = empty_file \/ ff = "w" /\ h0 = empty_file)%string ->
     r = fst (dump_file h0 d k gf df cr) /\ f' path = Some (snd (dump_file h0 d k gf df cr))).
Proof.
  unfold dump_to, open_file. intros H. split; [|split; [|split; [|split]]].
  - intros -> N. cbn in H. destruct (f path); [|congruence]. inversion H; subst. auto.
  - intros ->. cbn in H. destruct (f path); inversion H; subst; eauto.
  - intros -> N. cbn in H. rewrite N in H. inversion H; subst. auto.
  - intros N. cbn [In] in N.
    assert (E : forall s, s <> ff -> String.eqb ff s = false) by (intros s Hs; apply String.eqb_neq; congruence).
    rewrite (E "r"%string), (E "a"%string), (E "x"%string), (E "ac"%string), (E "ca"%string), (E "w"%string) in H by tauto.
    cbn in H. inversion H; subst. auto.
  - intros h0 C.
    assert (G : forall x : result unit * file, (let '(r0, h') := x in (r0, fun p => if String.eqb p path then Some h' else f p)) = (r, f') ->
      r = fst x /\ f' path = Some (snd x)).
    { intros [r0 h'] E. inversion E; subst. rewrite String.eqb_refl. auto. }
    apply G. destruct C as [[-> C]|[[[->| ->] C]|[[[->|[->| ->]] [C ->]]|[-> ->]]]]; cbn in H; rewrite ?C in H; exact H.
Qed.
