From Verif Require Import Base Str YamlSpec YamlModel.
Local Open Scope list_scope. Local Open Scope nat_scope.

Definition plain_keys (keys : list string) : Prop := forall k, In k keys -> has_char "/"%char k = false.

(** The overlay of one level. *)
Definition level_get (keys : list string) (m : list (string * yaml)) (k : string) : option yaml :=
  if existsb (String.eqb k) keys then od_get String.eqb m k else None.

Lemma try_parse_map keys : plain_keys keys -> forall d m, exists d', try_parse keys d (YMap m) = Ok d' /\
  forall k, od_get String.eqb d' k = match level_get keys m k with Some v => Some v | None => od_get String.eqb d k end.
Proof.
  induction keys as [|k0 keys IH]; intros Hk d m; cbn [try_parse].
  - exists d. split; [reflexivity|]. intros k. reflexivity.
  - assert (Hk' : plain_keys keys) by (intros k Hin; apply Hk; right; assumption).
    cbn [y_in bind]. unfold od_mem. unfold y_get.
    destruct (od_get String.eqb m k0) as [v|] eqn:E.
    + cbn [bind]. unfold dd_set. rewrite (Hk k0) by (left; reflexivity). cbn [bind].
      destruct (IH Hk' (od_set String.eqb d k0 v) m) as (d' & E' & G). exists d'. split; [assumption|].
      intros k. rewrite G, (od_get_set String.eqb String.eqb_spec). unfold level_get. cbn [existsb].
      destruct (String.eqb_spec k k0) as [->|N]; cbn [orb].
      * destruct (existsb (String.eqb k0) keys); rewrite ?E; reflexivity.
      * reflexivity.
    + destruct (IH Hk' d m) as (d' & E' & G). exists d'. split; [assumption|].
      intros k. rewrite G. unfold level_get. cbn [existsb].
      destruct (String.eqb_spec k k0) as [->|N]; cbn [orb]; [|reflexivity].
      destruct (existsb (String.eqb k0) keys); rewrite ?E; reflexivity.
Qed.

(** Lookup through a list of levels, innermost last. *)
Definition overlay1 (keys : list string) (acc : option yaml) (level : yaml) (k : string) : option yaml :=
  match level with YMap m => match level_get keys m k with Some v => Some v | None => acc end | _ => acc end.

Fixpoint lookup (keys : list string) (acc : option yaml) (levels : list yaml) (k : string) : option yaml :=
  match levels with [] => acc | l :: ls => lookup keys (overlay1 keys acc l k) ls k end.

Lemma nested_ok keys : plain_keys keys -> forall nodes data levels d, chain data nodes levels -> Forall is_map levels ->
  exists d', nested_loop keys d data nodes = Ok d' /\
    forall k, od_get String.eqb d' k = lookup keys (od_get String.eqb d k) (tl levels) k.
Proof.
  intros Hk. induction nodes as [|n nodes IH]; intros data levels d Hc Hm; inversion Hc as [|? ? w ? vs Hch Hc']; subst; cbn [nested_loop].
  - exists d. split; reflexivity.
  - destruct Hch as (m & -> & Em). cbn [y_get]. rewrite Em. cbn [bind].
    inversion Hm as [|? ? _ Hm']; subst.
    assert (Hw : exists mw, w = YMap mw) by (inversion Hc'; subst; inversion Hm'; subst; assumption).
    destruct Hw as [mw ->].
    destruct (try_parse_map keys Hk d mw) as (d1 & E1 & G1). rewrite E1. cbn [bind].
    destruct (IH (YMap mw) vs d1 Hc' Hm') as (d' & E' & G'). exists d'. split; [assumption|].
    intros k. rewrite G', G1. cbn [tl]. inversion Hc'; subst; reflexivity.
Qed.

Lemma chain_head v ks vs : chain v ks vs -> exists rest, vs = v :: rest.
Proof. intros H. inversion H; subst; eauto. Qed.

Lemma existsb_In k keys : existsb (String.eqb k) keys = true <-> In k keys.
Proof.
  rewrite existsb_exists. split.
  - intros (x & Hx & E). apply String.eqb_eq in E. congruence.
  - intros H. exists k. split; [assumption|apply String.eqb_refl].
Qed.

Lemma overlay1_child keys acc l k v : In k keys -> child l k v -> overlay1 keys acc l k = Some v.
Proof.
  intros Hk (m & -> & E). unfold overlay1, level_get. apply existsb_In in Hk. rewrite Hk, E. reflexivity.
Qed.

Lemma overlay1_none keys acc l k : (forall w, ~ child l k w) -> overlay1 keys acc l k = acc.
Proof.
  intros H. destruct l; try reflexivity. unfold overlay1, level_get.
  destruct (existsb (String.eqb k) keys); [|reflexivity].
  destruct (od_get String.eqb m k) eqn:E; [|reflexivity]. exfalso. apply (H y). exists m. auto.
Qed.

Lemma overlay1_notin keys acc l k : ~ In k keys -> overlay1 keys acc l k = acc.
Proof.
  intros H. destruct l; try reflexivity. unfold overlay1, level_get.
  destruct (existsb (String.eqb k) keys) eqn:E; [|reflexivity]. apply existsb_In in E. contradiction.
Qed.

Lemma lookup_notin keys levels : forall acc k, ~ In k keys -> lookup keys acc levels k = acc.
Proof.
  induction levels as [|l ls IH]; intros acc k H; cbn [lookup]; [reflexivity|]. rewrite IH by assumption.
  apply overlay1_notin; assumption.
Qed.

Lemma child_dec l k : (exists v, child l k v) \/ (forall v, ~ child l k v).
Proof.
  destruct l; try (right; intros v (m' & E & _); discriminate).
  destruct (od_get String.eqb m k) eqn:E; [left; exists y, m; auto|]. right. intros v (m' & G & G').
  injection G as <-. congruence.
Qed.

Lemma child_fun l k v w : child l k v -> child l k w -> v = w.
Proof. intros (m & -> & E) (m' & G & E'). injection G as <-. congruence. Qed.

Lemma lookup_spec keys levels : forall acc k, In k keys ->
  (exists v, lookup keys acc levels k = Some v /\ deepest levels k v) \/
  (lookup keys acc levels k = acc /\ forall l v, In l levels -> ~ child l k v).
Proof.
  induction levels as [|l ls IH]; intros acc k Hk; cbn [lookup]; [right; split; [reflexivity|intros ? ? []]|].
  destruct (IH (overlay1 keys acc l k) k Hk) as [(v & E & D)|[E N]].
  - left. exists v. split; [assumption|]. destruct D as (o & x & i & -> & C & F). exists (l :: o), x, i. auto.
  - destruct (child_dec l k) as [[v C]|C].
    + left. exists v. rewrite E. split; [apply overlay1_child; assumption|]. exists [], l, ls. auto.
    + right. rewrite E. split; [apply overlay1_none; assumption|]. intros x v [<-|Hx]; [apply C|apply N; assumption].
Qed.

Lemma deepest_unique levels k v w : deepest levels k v -> deepest levels k w -> v = w.
Proof.
  intros (o & x & i & -> & C & F) (o' & x' & i' & E & C' & F').
  revert o' E. induction o as [|a o IH]; intros [|a' o'] E; cbn [app] in E; injection E as <- E.
  - eapply child_fun; eassumption.
  - exfalso. subst i. eapply F; [|exact C']. apply in_or_app. right; left; reflexivity.
  - exfalso. subst i'. eapply F'; [|exact C]. apply in_or_app. right; left; reflexivity.
  - eapply IH. exact E.
Qed.

Lemma descend_chain nodes : forall data w, descend data nodes = Ok w <-> exists vs, chain data nodes (vs ++ [w]).
Proof.
  induction nodes as [|k ks IH]; intros data w; cbn [descend].
  - split.
    + intros E. injection E as ->. exists []. constructor.
    + intros [vs H]. destruct vs as [|x vs]; [inversion H; reflexivity|].
      destruct vs; inversion H.
  - split.
    + intros E. destruct (y_get data k) as [x|] eqn:G; cbn [bind] in E; [|discriminate].
      apply IH in E. destruct E as [vs H]. exists (data :: vs). cbn [app]. apply (chain_cons data k x ks); [|assumption].
      unfold y_get in G. destruct data; try discriminate. exists m. split; [reflexivity|].
      destruct (od_get String.eqb m k); congruence.
    + intros [vs H]. remember (vs ++ [w]) as l eqn:El. inversion H as [|v0 k0 x ks0 vs' (m & Hm & Em) Hc]. subst. unfold y_get.
      rewrite Em. cbn [bind]. apply IH. destruct vs as [|y vs].
      * match goal with E : _ :: _ = [] ++ _ |- _ => injection E as E1 E2 end. subst. inversion Hc.
      * match goal with E : _ :: _ = _ ++ _ |- _ => injection E as E1 E2 end. subst. eauto.
Qed.

Lemma get_maps data init nested keys root levels : plain_keys keys ->
  descend data init = Ok root -> chain root nested levels -> Forall is_map levels ->
  (exists d, get data init nested keys = Ok d /\
     (forall k, In k keys -> exists v, od_get String.eqb d k = Some v /\ deepest levels k v) /\
     (forall k, ~ In k keys -> od_get String.eqb d k = None)) \/
  (get data init nested keys = Err KeyError /\ exists k, In k keys /\ forall l v, In l levels -> ~ child l k v).
Proof.
  intros Hk Hd Hc Hm. unfold get. rewrite Hd. cbn [bind].
  destruct (chain_head _ _ _ Hc) as [rest Hr].
  assert (Hroot : is_map root) by (subst levels; inversion Hm; assumption). destruct Hroot as [m ->].
  destruct (try_parse_map keys Hk [] m) as (d0 & E0 & G0). rewrite E0. cbn [bind].
  destruct (nested_ok keys Hk nested (YMap m) levels d0 Hc Hm) as (d & E & G). rewrite E. cbn [bind].
  assert (L : forall k, od_get String.eqb d k = lookup keys None levels k).
  { intros k. rewrite G, G0. subst levels. reflexivity. }
  destruct (forallb (od_mem String.eqb d) keys) eqn:F.
  - left. exists d. split; [reflexivity|]. rewrite forallb_forall in F. split.
    + intros k Hin. destruct (lookup_spec keys levels None k Hin) as [(v & A & B)|[A _]].
      * exists v. rewrite L. auto.
      * specialize (F k Hin). unfold od_mem in F. rewrite L, A in F. discriminate.
    + intros k Hni. rewrite L. apply lookup_notin. assumption.
  - right. split; [reflexivity|].
    assert (X : exists k, In k keys /\ od_mem String.eqb d k = false).
    { clear -F. induction keys as [|k keys IH]; [discriminate|]. cbn [forallb] in F.
      destruct (od_mem String.eqb d k) eqn:E; [|exists k; split; [left; reflexivity|assumption]].
      destruct (IH F) as (k' & H1 & H2). exists k'. split; [right; assumption|assumption]. }
    destruct X as (k & Hin & Hmem). exists k. split; [assumption|].
    unfold od_mem in Hmem. rewrite L in Hmem.
    destruct (lookup_spec keys levels None k Hin) as [(v & A & _)|[_ N]]; [rewrite A in Hmem; discriminate|assumption].
Qed.

Lemma descend_err data nodes e : descend data nodes = Err e -> e = KeyError \/ e = TypeError.
Proof.
  revert data. induction nodes as [|k ks IH]; intros data; cbn [descend]; [discriminate|].
  destruct (y_get data k) as [w|e'] eqn:E; cbn [bind]; [apply IH|]. intros H. injection H as ->.
  unfold y_get in E. destruct data; try (injection E as <-; auto). destruct (od_get String.eqb m k); [discriminate|].
  injection E as <-. auto.
Qed.

Lemma nested_loop_broken keys : forall nodes data d d', nested_loop keys d data nodes = Ok d' -> exists vs, chain data nodes vs.
Proof.
  induction nodes as [|k ks IH]; intros data d d'; cbn [nested_loop]; [intros _; exists [data]; constructor|].
  destruct (y_get data k) as [w|] eqn:E; cbn [bind]; [|discriminate].
  destruct (try_parse keys d w) as [d1|]; cbn [bind]; [|discriminate].
  intros H. destruct (IH w d1 d' H) as [vs Hc]. exists (data :: vs). apply (chain_cons data k w ks vs); [|assumption].
  unfold y_get in E. destruct data; try discriminate. exists m. split; [reflexivity|].
  destruct (od_get String.eqb m k); congruence.
Qed.
