(** C59: artist formatters, frames and runtime configuration. *)
From Coq Require Import QArith Lqa.
From Verif Require Import Base FmtModel FmtSpec RcModel.
Local Open Scope list_scope. Local Open Scope nat_scope.

Lemma od_mem_exists (d : fmt) k : od_mem String.eqb d k = existsb (String.eqb k) (map fst d).
Proof.
  unfold od_mem. induction d as [|[k' v] d IH]; [reflexivity|]. cbn [od_get map fst existsb].
  destruct (String.eqb k k'); [reflexivity|exact IH].
Qed.
Lemma od_set_keys (d : fmt) k v : existsb (String.eqb k) (map fst d) = true -> map fst (od_set String.eqb d k v) = map fst d.
Proof.
  induction d as [|[k' v'] d IH]; [discriminate|]. cbn [map fst existsb od_set]. destruct (String.eqb_spec k k') as [->|N]; [reflexivity|].
  cbn [map fst orb]. intros E. rewrite IH by exact E. reflexivity.
Qed.
Lemma last_value_app a b k : last_value (a ++ b) k = match last_value b k with Some v => Some v | None => last_value a k end.
Proof.
  induction a as [|[k' v] a IH]; cbn [app last_value]; [destruct (last_value b k); reflexivity|]. rewrite IH.
  destruct (last_value b k); reflexivity.
Qed.

(** One formatter, described by its names and what each is worth. *)
Definition holds (known : list string) (d : fmt) (f : string -> option pv) : Prop := map fst d = known /\ forall k, od_get String.eqb d k = f k.
Definition after (f : string -> option pv) (items : list (string * pv)) (k : string) : option pv := match last_value items k with Some v => Some v | None => f k end.
Lemma holds_set known d f k v : holds known d f -> existsb (String.eqb k) known = true -> holds known (od_set String.eqb d k v) (after f [(k, v)]).
Proof.
  intros [H1 H2] E. split; [rewrite od_set_keys; [exact H1|rewrite H1; exact E]|]. intros k'. rewrite (od_get_set _ String.eqb_spec).
  unfold after. cbn [last_value]. destruct (String.eqb k' k); [reflexivity|apply H2].
Qed.
Lemma holds_ext known d f g : holds known d f -> (forall k, f k = g k) -> holds known d g.
Proof. intros [H1 H2] E. split; [exact H1|]. intros k. rewrite H2. apply E. Qed.
Lemma after_app f a b k : after (after f a) b k = after f (a ++ b) k.
Proof. unfold after. rewrite last_value_app. destruct (last_value b k); [reflexivity|]. destruct (last_value a k); reflexivity. Qed.
Lemma holds_some known d f k v : holds known d f -> existsb (String.eqb k) known = true -> holds known (set_some d k v) (after f (opt k v)).
Proof.
  intros H E. unfold set_some, opt. destruct v; try (apply holds_set; assumption). eapply holds_ext; [exact H|]. reflexivity.
Qed.
Lemma ior_holds known items : forall d f, holds known d f ->
  holds known (snd (ior d items)) (after f (until_unknown known items)) /\
  fst (ior d items) = (if forallb (fun kv => existsb (String.eqb (fst kv)) known) items then Ok tt else Err KeyError).
Proof.
  induction items as [|[k v] items IH]; intros d f H; cbn [ior until_unknown forallb fst].
  - split; [exact H|reflexivity].
  - rewrite od_mem_exists. destruct H as [H1 H2]. rewrite H1. destruct (existsb (String.eqb k) known) eqn:E; cbn [andb].
    + destruct (IH _ _ (holds_set known d f k v (conj H1 H2) E)) as [A B]. split; [|exact B]. eapply holds_ext; [exact A|].
      intros k'. rewrite after_app. reflexivity.
    + cbn [fst snd]. split; [exact (conj H1 H2)|reflexivity].
Qed.
Lemma update1 d m : fmt_update d [m] = ior d m.
Proof. cbn [fmt_update]. destruct (ior d m) as [[[]|e] d']; reflexivity. Qed.

(** Updating a formatter with any settings: its names stay as they were, in the same order; the settings before the first unknown
    name take effect, the last one for each name winning; every other property keeps its value; the call succeeds exactly if all
    names are known and raises KeyError otherwise. *)
Theorem C59_update : forall d dicts r d', fmt_update d dicts = (r, d') -> let items := concat dicts in let known := map fst d in
  map fst d' = known /\
  (forall k, od_get String.eqb d' k = match last_value (until_unknown known items) k with Some v => Some v | None => od_get String.eqb d k end) /\
  (Forall (fun kv => In (fst kv) known) items -> r = Ok tt /\ until_unknown known items = items) /\
  (~ Forall (fun kv => In (fst kv) known) items -> r = Err KeyError).
Proof.
  intros d dicts r d' E items known.
  assert (M : forall d, fmt_update d dicts = ior d items).
  { subst items. clear. induction dicts as [|m dicts IH]; intros d; [reflexivity|]. cbn [fmt_update concat].
    assert (A : forall a b d, ior d (a ++ b) = match ior d a with (Ok _, d') => ior d' b | (Err e, d') => (Err e, d') end).
    { clear. induction a as [|[k v] a IH]; intros b d; [reflexivity|]. cbn [app ior]. destruct (od_mem String.eqb d k); [apply IH|reflexivity]. }
    rewrite A. destruct (ior d m) as [[[]|e] d']; [apply IH|reflexivity]. }
  rewrite M in E. destruct (ior_holds known items d (od_get String.eqb d) (conj eq_refl (fun _ => eq_refl))) as [[H1 H2] H3].
  rewrite E in H1, H2, H3. cbn [fst snd] in *. split; [exact H1|]. split; [exact H2|].
  assert (F : forallb (fun kv => existsb (String.eqb (fst kv)) known) items = true <-> Forall (fun kv => In (fst kv) known) items).
  { rewrite forallb_forall, Forall_forall. split; intros H x Hx; specialize (H x Hx).
    - apply existsb_exists in H. destruct H as (y & Hy & Ey). apply String.eqb_eq in Ey. rewrite Ey. exact Hy.
    - apply existsb_exists. exists (fst x). split; [exact H|apply String.eqb_refl]. }
  split.
  - intros A. pose proof A as A'. apply F in A. rewrite A in H3. split; [exact H3|]. clear -A. induction items as [|[k v] items IH]; [reflexivity|].
    cbn [forallb until_unknown fst] in *. apply andb_prop in A. destruct A as [-> A]. rewrite IH by exact A. reflexivity.
  - intros N. destruct (forallb _ items) eqn:Q; [exfalso; apply N, F, eq_refl|exact H3].
Qed.
Print Assumptions C59_update.

Definition fmt_of (x : axes) (w : which) : fmt := match w with WLine => line x | WMarker => marker x | WErr => errorbar x | WFill => fill x | WText => text x end.
Lemma defaults_get w k : od_get String.eqb (defaults w) k = last_value (defaults w) k.
Proof.
  assert (G : forall d : fmt, NoDup (map fst d) -> od_get String.eqb d k = last_value d k).
  { induction d as [|[k' v] d IH]; intros N; [reflexivity|]. cbn [map fst] in N. inversion N as [|a l Hn Hd]; subst. cbn [od_get last_value].
    rewrite <- IH by exact Hd. destruct (String.eqb_spec k k') as [->|_]; [|destruct (od_get String.eqb d k); reflexivity].
    destruct (od_get String.eqb d k') eqn:G; [|reflexivity]. exfalso. apply Hn. change (map fst d) with (od_keys d).
    destruct (in_dec string_dec k' (od_keys d)) as [I|I]; [exact I|]. apply (od_get_None _ String.eqb_spec) in I. congruence. }
  apply G. destruct w; cbn; repeat constructor; cbn; intuition congruence.
Qed.
Lemma holds_fec known d f c a :
  existsb (String.eqb "fc") known = true -> existsb (String.eqb "fa") known = true -> existsb (String.eqb "ec") known = true -> existsb (String.eqb "ea") known = true ->
  holds known d f -> holds known (set_fec d c a) (after f (opt "fc" c ++ opt "fa" a ++ opt "ec" c ++ opt "ea" a)).
Proof.
  intros E1 E2 E3 E4 H. unfold set_fec, set_ec, set_fc.
  eapply holds_ext; [apply holds_some; [apply holds_some; [apply holds_some; [apply holds_some; [exact H|exact E1]|exact E2]|exact E3]|exact E4]|].
  intros k. cbn beta. rewrite ?after_app, <- ?app_assoc; reflexivity.
Qed.
Lemma holds_ca known d f c a : existsb (String.eqb "c") known = true -> existsb (String.eqb "a") known = true ->
  holds known d f -> holds known (set_ca d c a) (after f (opt "c" c ++ opt "a" a)).
Proof.
  intros E1 E2 H. unfold set_ca. eapply holds_ext; [apply holds_some; [apply holds_some; [exact H|exact E1]|exact E2]|].
  intros k. rewrite after_app. reflexivity.
Qed.
Lemma step_holds w x o f : holds (names w) (fmt_of x w) f -> holds (names w) (fmt_of (fmt_step x o) w) (after f (gives w o)).
Proof.
  intros H.
  destruct w; destruct o as [c a|kw|st c a kw|kw|c a kw|kw]; cbn [fmt_of fmt_step line marker errorbar fill text gives axes_c] in *;
    try (eapply holds_ext; [exact H|reflexivity]).
  - apply holds_ca; [reflexivity|reflexivity|exact H].
  - rewrite update1. apply ior_holds. exact H.
  - apply holds_fec; try reflexivity. exact H.
  - unfold fmt_marker.
    assert (Q : snd (fmt_update (set_fec (marker x) c a) [[("style"%string, st)]; kw]) = snd (ior (od_set String.eqb (set_fec (marker x) c a) "style"%string st) kw)).
    { cbn [fmt_update ior]. assert (M : od_mem String.eqb (set_fec (marker x) c a) "style"%string = true).
      { rewrite od_mem_exists. destruct (holds_fec (names WMarker) (marker x) f c a eq_refl eq_refl eq_refl eq_refl H) as [-> _]. reflexivity. }
      rewrite M. destruct (ior (od_set String.eqb (set_fec (marker x) c a) "style"%string st) kw) as [[[]|] d']; reflexivity. }
    rewrite Q. eapply holds_ext.
    + apply ior_holds. apply holds_set; [apply holds_fec; [reflexivity|reflexivity|reflexivity|reflexivity|exact H]|reflexivity].
    + intros k. rewrite ?after_app, <- ?app_assoc; reflexivity.
  - apply holds_ca; [reflexivity|reflexivity|exact H].
  - rewrite update1. apply ior_holds. exact H.
  - apply holds_fec; try reflexivity. exact H.
  - unfold fmt_fill. rewrite update1. eapply holds_ext.
    + apply ior_holds. apply holds_fec; [reflexivity|reflexivity|reflexivity|reflexivity|exact H].
    + intros k. rewrite ?after_app, <- ?app_assoc; reflexivity.
  - rewrite update1. apply ior_holds. exact H.
Qed.

(** After any history of c, fmt_line, fmt_marker, fmt_errorbar, fmt_fill and fmt_text calls, failed ones included, every property
    of every formatter has the value last given to it, its default if none was; no property appears or disappears. *)
Theorem C59_history : forall ops w, let d := fmt_of (fmt_run ops) w in
  map fst d = names w /\ forall k, od_get String.eqb d k = value w k ops.
Proof.
  intros ops w. unfold fmt_run, value.
  assert (G : forall ops x f, holds (names w) (fmt_of x w) f -> holds (names w) (fmt_of (fold_left fmt_step ops x) w) (after f (flat_map (gives w) ops))).
  { clear. induction ops as [|o ops IH]; intros x f H; cbn [fold_left flat_map]; [exact H|].
    eapply holds_ext; [apply IH, step_holds, H|]. intros k. apply after_app. }
  assert (H0 : holds (names w) (fmt_of new_axes w) (last_value (defaults w))).
  { split; [destruct w; reflexivity|]. intros k. rewrite <- defaults_get. destruct w; reflexivity. }
  destruct (G ops new_axes _ H0) as [A B]. split; [exact A|exact B].
Qed.
Print Assumptions C59_history.

(** Drawing: every keyword given by the caller reaches matplotlib unchanged; every keyword fed by a formatter and not given by the
    caller has the value last set; the call fails only if a colour of the formatters involved is not one. *)
Definition resolved (mk : pv -> pv -> result pv) (ops : list fmt_op) (s : source) : result pv :=
  match s with
  | FromProp w k => match value w k ops with Some v => Ok v | None => Err KeyError end
  | FromColour w c a => match value w c ops, value w a ops with Some c, Some a => mk c a | _, _ => Err KeyError end
  end.
Lemma prop_eq ops w k name : In k (names w) -> exists v, value w k ops = Some v /\ prop (fmt_of (fmt_run ops) w) k name = Ok [(name, v)].
Proof.
  intros I. destruct (C59_history ops w) as [A B]. unfold prop, fmt_get. rewrite (B k).
  destruct (value w k ops) as [v|] eqn:E; [exists v; split; reflexivity|]. exfalso. rewrite <- (B k) in E.
  apply (od_get_None _ String.eqb_spec) in E. apply E. unfold od_keys. rewrite A. exact I.
Qed.
Lemma colour_eq mk ops w c a name : In c (names w) -> In a (names w) -> exists vc va, value w c ops = Some vc /\ value w a ops = Some va /\
  colour mk (fmt_of (fmt_run ops) w) c a name = rmap (fun v => [(name, v)]) (mk vc va).
Proof.
  intros Ic Ia. destruct (prop_eq ops w c name Ic) as (vc & E1 & _). destruct (prop_eq ops w a name Ia) as (va & E2 & _).
  exists vc, va. split; [exact E1|]. split; [exact E2|]. destruct (C59_history ops w) as [_ B]. unfold colour, fmt_get.
  rewrite (B c), (B a), E1, E2. reflexivity.
Qed.
Ltac dprop ops w k name := let v := fresh "v" in let H1 := fresh "V" in let H2 := fresh "P" in
  destruct (prop_eq ops w k name ltac:(cbn; tauto)) as (v & H1 & H2); cbn [fmt_of] in H2; rewrite H2; clear H2.
Ltac dcol mk ops w c a name := let v := fresh "v" in let v' := fresh "v" in let H1 := fresh "V" in let H2 := fresh "V" in let H3 := fresh "P" in
  destruct (colour_eq mk ops w c a name ltac:(cbn; tauto) ltac:(cbn; tauto)) as (v & v' & H1 & H2 & H3); cbn [fmt_of] in H3; rewrite H3; clear H3.
Ltac resolve_all mk ops := repeat match goal with
  | |- context [prop (line (fmt_run ops)) ?k ?n] => dprop ops WLine k n
  | |- context [prop (marker (fmt_run ops)) ?k ?n] => dprop ops WMarker k n
  | |- context [prop (errorbar (fmt_run ops)) ?k ?n] => dprop ops WErr k n
  | |- context [prop (fill (fmt_run ops)) ?k ?n] => dprop ops WFill k n
  | |- context [prop (text (fmt_run ops)) ?k ?n] => dprop ops WText k n
  | |- context [colour mk (line (fmt_run ops)) ?c ?a ?n] => dcol mk ops WLine c a n
  | |- context [colour mk (marker (fmt_run ops)) ?c ?a ?n] => dcol mk ops WMarker c a n
  | |- context [colour mk (errorbar (fmt_run ops)) ?c ?a ?n] => dcol mk ops WErr c a n
  | |- context [colour mk (fill (fmt_run ops)) ?c ?a ?n] => dcol mk ops WFill c a n
  | |- context [colour mk (text (fmt_run ops)) ?c ?a ?n] => dcol mk ops WText c a n
  end.
Ltac all_colours mk := repeat match goal with |- context [rmap _ (mk ?c ?a)] => let E := fresh "E" in destruct (mk c a) eqn:E; cbn [mapM bind rmap] end.
Ltac by_name k := repeat match goal with |- context [String.eqb k ?s] => destruct (String.eqb k s) end.
Ltac failing mk := try (match goal with E : mk ?c ?a = Err _, H1 : value ?w _ _ = Some ?c, H2 : value ?w _ _ = Some ?a |- exists _, _ =>
  exists w; do 2 eexists; exists c, a; split; [exact H1|split; [exact H2|exact E]] end).
Lemma base_spec mk ops m : match draw_base mk (fmt_run ops) m with
  | Err e => exists w c a vc va, value w c ops = Some vc /\ value w a ops = Some va /\ mk vc va = Err e
  | Ok b => forall k, match od_get String.eqb b k with
                      | Some v => exists s, sources m k = Some s /\ resolved mk ops s = Ok v
                      | None => sources m k = None end
  end.
Proof.
  destruct m; unfold draw_base; resolve_all mk ops; cbn [mapM bind rmap]; all_colours mk; failing mk;
    intros k; cbn [concat app od_get sources]; by_name k; try reflexivity;
    (eexists; split; [reflexivity|]; cbn [resolved]; repeat match goal with H : value _ _ _ = Some _ |- _ => rewrite H end; congruence).
Qed.
Theorem C59_draw : forall mk ops m user, match draw_kw mk (fmt_run ops) m user with
  | Err e => exists w c a vc va, value w c ops = Some vc /\ value w a ops = Some va /\ mk vc va = Err e
  | Ok kw => forall k, match last_value user k with
                       | Some v => od_get String.eqb kw k = Some v
                       | None => match sources m k with
                                 | Some s => exists v, resolved mk ops s = Ok v /\ od_get String.eqb kw k = Some v
                                 | None => od_get String.eqb kw k = None end
                       end
  end.
Proof.
  intros mk ops m user. unfold draw_kw. pose proof (base_spec mk ops m) as B. destruct (draw_base mk (fmt_run ops) m) as [b|e]; cbn [rmap]; [|exact B].
  intros k. assert (U : forall u b, od_get String.eqb (od_update String.eqb b u) k = match last_value u k with Some v => Some v | None => od_get String.eqb b k end).
  { clear. induction u as [|[k' v] u IH]; intros b; [reflexivity|]. cbn [od_update fold_left last_value]. unfold od_update in IH. rewrite IH. cbn [fst snd].
    rewrite (od_get_set _ String.eqb_spec). destruct (last_value u k); [reflexivity|]. destruct (String.eqb k k'); reflexivity. }
  rewrite U. destruct (last_value user k); [reflexivity|]. specialize (B k). destruct (od_get String.eqb b k) as [v|].
  - destruct B as (s & -> & R). exists v. auto.
  - rewrite B. reflexivity.
Qed.
Print Assumptions C59_draw.

(** fmt_marker called without style takes the marker style away again, although its other arguments keep what they do not
    mention. *)
Theorem C59_marker_style_refuted : forall st kw, st <> PNone -> last_value (until_unknown (names WMarker) kw) "style" = None ->
  value WMarker "style" [FMarker st PNone PNone []] = Some st /\ value WMarker "style" [FMarker st PNone PNone []; FMarker PNone PNone PNone kw] = Some PNone.
Proof.
  intros st kw N K. unfold value. cbn [flat_map gives opt app]. split; [reflexivity|].
  change (until_unknown (names WMarker) []) with (@nil (string * pv)). rewrite app_nil_r. cbn [app last_value]. rewrite K. reflexivity.
Qed.
Print Assumptions C59_marker_style_refuted.

(** Frames.  After any history of lim, label, scale and label_outer calls, matplotlib was last told, for each axis, the value last
    given for it (a None does not take an earlier one back); nothing if none was given. *)
Definition comp (is_x : bool) (x y : pv) : pv := if is_x then x else y.
Definition stored (d : fmt) (what : string) : pv := match od_get String.eqb d what with Some v => v | None => PNone end.
Lemma last_told_app what b c1 c2 : last_told what b (c1 ++ c2) = match last_told what b c2 with Some v => Some v | None => last_told what b c1 end.
Proof.
  induction c1 as [|c c1 IH]; cbn [app last_told]; [destruct (last_told what b c2); reflexivity|]. rewrite IH.
  destruct (last_told what b c2); reflexivity.
Qed.
Lemma last_given_app what b a o : last_given what b (a ++ o) = match last_given what b o with Some v => Some v | None => last_given what b a end.
Proof.
  induction a as [|c1 a IH]; cbn [app last_given]; [destruct (last_given what b o); reflexivity|]. rewrite IH.
  destruct (last_given what b o); reflexivity.
Qed.
Lemma frame_run_app a o d : frame_run d (a ++ [o]) =
  let '(d1, c1) := frame_run d a in let '(_, d2, c2) := fmt_frame d1 (frame_kw o) in (d2, c1 ++ c2).
Proof.
  revert d. induction a as [|o' a IH]; intros d; cbn [app frame_run].
  - destruct (fmt_frame d (frame_kw o)) as [[r d2] c2]. rewrite app_nil_r. reflexivity.
  - destruct (fmt_frame d (frame_kw o')) as [[r d2] c2]. rewrite IH. destruct (frame_run d2 a) as [d3 c3].
    destruct (fmt_frame d3 (frame_kw o)) as [[r' d4] c4]. rewrite app_assoc. reflexivity.
Qed.
(** The frame as these calls leave it. *)
Definition is_xy (v : pv) : Prop := v = PNone \/ exists x y, v = xy x y.
Definition frame_is (d : fmt) (l1 l2 l3 o : pv) : Prop :=
  d = [("lim", l1); ("label", l2); ("scale", l3); ("ticks", PNone); ("ticklabels", PNone); ("tick_params", PNone); ("label_outer", o)]%string.
Definition told1 (v : pv) (b : bool) : option pv := match v with PMap [(_, x); (_, y)] => match comp b x y with PNone => None | w => Some w end | _ => None end.
Definition calls1 (what : string) (v : pv) : list call := match v with PMap [(_, x); (_, y)] => axis_call what true x [] ++ axis_call what false y [] | _ => [] end.
Lemma apply_frame_is d l1 l2 l3 o : frame_is d l1 l2 l3 o -> is_xy l1 -> is_xy l2 -> is_xy l3 -> (o = PNone \/ o = PBool true) ->
  apply_frame d = (Ok tt, calls1 "lim" l1 ++ calls1 "label" l2 ++ calls1 "scale" l3 ++ match o with PNone => [] | _ => [LabelOuter] end).
Proof.
  intros -> [->|(x1 & y1 & ->)] [->|(x2 & y2 & ->)] [->|(x3 & y3 & ->)] [->| ->]; cbn; rewrite ?app_nil_r; reflexivity.
Qed.
Lemma told_calls1 what v b w : is_xy v -> last_told w b (calls1 what v) = if String.eqb w what then told1 v b else None.
Proof.
  intros [->|(x & y & ->)]; cbn [calls1 xy told1]; [destruct (String.eqb w what); reflexivity|].
  rewrite last_told_app. unfold axis_call, comp.
  destruct b; destruct x; destruct y; cbn [not_none last_told Bool.eqb]; destruct (String.eqb w what); reflexivity.
Qed.
Lemma frame_inv ops : forall d cs, frame_run frame_fmt ops = (d, cs) ->
  exists l1 l2 l3 o, frame_is d l1 l2 l3 o /\ is_xy l1 /\ is_xy l2 /\ is_xy l3 /\ (o = PNone \/ o = PBool true) /\ forall b, (forall v, told1 l1 b = Some v -> last_given "lim" b ops = Some v) /\ (forall v, told1 l2 b = Some v -> last_given "label" b ops = Some v) /\ (forall v, told1 l3 b = Some v -> last_given "scale" b ops = Some v) /\ last_told "lim" b cs = last_given "lim" b ops /\ last_told "label" b cs = last_given "label" b ops /\ last_told "scale" b cs = last_given "scale" b ops.
Proof.
  induction ops as [|op ops IH] using rev_ind; intros d cs E.
  - cbn [frame_run] in E. assert (d = frame_fmt) by congruence. assert (cs = []) by congruence. subst.
    exists PNone, PNone, PNone, PNone. split; [reflexivity|]. do 3 (split; [left; reflexivity|]). split; [left; reflexivity|].
    intros b. repeat split; intros; discriminate.
  - rewrite frame_run_app in E. destruct (frame_run frame_fmt ops) as [d1 c1]. destruct (IH _ _ eq_refl) as (l1 & l2 & l3 & o & F & X1 & X2 & X3 & O & H). clear IH.
    unfold fmt_frame in E.
    assert (S : exists l1' l2' l3' o', ior d1 (frame_kw op) = (Ok tt, [("lim", l1'); ("label", l2'); ("scale", l3'); ("ticks", PNone); ("ticklabels", PNone); ("tick_params", PNone); ("label_outer", o')]%string)
      /\ is_xy l1' /\ is_xy l2' /\ is_xy l3' /\ (o' = PNone \/ o' = PBool true) /\ forall b, last_given "lim" b (ops ++ [op]) = match told1 l1' b with Some v => Some v | None => last_given "lim" b ops end /\ last_given "label" b (ops ++ [op]) = match told1 l2' b with Some v => Some v | None => last_given "label" b ops end /\ last_given "scale" b (ops ++ [op]) = match told1 l3' b with Some v => Some v | None => last_given "scale" b ops end).
    { assert (Keep : forall b, last_given "lim" b ops = match told1 l1 b with Some v => Some v | None => last_given "lim" b ops end /\ last_given "label" b ops = match told1 l2 b with Some v => Some v | None => last_given "label" b ops end /\ last_given "scale" b ops = match told1 l3 b with Some v => Some v | None => last_given "scale" b ops end).
      { intros b. destruct (H b) as (H1 & H2 & H3 & _). repeat split.
        - destruct (told1 l1 b) as [v|]; [apply H1; reflexivity|reflexivity].
        - destruct (told1 l2 b) as [v|]; [apply H2; reflexivity|reflexivity].
        - destruct (told1 l3 b) as [v|]; [apply H3; reflexivity|reflexivity]. }
      unfold frame_is in F. subst d1.
      destruct op as [x y|x y|x y|]; cbn [frame_kw].
      - exists (xy x y), l2, l3, o. split; [reflexivity|]. split; [right; eauto|]. do 3 (split; [assumption|]). intros b.
        destruct (Keep b) as (K1 & K2 & K3). rewrite !last_given_app. cbn. split; [unfold comp; destruct b; [destruct x|destruct y]; reflexivity|]. split; assumption.
      - exists l1, (xy x y), l3, o. split; [reflexivity|]. split; [assumption|]. split; [right; eauto|]. do 2 (split; [assumption|]). intros b.
        destruct (Keep b) as (K1 & K2 & K3). rewrite !last_given_app. cbn. split; [assumption|]. split; [unfold comp; destruct b; [destruct x|destruct y]; reflexivity|]. assumption.
      - exists l1, l2, (xy x y), o. split; [reflexivity|]. do 2 (split; [assumption|]). split; [right; eauto|]. split; [assumption|]. intros b.
        destruct (Keep b) as (K1 & K2 & K3). rewrite !last_given_app. cbn. do 2 (split; [assumption|]). unfold comp; destruct b; [destruct x|destruct y]; reflexivity.
      - exists l1, l2, l3, (PBool true). split; [reflexivity|]. do 3 (split; [assumption|]). split; [right; reflexivity|]. intros b.
        rewrite !last_given_app. cbn. apply Keep. }
    destruct S as (l1' & l2' & l3' & o' & EI & X1' & X2' & X3' & O' & G). rewrite EI in E.
    rewrite (apply_frame_is _ l1' l2' l3' o' eq_refl X1' X2' X3' O') in E. assert (Ed : d = [("lim", l1'); ("label", l2'); ("scale", l3'); ("ticks", PNone); ("ticklabels", PNone); ("tick_params", PNone); ("label_outer", o')]%string) by congruence.
    assert (Ec : cs = c1 ++ calls1 "lim" l1' ++ calls1 "label" l2' ++ calls1 "scale" l3' ++ match o' with PNone => [] | _ => [LabelOuter] end) by congruence.
    clear E. subst d cs. exists l1', l2', l3', o'. split; [reflexivity|]. do 4 (split; [assumption|]). intros b. destruct (G b) as (G1 & G2 & G3). destruct (H b) as (_ & _ & _ & T1 & T2 & T3).
    assert (Out : forall w, last_told w b match o' with PNone => [] | _ => [LabelOuter] end = None) by (intros w; destruct O' as [->| ->]; reflexivity).
    split; [intros v Hv; rewrite G1, Hv; reflexivity|]. split; [intros v Hv; rewrite G2, Hv; reflexivity|]. split; [intros v Hv; rewrite G3, Hv; reflexivity|].
    rewrite !last_told_app, !Out, !told_calls1 by assumption. cbn [String.eqb Ascii.eqb Bool.eqb]. rewrite G1, G2, G3, T1, T2, T3.
    split; [reflexivity|]. split; [destruct (told1 l2' b)|destruct (told1 l3' b)]; reflexivity.
Qed.
Theorem C59_frame_last : forall ops what is_x, In what ["lim"; "label"; "scale"]%string ->
  last_told what is_x (snd (frame_run frame_fmt ops)) = last_given what is_x ops.
Proof.
  intros ops what b I. destruct (frame_run frame_fmt ops) as [d cs] eqn:E. destruct (frame_inv ops d cs E) as (l1 & l2 & l3 & o & _ & _ & _ & _ & _ & H).
  destruct (H b) as (_ & _ & _ & T1 & T2 & T3). destruct I as [<-|[<-|[<-|[]]]]; assumption.
Qed.
Print Assumptions C59_frame_last.

(** Every frame call repeats what was set before: limits set with lim are imposed again by a later label, scale or label_outer
    call, so a change made directly on the matplotlib axes in between does not last. *)
Theorem C59_frame_replay : forall pre x y post op, (forall x y, op <> OLim x y) -> (forall x' y', ~ In (OLim x' y') post) ->
  let d := fst (frame_run frame_fmt (pre ++ OLim x y :: post)) in
  let '(r, _, cs) := fmt_frame d (frame_kw op) in
  r = Ok tt /\ last_told "lim" true cs = (if not_none x then Some x else None) /\ last_told "lim" false cs = (if not_none y then Some y else None).
Proof.
  intros pre x y post op N1 N2.
  assert (Lim : forall ops, (forall x' y', ~ In (OLim x' y') ops) -> forall d, (exists l1 l2 l3 o, frame_is d l1 l2 l3 o /\ is_xy l2 /\ is_xy l3 /\ (o = PNone \/ o = PBool true) /\ l1 = xy x y) ->
     exists l1 l2 l3 o, frame_is (fst (frame_run d ops)) l1 l2 l3 o /\ is_xy l2 /\ is_xy l3 /\ (o = PNone \/ o = PBool true) /\ l1 = xy x y).
  { induction ops as [|o ops IH]; intros N d Hd; [exact Hd|]. cbn [frame_run].
    assert (S : exists l1 l2 l3 ou, frame_is (snd (fst (fmt_frame d (frame_kw o)))) l1 l2 l3 ou /\ is_xy l2 /\ is_xy l3 /\ (ou = PNone \/ ou = PBool true) /\ l1 = xy x y).
    { destruct Hd as (l1 & l2 & l3 & ou & F & X2 & X3 & O & ->). unfold frame_is in F. subst d. unfold fmt_frame.
      destruct o as [a b|a b|a b|]; cbn [frame_kw ior od_mem od_get od_set String.eqb Ascii.eqb Bool.eqb].
      - exfalso. exact (N a b (or_introl eq_refl)).
      - erewrite apply_frame_is; [|reflexivity|right; eauto|right; eauto|eassumption|eassumption]. cbn [fst snd]. do 4 eexists. split; [reflexivity|].
        split; [right; eauto|]. split; [assumption|]. split; [assumption|reflexivity].
      - erewrite apply_frame_is; [|reflexivity|right; eauto|eassumption|right; eauto|eassumption]. cbn [fst snd]. do 4 eexists. split; [reflexivity|].
        split; [assumption|]. split; [right; eauto|]. split; [assumption|reflexivity].
      - erewrite apply_frame_is; [|reflexivity|right; eauto|eassumption|eassumption|right; reflexivity]. cbn [fst snd]. do 4 eexists. split; [reflexivity|].
        split; [assumption|]. split; [assumption|]. split; [right; reflexivity|reflexivity]. }
    destruct (fmt_frame d (frame_kw o)) as [[r d2] c2]. cbn [fst snd] in S.
    assert (N' : forall x' y', ~ In (OLim x' y') ops) by (intros x' y' I; exact (N x' y' (or_intror I))).
    specialize (IH N' d2 S). destruct (frame_run d2 ops) as [d3 c3]. exact IH. }
  cbv zeta. set (d := fst (frame_run frame_fmt (pre ++ OLim x y :: post))).
  assert (D : exists l1 l2 l3 o, frame_is d l1 l2 l3 o /\ is_xy l2 /\ is_xy l3 /\ (o = PNone \/ o = PBool true) /\ l1 = xy x y).
  { unfold d. replace (pre ++ OLim x y :: post) with ((pre ++ [OLim x y]) ++ post) by (rewrite <- app_assoc; reflexivity).
    assert (A : forall a b e, fst (frame_run e (a ++ b)) = fst (frame_run (fst (frame_run e a)) b)).
    { clear. induction a as [|o a IH]; intros b e; [reflexivity|]. cbn [app frame_run]. destruct (fmt_frame e (frame_kw o)) as [[r d2] c2].
      specialize (IH b d2). destruct (frame_run d2 (a ++ b)). destruct (frame_run d2 a). exact IH. }
    rewrite A. apply Lim; [exact N2|]. rewrite frame_run_app. destruct (frame_run frame_fmt pre) as [d1 c1] eqn:E.
    destruct (frame_inv pre d1 c1 E) as (l1 & l2 & l3 & o & F & X1 & X2 & X3 & O & _). unfold frame_is in F. subst d1. unfold fmt_frame.
    cbn [frame_kw ior od_mem od_get od_set String.eqb Ascii.eqb Bool.eqb].
    erewrite apply_frame_is; [|reflexivity|right; eauto|eassumption|eassumption|eassumption]. cbn [fst snd]. do 4 eexists. split; [reflexivity|]. auto. }
  destruct D as (l1 & l2 & l3 & o & F & X2 & X3 & O & ->). clearbody d. unfold frame_is in F. subst d. unfold fmt_frame.
  assert (T : forall b l2 l3 o, is_xy l2 -> is_xy l3 -> (o = PNone \/ o = PBool true) ->
     last_told "lim" b (calls1 "lim" (xy x y) ++ calls1 "label" l2 ++ calls1 "scale" l3 ++ match o with PNone => [] | _ => [LabelOuter] end) = if not_none (comp b x y) then Some (comp b x y) else None).
  { clear. intros b l2 l3 o X2 X3 O.
    assert (Out : forall w, last_told w b match o with PNone => [] | _ => [LabelOuter] end = None) by (intros w; destruct O as [->| ->]; reflexivity).
    rewrite !last_told_app, Out, !told_calls1 by (assumption || right; eauto). cbn [String.eqb Ascii.eqb Bool.eqb told1 xy].
    destruct (comp b x y); reflexivity. }
  destruct op as [a b|a b|a b|]; cbn [frame_kw ior od_mem od_get od_set String.eqb Ascii.eqb Bool.eqb].
  - exfalso. exact (N1 a b eq_refl).
  - erewrite apply_frame_is; [|reflexivity|right; eauto|right; eauto|eassumption|eassumption]. split; [reflexivity|]. split; [apply (T true)|apply (T false)]; try assumption; right; eauto.
  - erewrite apply_frame_is; [|reflexivity|right; eauto|eassumption|right; eauto|eassumption]. split; [reflexivity|]. split; [apply (T true)|apply (T false)]; try assumption; right; eauto.
  - erewrite apply_frame_is; [|reflexivity|right; eauto|eassumption|eassumption|right; reflexivity]. split; [reflexivity|]. split; [apply (T true l2 l3 (PBool true))|apply (T false l2 l3 (PBool true))]; try assumption; right; reflexivity.
Qed.
Print Assumptions C59_frame_replay.

(** Frame properties of the wrong form: a pair where two values are expected must have two, anything that is neither a map nor a
    sequence is a TypeError, tick_params that is not a map is an UnboundLocalError; the formatter keeps the offending value, so
    every later frame call fails in the same way until it is replaced. *)
Theorem C59_frame_bad : forall d k v e, map fst d = frame_order -> In k frame_order ->
  (forall k', In k' frame_order -> k' <> k -> od_get String.eqb d k' = Some PNone) ->
  fst (fst (fmt_frame d [(k, v)])) = Err e ->
  (k = "tick_params"%string -> ~ (exists m, v = PMap m) -> e = UnboundLocalError) /\
  (k <> "tick_params"%string -> (e = TypeError /\ (forall l, v <> PSeq l) \/ e = ValueError /\ exists l, v = PSeq l /\ length l <> 2)) /\
  let d' := snd (fst (fmt_frame d [(k, v)])) in od_get String.eqb d' k = Some v /\ fst (fst (fmt_frame d' [])) = Err e.
Proof.
  intros d k v e K I O F.
  assert (M : od_mem String.eqb d k = true).
  { rewrite od_mem_exists, K. apply existsb_exists. exists k. split; [exact I|apply String.eqb_refl]. }
  assert (J : ior d [(k, v)] = (Ok tt, od_set String.eqb d k v)) by (cbn [ior]; rewrite M; reflexivity).
  unfold fmt_frame in *. rewrite J in *. destruct (apply_frame (od_set String.eqb d k v)) as [r cs] eqn:A. cbn [fst snd] in *. subst r.
  assert (One : fst (apply_one (od_set String.eqb d k v) k) = Err e).
  { assert (G : forall k', In k' frame_order -> k' <> k -> apply_one (od_set String.eqb d k v) k' = (Ok tt, [])).
    { intros k' I' N. unfold apply_one. rewrite (od_get_set_other _ String.eqb_spec) by congruence. rewrite O by assumption. reflexivity. }
    assert (H : forall ks, (forall k', In k' ks -> In k' frame_order) -> forall c, apply_all (od_set String.eqb d k v) ks = (Err e, c) -> fst (apply_one (od_set String.eqb d k v) k) = Err e).
    { induction ks as [|k' ks IH]; intros Hin c Ec; cbn [apply_all] in Ec; [discriminate|]. destruct (string_dec k' k) as [->|N].
      - destruct (apply_one (od_set String.eqb d k v) k) as [[[]|e'] c'].
        + destruct (apply_all (od_set String.eqb d k v) ks) as [r cs'] eqn:Q. assert (r = Err e) by congruence. subst r.
          apply (IH (fun k' H => Hin k' (or_intror H)) _ eq_refl).
        + cbn [fst]. congruence.
      - rewrite (G k' (Hin k' (or_introl eq_refl)) N) in Ec. destruct (apply_all (od_set String.eqb d k v) ks) as [r cs'] eqn:Q. assert (r = Err e) by congruence. subst r.
        apply (IH (fun k' H => Hin k' (or_intror H)) _ eq_refl). }
    exact (H frame_order (fun _ h => h) cs A). }
  unfold apply_one in One. rewrite (od_get_set_same _ String.eqb_spec) in One.
  split; [|split; [|split]].
  - intros -> N. cbn [String.eqb Ascii.eqb Bool.eqb] in One. destruct v; cbn [apply_ticks fst] in One; try congruence. exfalso. apply N. eauto.
  - intros N. destruct (String.eqb_spec k "tick_params"%string) as [|_]; [contradiction|].
    destruct (String.eqb k "label_outer"%string); [destruct v; cbn [fst] in One; discriminate|].
    destruct v as [|n|b|t|m|l]; cbn [apply_xy fst] in One; try discriminate; try (left; split; [congruence|discriminate]).
    right. destruct l as [|x [|y [|z l]]]; cbn [fst] in One; try discriminate; (split; [congruence|]); eexists; split; try reflexivity; cbn [length]; lia.
  - apply (od_get_set_same _ String.eqb_spec).
  - cbn [ior]. rewrite A. reflexivity.
Qed.
Print Assumptions C59_frame_bad.

(** errorfill: the band around y; without yerr (its default) the call always fails. *)
Theorem C59_errorfill : forall y lo hi,
  (forall e, errorfill y (YNum e) = Ok (lo, hi) -> length lo = length y /\ length hi = length y /\ forall i, i < length y ->
     (nth i lo 0 == nth i y 0 - e /\ nth i hi 0 == nth i y 0 + e)%Q) /\
  (forall e, length e = length y -> errorfill y (YVec e) = Ok (lo, hi) -> length lo = length y /\ length hi = length y /\ forall i, i < length y ->
     (nth i lo 0 == nth i y 0 - nth i e 0 /\ nth i hi 0 == nth i y 0 + nth i e 0)%Q) /\
  (forall a b, length a = length y -> length b = length y -> errorfill y (YMat [a; b]) = Ok (lo, hi) -> length lo = length y /\ length hi = length y /\ forall i, i < length y ->
     (nth i lo 0 == nth i y 0 - nth i a 0 /\ nth i hi 0 == nth i y 0 + nth i b 0)%Q).
Proof.
  intros y lo hi.
  assert (V : forall a y r, length a = length y -> vadd y a = Ok r -> length r = length y /\ forall i, i < length y -> (nth i r 0 == nth i y 0 + nth i a 0)%Q).
  { clear. intros a y r L E. unfold vadd in E. rewrite L, Nat.eqb_refl in E. assert (r = map (fun p => (fst p + snd p)%Q) (combine y a)) by congruence. subst r. clear E.
    split; [rewrite map_length, combine_length; lia|]. intros i Hi.
    rewrite (nth_indep _ 0%Q (fst (0, 0) + snd (0, 0))%Q) by (rewrite map_length, combine_length; lia).
    rewrite (map_nth (fun p => (fst p + snd p)%Q) (combine y a) (0, 0)%Q i), combine_nth by (symmetry; exact L). reflexivity. }
  assert (Ng : forall a i, (nth i (vneg a) 0 == - nth i a 0)%Q).
  { clear. intros a i. unfold vneg. change 0%Q with (- 0)%Q at 1. rewrite map_nth. reflexivity. }
  assert (Lg : forall a, length (vneg a) = length a) by (intros a; apply map_length).
  split; [|split].
  - intros e E. cbn [errorfill] in E. assert (lo = map (fun v => (v - e)%Q) y) by congruence. assert (hi = map (fun v => (v + e)%Q) y) by congruence. subst. clear E.
    rewrite !map_length. split; [reflexivity|]. split; [reflexivity|]. intros i Hi. split.
    + rewrite (nth_indep _ 0%Q (0 - e)%Q) by (rewrite map_length; exact Hi). rewrite (map_nth (fun v => (v - e)%Q)). reflexivity.
    + rewrite (nth_indep _ 0%Q (0 + e)%Q) by (rewrite map_length; exact Hi). rewrite (map_nth (fun v => (v + e)%Q)). reflexivity.
  - intros e L E. cbn [errorfill] in E. destruct (vadd y (vneg e)) as [lo'|] eqn:E1; [|discriminate]. cbn [bind] in E. destruct (vadd y e) as [hi'|] eqn:E2; [|discriminate].
    cbn [bind] in E. assert (lo' = lo) by congruence. assert (hi' = hi) by congruence. subst. clear E.
    destruct (V _ _ _ (eq_trans (Lg e) L) E1) as [A1 A2]. destruct (V _ _ _ L E2) as [B1 B2]. split; [exact A1|]. split; [exact B1|]. intros i Hi. split; [|apply B2; exact Hi].
    rewrite A2 by exact Hi. rewrite Ng. reflexivity.
  - intros a b La Lb E. cbn [errorfill] in E. destruct (vadd y (vneg a)) as [lo'|] eqn:E1; [|discriminate]. cbn [bind] in E. destruct (vadd y b) as [hi'|] eqn:E2; [|discriminate].
    cbn [bind] in E. assert (lo' = lo) by congruence. assert (hi' = hi) by congruence. subst. clear E.
    destruct (V _ _ _ (eq_trans (Lg a) La) E1) as [A1 A2]. destruct (V _ _ _ Lb E2) as [B1 B2]. split; [exact A1|]. split; [exact B1|]. intros i Hi. split; [|apply B2; exact Hi].
    rewrite A2 by exact Hi. rewrite Ng. reflexivity.
Qed.
Print Assumptions C59_errorfill.
(** When errorfill succeeds: error and data of the same length, or one of them of length one (numpy's broadcasting); otherwise ValueError, as for
    a two-dimensional error that has not exactly two rows. *)
Definition fits (y e : list Q) : Prop := length e = length y \/ length e = 1 \/ length y = 1.
Theorem C59_errorfill_shapes : forall y,
  (forall e, exists lo hi, errorfill y (YNum e) = Ok (lo, hi)) /\
  (forall e, fits y e -> exists lo hi, errorfill y (YVec e) = Ok (lo, hi)) /\ (forall e, ~ fits y e -> errorfill y (YVec e) = Err ValueError) /\
  (forall a b, fits y a -> fits y b -> exists lo hi, errorfill y (YMat [a; b]) = Ok (lo, hi)) /\
  (forall a b, ~ (fits y a /\ fits y b) -> errorfill y (YMat [a; b]) = Err ValueError) /\
  (forall rows, length rows <> 2 -> errorfill y (YMat rows) = Err ValueError) /\
  (forall e, length y <> 1 -> errorfill y (YVec [e]) = errorfill y (YNum e)) /\
  (forall v e, y = [v] -> length e <> 1 -> exists lo hi, errorfill y (YVec e) = Ok (lo, hi) /\ Forall2 (fun x l => l == v - x)%Q e lo /\ Forall2 (fun x h => h == v + x)%Q e hi).
Proof.
  intros y. assert (V : forall e, (fits y e -> exists r, vadd y e = Ok r) /\ (~ fits y e -> vadd y e = Err ValueError)).
  { intros e. unfold fits, vadd. destruct (Nat.eqb_spec (length y) (length e)); [split; [eauto|intros H; exfalso; apply H; lia]|]. destruct (Nat.eqb_spec (length e) 1); [split; [eauto|tauto]|].
    destruct (Nat.eqb_spec (length y) 1); [split; [eauto|tauto]|]. split; [lia|reflexivity]. }
  assert (Fn : forall e, fits y (vneg e) <-> fits y e) by (intros e; unfold fits, vneg; rewrite map_length; tauto).
  split; [intros e; cbn [errorfill]; eauto|]. split; [|split; [|split; [|split; [|split; [|split]]]]].
  - intros e H. cbn [errorfill]. destruct (proj1 (V (vneg e)) (proj2 (Fn e) H)) as [lo ->]. destruct (proj1 (V e) H) as [hi ->]. cbn [bind]. eauto.
  - intros e H. cbn [errorfill]. rewrite (proj2 (V (vneg e))) by (rewrite Fn; exact H). reflexivity.
  - intros a b Ha Hb. cbn [errorfill]. destruct (proj1 (V (vneg a)) (proj2 (Fn a) Ha)) as [lo ->]. destruct (proj1 (V b) Hb) as [hi ->]. cbn [bind]. eauto.
  - intros a b H. cbn [errorfill]. assert (D : fits y a \/ ~ fits y a) by (unfold fits; lia). destruct D as [D|D].
    + destruct (proj1 (V (vneg a)) (proj2 (Fn a) D)) as [lo ->]. cbn [bind]. rewrite (proj2 (V b)) by tauto. reflexivity.
    + rewrite (proj2 (V (vneg a))) by (rewrite Fn; exact D). reflexivity.
  - intros [|a [|b [|c rows]]] H; cbn in H; try reflexivity; lia.
  - intros e H. cbn [errorfill vneg map]. unfold vadd. cbn [length nth]. destruct (Nat.eqb_spec (length y) 1); [contradiction|]. reflexivity.
  - intros v e -> H. cbn [errorfill]. unfold vadd. cbn [length nth]. unfold vneg. rewrite map_length. destruct (Nat.eqb_spec 1 (length e)); [lia|]. destruct (Nat.eqb_spec (length e) 1); [contradiction|].
    cbn [Nat.eqb bind]. rewrite map_map. eexists. eexists. split; [reflexivity|]. split; clear; induction e as [|x e IH]; constructor; try exact IH; reflexivity.
Qed.
Print Assumptions C59_errorfill_shapes.
Theorem C59_errorfill_default_refuted : forall y, errorfill y YNone = Err TypeError.
Proof. reflexivity. Qed.
Print Assumptions C59_errorfill_default_refuted.

(** leg: matplotlib's own location names and the short ones arrive as valid names, except "center left" and "center right", which
    are turned into names matplotlib does not know. *)
Theorem C59_leg_loc_refuted : forall loc, (In loc mpl_locs \/ In loc ["r"; "lr"; "ll"; "cl"; "ur"; "ul"; "uc"; "c"]%string) ->
  (In (leg_loc loc) mpl_locs <-> loc <> "center left"%string /\ loc <> "center right"%string).
Proof.
  intros loc H. assert (L : In loc (mpl_locs ++ ["r"; "lr"; "ll"; "cl"; "ur"; "ul"; "uc"; "c"]%string)) by (apply in_or_app; tauto). clear H.
  cbn in L. repeat (destruct L as [<-|L]); try contradiction; cbn; split; intros H; try (split; congruence); try tauto;
    try (exfalso; repeat (destruct H as [H|H]; [discriminate|]); exact H); destruct H as [H1 H2]; congruence.
Qed.
Print Assumptions C59_leg_loc_refuted.

(** Colours: an explicit opacity replaces the fourth component and nothing else; without one the colour's own is kept. *)
Theorem C59_colour : forall named c a v, color named c a = Ok v -> exists r g b o, to_rgba named c = Ok (r, g, b, o) /\
  v = (r, g, b, match a with Some a => a | None => o end).
Proof.
  intros named c a v E. unfold color in E. destruct (to_rgba named c) as [[[[r g] b] o]|] eqn:T; [|discriminate]. exists r, g, b, o. split; [reflexivity|].
  cbn [rmap] in E. destruct a; cbn [with_alpha] in E; congruence.
Qed.
Print Assumptions C59_colour.

(** Runtime configuration. *)
Definition secs_given (w : world) (o : rc_op) : list (string * secref) :=
  match o with
  | RUpdate c => c
  | RSheets ns => (fix go ns := match ns with [] => [] | n :: ns' => match od_get String.eqb (sheets w) n with Some c => c ++ go ns' | None => [] end end) ns
  | _ => []
  end.
Lemma od_get_update_last {V} (u : list (string * V)) : forall b k, od_get String.eqb (od_update String.eqb b u) k =
  match od_get String.eqb (rev u) k with Some v => Some v | None => od_get String.eqb b k end.
Proof.
  assert (A : forall (x y : list (string * V)) k, od_get String.eqb (x ++ y) k = match od_get String.eqb x k with Some v => Some v | None => od_get String.eqb y k end).
  { induction x as [|[k' v] x IH]; intros y k; [reflexivity|]. cbn [app od_get]. destruct (String.eqb k k'); [reflexivity|apply IH]. }
  induction u as [|[k' v] u IH]; intros b k; [reflexivity|]. cbn [rev]. unfold od_update in *. cbn [fold_left]. rewrite IH, A. cbn [fst snd od_get].
  rewrite (od_get_set _ String.eqb_spec). destruct (od_get String.eqb (rev u) k); [reflexivity|]. destruct (String.eqb k k'); reflexivity.
Qed.
(** After any sequence of update, use_stylesheets and set_global calls: the class-level defaults, the style sheets and all sections
    are what they were; a section of the instance is the one last given for its name (as a whole; the dictionary given to the
    constructor comes first), the class default otherwise. *)
Theorem C59_rc_methods : forall known w cfg t ops, (forall sec k v, ~ In (RWrite sec k v) ops) ->
  let s := fold_left (rc_step known) ops {| world_of := w; inst := cfg_init w cfg; table_of := t |} in
  world_of s = w /\
  forall sec, od_get String.eqb (inst s) sec = match od_get String.eqb (rev (match cfg with Some c => c | None => [] end ++ flat_map (secs_given w) ops)) sec with Some r => Some r | None => od_get String.eqb (default w) sec end.
Proof.
  intros known w cfg t ops.
  assert (G : forall ops c t, (forall sec k v, ~ In (RWrite sec k v) ops) ->
     let s := fold_left (rc_step known) ops {| world_of := w; inst := c; table_of := t |} in world_of s = w /\ inst s = od_update String.eqb c (flat_map (secs_given w) ops)).
  { clear. induction ops as [|o ops IH]; intros c t N; [split; reflexivity|].
    assert (N' : forall sec k v, ~ In (RWrite sec k v) ops) by (intros sec k v I; exact (N sec k v (or_intror I))).
    cbn [fold_left flat_map]. unfold od_update at 1. rewrite fold_left_app. destruct o as [cc|ns| |sec k v]; cbn [rc_step world_of inst table_of].
    - destruct (IH (cfg_update c (Some cc)) t N') as [A B]. split; [exact A|exact B].
    - destruct (IH (snd (use_sheets w c ns)) t N') as [A B]. split; [exact A|]. rewrite B. unfold od_update at 1. f_equal.
      clear. cbn [secs_given]. revert c. induction ns as [|n ns IH]; intros c; [reflexivity|]. cbn [use_sheets].
      destruct (od_get String.eqb (sheets w) n) as [cc|]; [|reflexivity]. rewrite IH. cbn [cfg_update]. unfold od_update. rewrite fold_left_app. reflexivity.
    - apply (IH c _ N').
    - exfalso. exact (N sec k v (or_introl eq_refl)). }
  intros N s. destruct (G ops (cfg_init w cfg) t N) as [A B]. split; [exact A|]. intros sec. unfold s. rewrite B, <- od_get_update_last. unfold od_update. rewrite fold_left_app. destruct cfg; reflexivity.
Qed.
Print Assumptions C59_rc_methods.

(** set_global: matplotlib gets exactly the configured settings under their full names (section, dot, name, abbreviations spelt
    out), in order; at the first name it does not know the call raises
    KeyError and the settings before it stay in force. *)
Definition mpl_name (sec k : string) : string := (sec ++ "." ++ (if String.eqb k "lw" then "linewidth" else if String.eqb k "ls" then "linestyle" else if String.eqb k "c" then "color"
  else if String.eqb k "fc" then "facecolor" else if String.eqb k "ec" then "edgecolor" else if String.eqb k "mew" then "markeredgewidth" else if String.eqb k "aa" then "antialiased" else k))%string.
Lemma rc_name_is sec k : rc_name sec k = mpl_name sec k.
Proof. unfold rc_name, rc_alias, mpl_name. f_equal. f_equal. cbn [od_get]. repeat match goal with |- context [String.eqb k ?s] => destruct (String.eqb k s); [reflexivity|] end. reflexivity. Qed.
Definition settings (w : world) (c : config) : list (string * pv) := flat_map (fun sr => map (fun kv => (mpl_name (fst sr) (fst kv), snd kv)) (nth (snd sr) (sections w) [])) c.
Fixpoint accepted (known : string -> bool) (l : list (string * pv)) : list (string * pv) := match l with [] => [] | kv :: l' => if known (fst kv) then kv :: accepted known l' else [] end.
Theorem C59_rc_global : forall w known t c r t', set_global w known t c = (r, t') ->
  r = (if forallb (fun kv => known (fst kv)) (settings w c) then Ok tt else Err KeyError) /\
  forall name, od_get String.eqb t' name = match last_value (accepted known (settings w c)) name with Some v => Some v | None => od_get String.eqb t name end.
Proof.
  intros w known.
  assert (S1 : forall sec s t r t', rc_set known sec t s = (r, t') -> let l := map (fun kv => (mpl_name sec (fst kv), snd kv)) s in
    r = (if forallb (fun kv => known (fst kv)) l then Ok tt else Err KeyError) /\
    forall name, od_get String.eqb t' name = match last_value (accepted known l) name with Some v => Some v | None => od_get String.eqb t name end).
  { intros sec. induction s as [|[k v] s IH]; intros t r t' E; cbn [rc_set] in E; rewrite ?rc_name_is in E; cbn [map forallb accepted fst snd].
    - split; [congruence|]. intros name. cbn [last_value]. congruence.
    - destruct (known (mpl_name sec k)); cbn [andb].
      + destruct (IH _ _ _ E) as [A B]. split; [exact A|]. intros name. rewrite B. cbn [last_value]. rewrite (od_get_set _ String.eqb_spec).
        destruct (last_value _ name); [reflexivity|]. destruct (String.eqb name (mpl_name sec k)); reflexivity.
      + split; [congruence|]. intros name. cbn [last_value]. congruence. }
  assert (AA : forall a b, accepted known (a ++ b) = if forallb (fun kv => known (fst kv)) a then accepted known a ++ accepted known b else accepted known a).
  { induction a as [|kv a IH]; intros b; [reflexivity|]. cbn [app accepted forallb]. destruct (known (fst kv)); [|reflexivity]. cbn [andb]. rewrite IH.
    destruct (forallb _ a); reflexivity. }
  intros t c. revert t. induction c as [|[sec s] c IH]; intros t r t' E; cbn [set_global] in E; cbn [settings flat_map fst snd].
  - split; [cbn [forallb]; congruence|]. intros name. cbn [accepted last_value]. congruence.
  - destruct (rc_set known sec t (nth s (sections w) [])) as [r1 t1] eqn:E1. destruct (S1 _ _ _ _ _ E1) as [A B]. cbv zeta in A, B.
    set (l := map (fun kv => (mpl_name sec (fst kv), snd kv)) (nth s (sections w) [])) in *. fold (settings w c). rewrite forallb_app, AA.
    destruct (forallb (fun kv => known (fst kv)) l); subst r1; cbn [andb].
    + destruct (IH _ _ _ E) as [A2 B2]. split; [exact A2|]. intros name. rewrite B2, last_value_app, B. destruct (last_value (accepted known (settings w c)) name); reflexivity.
    + split; [congruence|]. intros name. assert (t1 = t') by congruence. subst t1. apply B.
Qed.
Print Assumptions C59_rc_global.

(** Style sheets are applied in order up to the first unknown name, which is reported. *)
Theorem C59_rc_sheets : forall w c names, (fst (use_sheets w c names) = Ok tt <-> forall n, In n names -> od_get String.eqb (sheets w) n <> None) /\
  (fst (use_sheets w c names) <> Ok tt -> fst (use_sheets w c names) = Err KeyError) /\
  (forall n o, od_get String.eqb (sheets w) n = Some o -> use_sheets w c (n :: names) = use_sheets w (cfg_update c (Some o)) names) /\
  (forall n, od_get String.eqb (sheets w) n = None -> use_sheets w c (n :: names) = (Err KeyError, c)).
Proof.
  intros w c names. assert (A : forall names c, (fst (use_sheets w c names) = Ok tt <-> forall n, In n names -> od_get String.eqb (sheets w) n <> None) /\ (fst (use_sheets w c names) <> Ok tt -> fst (use_sheets w c names) = Err KeyError)).
  { clear. induction names as [|n names IH]; intros c; cbn [use_sheets].
    - split; [split; [intros _ n []|reflexivity]|intros H; exfalso; apply H; reflexivity].
    - destruct (od_get String.eqb (sheets w) n) as [o|] eqn:E; cbn [fst].
      + destruct (IH (cfg_update c (Some o))) as [I1 I2]. split; [|exact I2]. rewrite I1. split; [intros H k [<-|K]; [congruence|apply H, K]|intros H k K; apply H; right; exact K].
      + split; [|reflexivity]. split; [discriminate|]. intros H. exfalso. apply (H n); [left; reflexivity|exact E]. }
  destruct (A names c) as [A1 A2]. split; [exact A1|]. split; [exact A2|]. split; intros n; [intros o E|intros E]; cbn [use_sheets]; rewrite E; reflexivity.
Qed.
Print Assumptions C59_rc_sheets.

(** A style sheet that mentions one setting of a section takes the section's other settings out of the configuration. *)
Theorem C59_rc_sheet_refuted : forall w c n sec r v k k', k <> k' -> od_get String.eqb (sheets w) n = Some [(sec, r)] -> nth r (sections w) [] = [(k, v)] ->
  snd (use_sheets w c [n]) = od_set String.eqb c sec r /\ contents w (snd (use_sheets w c [n])) sec k = Some v /\ contents w (snd (use_sheets w c [n])) sec k' = None.
Proof.
  intros w c n sec r v k k' N S1 S2. assert (E : snd (use_sheets w c [n]) = od_set String.eqb c sec r) by (cbn [use_sheets]; rewrite S1; reflexivity).
  split; [exact E|]. rewrite E. unfold contents. rewrite (od_get_set_same _ String.eqb_spec), S2. cbn [od_get]. rewrite String.eqb_refl.
  split; [reflexivity|]. destruct (String.eqb_spec k' k); [congruence|reflexivity].
Qed.
Print Assumptions C59_rc_sheet_refuted.

(** The copy taken by a new configuration is shallow: writing a setting into a section of one instance changes the class-level
    default, and so every instance made later. *)
Theorem C59_rc_shared_refuted : forall known w t sec k v r, od_get String.eqb (default w) sec = Some r -> r < length (sections w) ->
  let s := rc_step known {| world_of := w; inst := cfg_init w None; table_of := t |} (RWrite sec k v) in
  contents (world_of s) (cfg_init (world_of s) None) sec k = Some v.
Proof.
  intros known w t sec k v r D L. cbn [rc_step inst cfg_init cfg_update world_of table_of]. rewrite D. cbn [world_of default]. unfold contents. rewrite D. cbn [sections].
  assert (N : nth r (upd_nth (sections w) r (od_set String.eqb (nth r (sections w) []) k v)) [] = od_set String.eqb (nth r (sections w) []) k v).
  { apply nth_error_nth. apply upd_nth_same. exact L. }
  rewrite N. apply (od_get_set_same _ String.eqb_spec).
Qed.
Print Assumptions C59_rc_shared_refuted.

(** Non-vacuity. *)
Example C59_example_history :
  let ops := [FC (PText "r") PNone; FLine [("lw", PAtom 3); ("lw", PAtom 4); ("nope", PAtom 0); ("ls", PText ":")]; FMarker (PText "o") PNone (PAtom 5) [("s", PAtom 7)]]%string in
  value WLine "lw" ops = Some (PAtom 4) /\ value WLine "ls" ops = Some (PText "-") /\ value WLine "c" ops = Some (PText "r") /\ value WMarker "ea" ops = Some (PAtom 5) /\
  value WFill "ec" ops = Some (PText "r") /\ value WText "c" ops = Some (PText "k") /\ value WLine "nope" ops = None.
Proof. repeat split. Qed.
Example C59_example_frame : let ops := [OLim (PAtom 1) PNone; OLabel (PText "$x$") PNone; OLim PNone (PAtom 2); OOuter] in
  last_given "lim" true ops = Some (PAtom 1) /\ last_given "lim" false ops = Some (PAtom 2) /\ length (snd (frame_run frame_fmt ops)) = 8.
Proof. repeat split. Qed.
Example C59_example_rc : let w := {| sections := [[("fontset", PText "cm"); ("default", PText "rm")]; [("linewidth", PAtom 25)]; [("default", PText "it")]];
    default := [("mathtext", 0); ("lines", 1)]; sheets := [("default", [("mathtext", 0); ("lines", 1)]); ("mathtext-it", [("mathtext", 2)])] |}%string in
  let known := fun s => negb (String.eqb s "lines.nope") in
  set_global w known [] (snd (use_sheets w (cfg_init w None) ["mathtext-it"%string])) = (Ok tt, [("mathtext.default", PText "it"); ("lines.linewidth", PAtom 25)]%string).
Proof. reflexivity. Qed.
(** The pair form (x, y) of a frame property goes to the x and the y axis in this order, None being skipped; the map form hands its
    further keywords to both. *)
Theorem C59_frame_pair : forall what x y kw, In what ["lim"; "label"; "scale"; "ticks"; "ticklabels"]%string -> (forall k, In k (map fst kw) -> k <> "x" /\ k <> "y")%string ->
  let made is_x v kw := match v with PNone => [] | _ => [SetAxis what is_x v kw] end in
  (fst (fst (fmt_frame frame_fmt [(what, PSeq [x; y])])) = Ok tt /\ snd (fmt_frame frame_fmt [(what, PSeq [x; y])]) = made true x [] ++ made false y []) /\
  (let r := fmt_frame frame_fmt [(what, PMap (kw ++ [("x", x); ("y", y)]%string))] in fst (fst r) = Ok tt /\ snd r = made true x kw ++ made false y kw).
Proof.
  intros what x y kw I N made.
  assert (A : forall is_x v k, axis_call what is_x v k = made is_x v k) by (intros is_x v k; destruct v; reflexivity).
  assert (D : forall (s : string) (t : list (string * pv)), (forall k, In k (map fst kw) -> k <> s) -> od_del String.eqb (kw ++ t) s = kw ++ od_del String.eqb t s).
  { clear. intros s t. induction kw as [|[k v] kw IH]; intros H; [reflexivity|]. cbn [app od_del]. destruct (String.eqb_spec s k) as [->|Ns]; [exfalso; exact (H k (or_introl eq_refl) eq_refl)|].
    rewrite IH; [reflexivity|]. intros k' Hk. apply H. right. exact Hk. }
  assert (G : forall (s : string) (t : list (string * pv)), (forall k, In k (map fst kw) -> k <> s) -> od_get String.eqb (kw ++ t) s = od_get String.eqb t s).
  { clear. intros s t. induction kw as [|[k v] kw IH]; intros H; [reflexivity|]. cbn [app od_get]. destruct (String.eqb_spec s k) as [->|Ns]; [exfalso; exact (H k (or_introl eq_refl) eq_refl)|].
    apply IH. intros k' Hk. apply H. right. exact Hk. }
  assert (X : forall v cs, apply_xy what v = (Ok tt, cs) -> v <> PNone -> fst (fst (fmt_frame frame_fmt [(what, v)])) = Ok tt /\ snd (fmt_frame frame_fmt [(what, v)]) = cs).
  { intros v cs E Nv. unfold fmt_frame. cbn [In] in I. repeat (destruct I as [<-|I]); try contradiction;
      cbn [frame_fmt ior od_mem od_get od_set String.eqb Ascii.eqb Bool.eqb]; unfold apply_frame, frame_order; cbn [apply_all]; unfold apply_one; cbn [od_get String.eqb Ascii.eqb Bool.eqb]; destruct v; try contradiction; rewrite E; cbn [app fst snd]; rewrite ?app_nil_r; split; reflexivity. }
  split; [apply X; [cbn [apply_xy]; rewrite !A; reflexivity|discriminate]|]. cbv zeta. apply X; [|discriminate].
  cbn [apply_xy]. unfold popped. rewrite !G, !D by (intros k Hk; apply N, Hk). cbn [od_get od_del String.eqb Ascii.eqb Bool.eqb].
  rewrite app_nil_r, !A. reflexivity.
Qed.
Print Assumptions C59_frame_pair.
Lemma fmt_In_get (d : list (string * pv)) k v : od_wf d -> In (k, v) d <-> od_get String.eqb d k = Some v.
Proof. intros W. split; [apply (od_In_get _ String.eqb_spec); exact W|apply (od_get_In _ String.eqb_spec)]. Qed.
(** tick_params: a map whose entries x, y, both (each absent, None or a map) become one call each, in this order, with the other
    entries as further keywords; an entry that is something else, or a keyword that would be passed twice, is a TypeError, after the calls for the entries before it. *)
Definition tick_entry_ok (m : list (string * pv)) (axis : string) : Prop := match od_get String.eqb m axis with
  | None | Some PNone => True
  | Some (PMap p) => forall k, In k (map fst p ++ map fst m) -> k <> "axis"%string /\ (In k (map fst p) -> In k (map fst m) -> In k ["x"; "y"; "both"]%string)
  | Some _ => False end.
Definition tick_calls (m rest : list (string * pv)) (axes : list string) : list call :=
  flat_map (fun a => match od_get String.eqb m a with Some (PMap p) => [TickParams a (PMap p) rest] | _ => [] end) axes.
Theorem C59_tick_params : forall m, od_wf m -> exists rest, (forall k v, In (k, v) rest <-> In (k, v) m /\ ~ In k ["x"%string; "y"%string; "both"%string]) /\
  let '(r, _, calls) := fmt_frame frame_fmt [("tick_params"%string, PMap m)] in
  (Forall (tick_entry_ok m) ["x"%string; "y"%string; "both"%string] -> r = Ok tt /\ calls = tick_calls m rest ["x"%string; "y"%string; "both"%string]) /\
  (forall done a todo, ["x"%string; "y"%string; "both"%string] = done ++ a :: todo -> Forall (tick_entry_ok m) done -> ~ tick_entry_ok m a -> r = Err TypeError /\ calls = tick_calls m rest done).
Proof.
  intros m W. set (rest := od_del String.eqb (od_del String.eqb (od_del String.eqb m "x"%string) "y"%string) "both"%string). exists rest.
  assert (Wr : od_wf rest) by (unfold rest; repeat apply (od_wf_del String.eqb String.eqb_spec); exact W).
  assert (R : forall k, od_get String.eqb rest k = if in_dec string_dec k ["x"%string; "y"%string; "both"%string] then None else od_get String.eqb m k).
  { intros k. unfold rest. destruct (in_dec string_dec k _) as [I|I].
    - cbn [In] in I. destruct (string_dec k "both"%string) as [->|N3]; [apply (od_get_del_same _ String.eqb_spec); repeat apply (od_wf_del String.eqb String.eqb_spec); exact W|].
      rewrite (od_get_del_other _ String.eqb_spec) by exact N3. destruct (string_dec k "y"%string) as [->|N2]; [apply (od_get_del_same _ String.eqb_spec); repeat apply (od_wf_del String.eqb String.eqb_spec); exact W|].
      rewrite (od_get_del_other _ String.eqb_spec) by exact N2. destruct I as [<-|[<-|[<-|[]]]]; try congruence. apply (od_get_del_same _ String.eqb_spec). exact W.
    - cbn [In] in I. rewrite !(od_get_del_other _ String.eqb_spec) by (intros ->; tauto). reflexivity. }
  assert (Rin : forall k v, In (k, v) rest <-> In (k, v) m /\ ~ In k ["x"%string; "y"%string; "both"%string]).
  { intros k v. rewrite fmt_In_get by exact Wr. rewrite R. destruct (in_dec string_dec k _) as [I|I]; [split; [discriminate|tauto]|].
    rewrite <- fmt_In_get by exact W. tauto. }
  split; [exact Rin|].
  assert (F : fmt_frame frame_fmt [("tick_params"%string, PMap m)] = (let '(r, cs) := apply_ticks (PMap m) in (r, od_set String.eqb frame_fmt "tick_params"%string (PMap m), cs))).
  { unfold fmt_frame. cbn [ior frame_fmt od_mem od_get od_set String.eqb Ascii.eqb Bool.eqb]. unfold apply_frame, frame_order. cbn [apply_all]. unfold apply_one.
    cbn [od_get String.eqb Ascii.eqb Bool.eqb]. destruct (apply_ticks (PMap m)) as [[[]|e] cs]; cbn [app]; rewrite ?app_nil_r; reflexivity. }
  rewrite F. cbn [apply_ticks]. fold rest.
  assert (T : forall a, (tick_entry_ok m a -> tick_call a (popped m a) rest = Ok (tick_calls m rest [a])) /\ (~ tick_entry_ok m a -> tick_call a (popped m a) rest = Err TypeError)).
  { intros a. unfold tick_entry_ok, tick_calls, popped. cbn [flat_map]. destruct (od_get String.eqb m a) as [v|]; [|split; [reflexivity|tauto]].
    destruct v as [| | | |p|]; try (split; [tauto|reflexivity]); [split; [reflexivity|tauto]|].
    cbn [tick_call app]. set (B := (existsb _ (map fst p) || _)%bool).
    assert (HB : B = true <-> ~ forall k, In k (map fst p ++ map fst m) -> k <> "axis"%string /\ (In k (map fst p) -> In k (map fst m) -> In k ["x"%string; "y"%string; "both"%string])).
    { unfold B. rewrite Bool.orb_true_iff, !existsb_exists. assert (Kr : forall k, In k (map fst rest) <-> In k (map fst m) /\ ~ In k ["x"%string; "y"%string; "both"%string]).
      { intros k. rewrite !in_map_iff. split; [intros ([k' v] & <- & I); apply Rin in I; cbn [fst]; split; [exists (k', v); tauto|tauto]|intros (([k' v] & <- & I) & N); exists (k', v); split; [reflexivity|apply Rin; tauto]]. }
      split.
      - intros [(k & I & H)|(k & I & H)] A.
        + apply Bool.orb_true_iff in H. destruct H as [H|H].
          * apply String.eqb_eq in H. subst k. destruct (A "axis"%string) as [N _]; [apply in_or_app; left; exact I|]. congruence.
          * apply existsb_exists in H. destruct H as (k' & I' & H). apply String.eqb_eq in H. subst k'. apply Kr in I'. destruct (A k) as [_ N]; [apply in_or_app; left; exact I|]. tauto.
        + apply String.eqb_eq in H. subst k. apply Kr in I. destruct (A "axis"%string) as [N _]; [apply in_or_app; right; tauto|]. congruence.
      - intros A. destruct (in_dec string_dec "axis"%string (map fst p)) as [I|N1]; [left; exists "axis"%string; split; [exact I|reflexivity]|].
        destruct (in_dec string_dec "axis"%string (map fst rest)) as [I|N2]; [right; exists "axis"%string; split; [exact I|apply String.eqb_refl]|].
        left. destruct (existsb (fun k => existsb (String.eqb k) (map fst rest)) (map fst p)) eqn:E.
        + apply existsb_exists in E. destruct E as (k & I & H). exists k. split; [exact I|]. rewrite H. apply Bool.orb_true_r.
        + exfalso. apply A. intros k I. split.
          * intros ->. apply in_app_or in I. destruct I as [I|I]; [exact (N1 I)|]. apply N2, Kr. split; [exact I|]. cbn. intuition discriminate.
          * intros Ip Im. destruct (in_dec string_dec k ["x"%string; "y"%string; "both"%string]) as [I'|I']; [exact I'|]. exfalso.
            assert (H : existsb (fun k => existsb (String.eqb k) (map fst rest)) (map fst p) = true); [|congruence].
            apply existsb_exists. exists k. split; [exact Ip|]. apply existsb_exists. exists k. split; [apply Kr; tauto|apply String.eqb_refl]. }
    destruct B; split; intros H; try reflexivity; [exfalso; exact (proj1 HB eq_refl H)|exfalso]. assert (K : false = true); [apply HB; exact H|discriminate K]. }
  assert (TC : forall a b, tick_calls m rest (a ++ b) = tick_calls m rest a ++ tick_calls m rest b) by (intros a b; unfold tick_calls; apply flat_map_app).
  assert (H3 : tick_calls m rest ["x"%string; "y"%string; "both"%string] = tick_calls m rest ["x"%string] ++ tick_calls m rest ["y"%string] ++ tick_calls m rest ["both"%string]) by (rewrite <- !TC; reflexivity).
  assert (H2 : tick_calls m rest ["x"%string; "y"%string] = tick_calls m rest ["x"%string] ++ tick_calls m rest ["y"%string]) by (rewrite <- !TC; reflexivity).
  assert (CASE : (tick_entry_ok m "x"%string /\ tick_entry_ok m "y"%string /\ tick_entry_ok m "both"%string -> tick_call "x"%string (popped m "x"%string) rest = Ok (tick_calls m rest ["x"%string]) /\ tick_call "y"%string (popped m "y"%string) rest = Ok (tick_calls m rest ["y"%string]) /\ tick_call "both"%string (popped m "both"%string) rest = Ok (tick_calls m rest ["both"%string])))
    by (intros (A & B & C); split; [apply T; exact A|split; [apply T; exact B|apply T; exact C]]).
  set (out := match tick_call "x"%string (popped m "x"%string) rest with Ok c1 => _ | Err e => _ end). destruct out as [r calls] eqn:Eo. unfold out in Eo. split.
  - intros A. inversion A as [|? ? A1 A']; subst. inversion A' as [|? ? A2 A'']; subst. inversion A'' as [|? ? A3 _]; subst.
    destruct (CASE (conj A1 (conj A2 A3))) as (E1 & E2 & E3). rewrite E1, E2, E3 in Eo. injection Eo as <- <-. split; [reflexivity|]. rewrite H3. reflexivity.
  - intros done a todo E D N. destruct done as [|d0 [|d1 [|d2 [|d3 done]]]]; cbn [app] in E.
    + injection E as <- _. rewrite (proj2 (T _) N) in Eo. injection Eo as <- <-. split; reflexivity.
    + injection E as <- <- _. inversion D as [|? ? D1 _]; subst. rewrite (proj1 (T _) D1), (proj2 (T _) N) in Eo. injection Eo as <- <-. split; reflexivity.
    + injection E as <- <- <- _. inversion D as [|? ? D1 D']; subst. inversion D' as [|? ? D2 _]; subst. rewrite (proj1 (T _) D1), (proj1 (T _) D2), (proj2 (T _) N) in Eo. injection Eo as <- <-.
      split; [reflexivity|]. rewrite H2. reflexivity.
    + discriminate E.
    + discriminate E.
Qed.
Print Assumptions C59_tick_params.
Example C59_tick_case : snd (fmt_frame frame_fmt [("tick_params"%string, PMap [("which", PText "both"); ("x", PMap [("top", PBool true)])]%string)]) =
  [TickParams "x" (PMap [("top", PBool true)]%string) [("which", PText "both")]%string].
Proof. reflexivity. Qed.
(** Reading properties: the stored value, KeyError for a name the formatter does not have; a tuple of names gives the tuple of values. *)
Theorem C59_get : forall d, od_wf d -> (forall k v, fmt_get d k = Ok v <-> In (k, v) d) /\ (forall k, ~ In k (map fst d) -> fmt_get d k = Err KeyError) /\
  (forall ks vs, fmt_gets d ks = Ok vs <-> Forall2 (fun k v => In (k, v) d) ks vs) /\ (forall ks, (exists k, In k ks /\ ~ In k (map fst d)) -> fmt_gets d ks = Err KeyError).
Proof.
  intros d W. assert (A : forall k v, fmt_get d k = Ok v <-> In (k, v) d).
  { intros k v. unfold fmt_get. rewrite fmt_In_get by exact W. destruct (od_get String.eqb d k); split; intros H; congruence. }
  assert (B : forall k, ~ In k (map fst d) -> fmt_get d k = Err KeyError).
  { intros k N. unfold fmt_get. destruct (od_get String.eqb d k) as [v|] eqn:E; [|reflexivity]. exfalso. apply N. apply fmt_In_get in E; [|exact W]. apply in_map_iff. exists (k, v). tauto. }
  split; [exact A|]. split; [exact B|]. split.
  - intros ks vs. unfold fmt_gets. rewrite mapM_Ok. split; intros H; induction H as [|k v ks vs E H IH]; constructor; try exact IH; apply A; exact E.
  - intros ks. unfold fmt_gets. induction ks as [|k ks IH]; intros (k' & I & N); [destruct I|]. cbn [mapM]. destruct I as [->|I]; [rewrite B by exact N; reflexivity|].
    rewrite IH by eauto. unfold fmt_get. destruct (od_get String.eqb d k); reflexivity.
Qed.
Print Assumptions C59_get.
(** Colours given as numbers: three components are opaque, four carry their own opacity, other lengths are a ValueError. *)
Theorem C59_colour_tuple : forall named l a, color named (CTuple l) a = match l with
  | [r; g; b] => Ok (r, g, b, match a with Some a => a | None => 1%Q end)
  | [r; g; b; o] => Ok (r, g, b, match a with Some a => a | None => o end)
  | _ => Err ValueError end.
Proof. intros named l a. unfold color. destruct l as [|? [|? [|? [|? [|? ?]]]]]; destruct a; reflexivity. Qed.
Print Assumptions C59_colour_tuple.
(** leg: the short names, and every other text unchanged but for the two mistaken entries. *)
Theorem C59_leg_names : forall loc, leg_loc loc =
  match List.find (fun p => String.eqb loc (fst p)) [("r", "right"); ("lr", "lower right"); ("ll", "lower left"); ("cl", "center left"); ("ur", "upper right"); ("ul", "upper left"); ("uc", "upper center"); ("c", "center")]%string with
  | Some p => snd p
  | None => if String.eqb loc "center left" then "cl" else if String.eqb loc "center right" then "cr" else loc
  end%string.
Proof.
  intros loc. unfold leg_loc, loc_map. cbn [od_get List.find fst snd].
  repeat match goal with |- context [String.eqb loc ?s] => destruct (String.eqb_spec loc s) as [->|?]; [reflexivity|] end; reflexivity.
Qed.
Print Assumptions C59_leg_names.
(** Labels are set as mathematics ($...$) unless use_tex was last set to something false (False, None, 0, an empty text or container). *)
Theorem C59_wrap_text : forall ops t, wrap_text (text (fmt_run ops)) t = Ok
  match last_value (flat_map (gives WText) ops) "use_tex" with
  | Some (PBool false | PNone | PAtom 0 | PText "" | PSeq [] | PMap []) => t
  | _ => "$" ++ t ++ "$"
  end%string.
Proof.
  intros ops t. destruct (C59_history ops WText) as [_ H]. cbn [fmt_of] in H. specialize (H "use_tex"%string). unfold value in H. unfold wrap_text, fmt_get. rewrite H. clear H.
  destruct (last_value (flat_map (gives WText) ops) "use_tex") as [v|]; [|reflexivity]. cbn [rmap]. destruct v as [|[|n]|[]|[|c s]|[|]|[|]]; reflexivity.
Qed.
Print Assumptions C59_wrap_text.
Example C59_wrap_case : wrap_text (text (fmt_run [FText [("use_tex", PBool false)]%string])) "x" = Ok "x"%string. Proof. reflexivity. Qed.
(** fmt[k] = v: a known key is set and nothing else changes; an unknown one raises KeyError and nothing changes. *)
Theorem C59_setitem : forall d k v,
  (In k (map fst d) -> exists d', fmt_set d k v = (Ok tt, d') /\ map fst d' = map fst d /\ od_get String.eqb d' k = Some v /\ forall k2, k2 <> k -> od_get String.eqb d' k2 = od_get String.eqb d k2) /\
  (~ In k (map fst d) -> fmt_set d k v = (Err KeyError, d)).
Proof.
  intros d k v. assert (M : od_mem String.eqb d k = true <-> In k (map fst d)).
  { unfold od_mem. induction d as [|[k' v'] d IH]; cbn [od_get map fst In]; [intuition discriminate|]. destruct (String.eqb_spec k k') as [->|N]; [intuition|]. rewrite IH. intuition congruence. }
  unfold fmt_set. cbn [ior]. split; intros H.
  - rewrite (proj2 M H). exists (od_set String.eqb d k v). split; [reflexivity|]. clear M. split; [|split].
    + induction d as [|[k' v'] d IH]; [destruct H|]. cbn [od_set map fst]. destruct (String.eqb_spec k k') as [->|N]; [reflexivity|]. cbn [map fst]. f_equal. apply IH. destruct H as [H|H]; [cbn in H; congruence|exact H].
    + apply (od_get_set_same String.eqb String.eqb_spec).
    + intros k2 N2. apply (od_get_set_other String.eqb String.eqb_spec). exact N2.
  - destruct (od_mem String.eqb d k) eqn:E; [exfalso; apply H, M; reflexivity|reflexivity].
Qed.
Print Assumptions C59_setitem.
