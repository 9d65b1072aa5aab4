(** Property theorems C95: a dump stopped part-way, and repeated.  Vocabulary: H5cModel.v (step, steps, stopped), H5cSpec.v, H5Spec.v. *)
From Coq Require Import Lia.
From Verif Require Import Base Str OdictSpec H5Model H5Spec H5Proofs H5Proofs2 H5Proofs3 H5Proofs4 H5cModel H5cSpec H5cProofs.
Local Open Scope list_scope. Local Open Scope nat_scope.

(** Group.dump of a mapping that passes the scan is these operations one after the other, to the end or to the first exception. *)
Theorem C95_operations : forall flag h g items, ~ unsupported (DMap items) ->
  (forall h', dump h g (DMap items) flag = (Ok tt, h') <-> steps flag (Run (jobs_of g items) h) (Run [] h')) /\
  (forall e h', dump h g (DMap items) flag = (Err e, h') <-> steps flag (Run (jobs_of g items) h) (Raised e h')).
Proof.
  intros flag h g items U. assert (Sp : dict_supported (DMap items) = true) by (destruct (dict_supported (DMap items)) eqn:E; [reflexivity|apply supported_spec in E; contradiction]).
  pose proof (dump_steps flag h g items Sp) as D. split.
  - intros h'. split; intros H; [rewrite H in D; exact D|]. apply outcome_ok. exact (final_unique _ _ _ _ D H (outcome_final _) I).
  - intros e h'. split; intros H; [rewrite H in D; exact D|]. apply outcome_err. exact (final_unique _ _ _ _ D H (outcome_final _) I).
Qed.
Print Assumptions C95_operations.

(** One member is one operation: a run that reaches the end made as many as the mapping has members, at all depths together. *)
Definition pending (js : list job) : nat := fold_right (fun j n => S (members (snd j)) + n) 0 js.
Lemma pending_app a b : pending (a ++ b) = pending a + pending b.
Proof. induction a as [|j a IH]; [reflexivity|].
  change (S (members (snd j)) + pending (a ++ b) = S (members (snd j)) + pending a + pending b). lia. Qed.
Lemma pending_jobs g items : pending (jobs_of g items) = members (DMap items).
Proof. induction items as [|[k v] items IH]; [reflexivity|].
  change (S (members v) + pending (jobs_of g items) = S (members v) + members (DMap items)). lia. Qed.
Theorem C95_operation_count : forall flag h g items n h',
  nsteps flag n (Run (jobs_of g items) h) (Run [] h') -> n = members (DMap items).
Proof.
  intros flag h g items n h' H. rewrite <- (pending_jobs g). remember (Run (jobs_of g items) h) as a eqn:Ea. remember (Run [] h') as b eqn:Eb.
  revert Ea. generalize (jobs_of g items) as js. revert h. induction H as [c|n a b c S H IH]; intros h js Ea.
  - rewrite Ea in Eb. injection Eb as -> _. reflexivity.
  - subst. inversion S; subst.
    + rewrite (IH eq_refl _ _ eq_refl), pending_app, pending_jobs. reflexivity.
    + inversion H as [|? ? ? ? S2]; subst; inversion S2.
    + rewrite (IH eq_refl _ _ eq_refl). reflexivity.
    + inversion H as [|? ? ? ? S2]; subst; inversion S2.
Qed.
Print Assumptions C95_operation_count.

(** Wherever it is stopped: nothing that was in the file before is gone (datasets named by the mapping may have been overwritten), and what is
    there is kept by the rest of the run; with a flag other than "ac" and "ca", no value is ever changed: everything in the stopped file is as it will be. *)
Theorem C95_stopped_file : forall flag h g items h', ~ unsupported (DMap items) -> stopped flag h g items h' ->
  grows h h' /\ grows h' (snd (dump h g (DMap items) flag)) /\
  (flag <> "ac"%string -> flag <> "ca"%string -> extends h h' /\ extends h' (snd (dump h g (DMap items) flag))).
Proof.
  intros flag h g items h' U (js & St). assert (Sp : dict_supported (DMap items) = true) by (destruct (dict_supported (DMap items)) eqn:E; [reflexivity|apply supported_spec in E; contradiction]).
  pose proof (steps_join _ _ _ _ St (dump_steps flag h g items Sp) (outcome_final _)) as D.
  assert (F : file_of (outcome (dump h g (DMap items) flag) []) = snd (dump h g (DMap items) flag)) by (destruct (dump h g (DMap items) flag) as [[|] ?]; reflexivity).
  split; [exact (steps_grow _ _ _ St)|]. split; [rewrite <- F; exact (steps_grow _ _ _ D)|].
  intros N1 N2. split; [exact (steps_extend _ _ _ N1 N2 St)|]. rewrite <- F. exact (steps_extend _ _ _ N1 N2 D).
Qed.
Print Assumptions C95_stopped_file.

(** Repeating the dump with "ac" on the stopped file ends exactly (result, and every object, link and value of the file) as if it had been made once,
    without the interruption, on the file as it was at first: whatever the flag of the interrupted run. *)
Theorem C95_retry : forall flag retry_flag h g items h', retry_flag = "ac"%string \/ retry_flag = "ca"%string ->
  ~ unsupported (DMap items) -> plain_keys (DMap items) -> arrays_ok (DMap items) -> stopped flag h g items h' ->
  dump h' g (DMap items) retry_flag = dump h g (DMap items) retry_flag.
Proof.
  intros flag f2 h g items h' Hf U P A St. eapply retry; try eassumption.
  destruct (dict_supported (DMap items)) eqn:E; [reflexivity|apply supported_spec in E; contradiction].
Qed.
Print Assumptions C95_retry.
(** Any number of interrupted attempts, with any flags, and then one that is not interrupted. *)
Theorem C95_many_attempts : forall retry_flag h g items h', retry_flag = "ac"%string \/ retry_flag = "ca"%string ->
  ~ unsupported (DMap items) -> plain_keys (DMap items) -> arrays_ok (DMap items) -> attempts g items h h' ->
  dump h' g (DMap items) retry_flag = dump h g (DMap items) retry_flag.
Proof.
  intros f2 h g items h' Hf U P A H. induction H as [h|h h1 h2 flag S _ IH]; [reflexivity|]. rewrite IH. eapply C95_retry; eassumption.
Qed.
Print Assumptions C95_many_attempts.
(** Dumping the same mapping again over a finished dump changes nothing. *)
Theorem C95_again : forall flag retry_flag h g items h', retry_flag = "ac"%string \/ retry_flag = "ca"%string ->
  ~ unsupported (DMap items) -> plain_keys (DMap items) -> arrays_ok (DMap items) -> dump h g (DMap items) flag = (Ok tt, h') ->
  dump h' g (DMap items) retry_flag = (Ok tt, h').
Proof.
  intros flag f2 h g items h' Hf U P A H. apply (proj1 (C95_operations flag h g items U)) in H.
  rewrite (C95_retry flag f2 h g items h' Hf U P A); [|exists []; exact H].
  apply (proj1 (C95_operations f2 h g items U)). eapply steps_ac; [exact Hf|exact H|reflexivity|reflexivity].
Qed.
Print Assumptions C95_again.
(** An interrupted "x" dump that would have succeeded is completed by "ac": the file is the one the "x" dump would have left. *)
Theorem C95_complete_x : forall flag retry_flag h g items h' h'', retry_flag = "ac"%string \/ retry_flag = "ca"%string ->
  ~ unsupported (DMap items) -> plain_keys (DMap items) -> arrays_ok (DMap items) -> stopped flag h g items h' ->
  dump h g (DMap items) flag = (Ok tt, h'') -> dump h' g (DMap items) retry_flag = (Ok tt, h'').
Proof.
  intros flag f2 h g items h' h'' Hf U P A St H. rewrite (C95_retry _ _ _ _ _ _ Hf U P A St). apply (proj1 (C95_operations f2 h g items U)).
  apply (proj1 (C95_operations flag h g items U)) in H. eapply steps_ac; [exact Hf|exact H|reflexivity|reflexivity].
Qed.
Print Assumptions C95_complete_x.

(** Repeating with "x" (the default) once anything has been written is refused, and the file stays as it is. *)
Theorem C95_x_refused : forall flag h g items h', ~ unsupported (DMap items) -> plain_keys (DMap items) -> stopped flag h g items h' -> h' <> h ->
  dump h' g (DMap items) "x" = (Err ValueError, h').
Proof.
  intros flag h g items h' U P (js & St) N. assert (Sp : dict_supported (DMap items) = true) by (destruct (dict_supported (DMap items)) eqn:E; [reflexivity|apply supported_spec in E; contradiction]).
  inversion St as [|? b ? S H]; subst; [contradiction|]. destruct items as [|[k v] items]; [inversion S|].
  inversion P as [|? P']; subst. destruct (P' k v (or_introl eq_refl)) as ((s & -> & Ps) & _).
  pose proof (steps_grow _ _ _ H) as G. rewrite dump_map, Sp. cbn [dump_items]. inversion S; subst; cbn [file_of] in G;
    try (apply raised_end in H; discriminate).
  - match goal with Hc : create_group _ _ _ _ = _ |- _ => pose proof (raw_find_mono _ _ _ _ _ _ G (create_group_find _ _ _ _ _ _ Ps Hc)) as F end.
    unfold create_group. rewrite F. reflexivity.
  - match goal with Hc : ds_create _ _ _ _ _ = _ |- _ => rename Hc into Hd end.
    assert (F : raw_find h' g s = Some i).
    { apply (raw_find_mono _ _ _ _ _ _ G). unfold ds_create in Hd. destruct (negb (valid_flag flag)); [discriminate|]. destruct (raw_find h g s) as [i0|] eqn:Ef.
      - destruct (String.eqb flag "x"); [discriminate|]. destruct (dset_of h i0) as [d|] eqn:Ed; [|discriminate]. destruct (stored_as l) as [src|]; [|discriminate].
        destruct (raw_write d src) as [d'|] eqn:Ew; [|discriminate]. injection Hd as <- <-. destruct (raw_write_keeps _ _ _ Ew) as [K1 K2].
        exact (raw_find_mono _ _ _ _ _ _ (evolves_set_dset _ _ _ d' Ed K1 K2) Ef).
      - eapply raw_create_new_find; eassumption. }
    unfold ds_create. rewrite F. reflexivity.
Qed.
Print Assumptions C95_x_refused.

(** After any interrupted attempts to store a mapping under names the group did not have, one "ac" dump succeeds, and loading gives the mapping. *)
Lemma dumpable_plain d : dumpable d -> plain_keys d.
Proof.
  induction d as [l|items IH] using data_ind'; intros H; inversion H as [? Hnd Hk Hv]; subst. constructor. intros k v Hin. split; [exact (Hk _ _ Hin)|].
  destruct (Hv _ _ Hin) as [(l & d & -> & _)|(its & -> & Hd)]; [constructor|exact (IH _ _ Hin Hd)].
Qed.
Theorem C95_recovered : forall retry_flag h g items h' ls, retry_flag = "ac"%string \/ retry_flag = "ca"%string ->
  file_ok h -> dumpable (DMap items) -> arrays_ok (DMap items) -> links_of h g = Some ls ->
  (forall s, In (KStr s) (map fst items) -> od_get String.eqb ls s = None) -> attempts g items h h' ->
  exists h'', dump h' g (DMap items) retry_flag = (Ok tt, h'') /\ file_ok h'' /\
    (forall j, j < length h -> j <> g -> nth_error h'' j = nth_error h j) /\
    (forall k v, In (k, v) items -> exists s i t, k = KStr s /\ raw_get h'' g s = Ok i /\ loads_as v t /\ reads h'' i t) /\
    (ls = [] -> exists its, loads_as (DMap items) (LMap its) /\ forall fuel, depth (LMap its) <= fuel -> load fuel h'' g = Ok (LMap its)).
Proof.
  intros f2 h g items h' ls Hf Ok D A L Fr At. assert (V : valid_flag f2 = true) by (destruct Hf as [->| ->]; reflexivity).
  destruct (dump_roundtrip f2 items h g ls V Ok D L Fr) as (h'' & E & O2 & Hs & _ & Hr & Hl). exists h''. split; [|auto].
  rewrite <- E. apply C95_many_attempts; try assumption; [|apply dumpable_plain; exact D].
  intros U. apply supported_spec in U. rewrite (dumpable_supported _ D) in U. discriminate.
Qed.
Print Assumptions C95_recovered.

(** File.dump_to with a key and the flags "ac" is the dump of the nested mapping under the root group. *)
Theorem C95_dump_to_nested : forall h d key p, is_path "/" key p -> p <> [] -> ~ unsupported (nest p d) ->
  dump_file h d (Some key) "ac" "ac" true = dump h root (nest p d) "ac".
Proof.
  intros h d key p Hp N U. assert (Sp : dict_supported (nest p d) = true) by (destruct (dict_supported (nest p d)) eqn:E; [reflexivity|apply supported_spec in E; contradiction]).
  unfold dump_file. apply is_path_segments in Hp. rewrite <- Hp. clear Hp U. destruct (rev p) as [|s ps] eqn:Er; [apply (f_equal (@rev _)) in Er; rewrite rev_involutive in Er; contradiction|].
  assert (Ep : p = rev ps ++ [s]) by (rewrite <- (rev_involutive p), Er; reflexivity). subst p. clear Er N.
  revert h Sp. generalize root as g. generalize (rev ps) as qs. clear ps. induction qs as [|q qs IH]; intros g h Sp; cbn [app nest fold_right parents] in *.
  - rewrite dump_map, Sp. cbn [dump_items]. destruct d as [its|l].
    + destruct (create_group h g s "ac") as [[g1|e] h1]; [|reflexivity]. destruct (dump h1 g1 (DMap its) "ac") as [[[]|] h2]; reflexivity.
    + destruct (ds_create h g s l "ac") as [[g1|e] h1]; reflexivity.
  - fold (nest (qs ++ [s]) d) in *. assert (Hm : exists its, nest (qs ++ [s]) d = DMap its) by (destruct qs; cbn; eauto). destruct Hm as [its Em].
    rewrite dump_map, Sp. cbn [dump_items]. rewrite Em in *.
    assert (Sp2 : dict_supported (DMap its) = true) by (rewrite supported_map in Sp; cbn [supp_items] in Sp; apply andb_prop in Sp; apply Sp).
    destruct (create_group h g q "ac") as [[g1|e] h1]; [|reflexivity]. rewrite <- (IH g1 h1 Sp2).
    destruct (parents h1 g1 qs true) as [[g2|e] h2]; [|reflexivity].
    destruct d as [its2|l].
    + destruct (create_group h2 g2 s "ac") as [[g3|e] h3]; [|reflexivity]. destruct (dump h3 g3 (DMap its2) "ac") as [[[]|] h4]; reflexivity.
    + destruct (ds_create h2 g2 s l "ac") as [[g3|e] h3]; reflexivity.
Qed.
Print Assumptions C95_dump_to_nested.
(** Interrupted File.dump_to(path, d, key, "ac", "ac", "ac"): the file is closed with what had been written; the same call again ends as it would have
    without the interruption (other files untouched). *)
Theorem C95_dump_to_retry : forall flag f path h d key p its h', open_file f path "ac" = Ok (h, RW) ->
  is_path "/" key p -> nest p d = DMap its -> p <> [] -> ~ unsupported (nest p d) -> plain_keys (nest p d) -> arrays_ok (nest p d) ->
  stopped flag h root its h' -> forall f', f' path = Some h' -> (forall q, q <> path -> f' q = f q) ->
  exists r f1 f2, dump_to f path d (Some key) "ac" "ac" "ac" true = (r, f1) /\ dump_to f' path d (Some key) "ac" "ac" "ac" true = (r, f2) /\
    forall q, f2 q = f1 q.
Proof.
  intros flag f path h d key p its h' Ho Hp En N U P A St f' Hf' Hq. rewrite En in U, P, A.
  assert (O' : open_file f' path "ac" = Ok (h', RW)) by (unfold open_file; cbn; rewrite Hf'; reflexivity).
  unfold dump_to. rewrite Ho, O', !(C95_dump_to_nested _ _ _ _ Hp N); rewrite ?En; try assumption.
  rewrite (C95_retry flag "ac" h root its h' (or_introl eq_refl) U P A St).
  destruct (dump h root (DMap its) "ac") as [r h2]. do 3 eexists. split; [reflexivity|]. split; [reflexivity|]. intros q. cbn beta.
  destruct (String.eqb q path) eqn:E; [reflexivity|]. apply Hq. intros ->. rewrite String.eqb_refl in E. discriminate.
Qed.
Print Assumptions C95_dump_to_retry.

(** ** A concrete case: {"b": array, "a": {"x": "hi", "y": bytes}} stopped inside "a". *)
Local Open Scope string_scope.
Definition c95_items : list (key * data) :=
  [(KStr "b", DLeaf (LArr {| dt := TInt true 64; shp := [2]; dat := [EInt 3; EInt 4]%Z |}));
   (KStr "a", DMap [(KStr "x", DLeaf (LStr "hi")); (KStr "y", DLeaf (LBytes "yo"))])].
Definition c95_cut : file := snd (dump empty_file root (DMap [(KStr "b", DLeaf (LArr {| dt := TInt true 64; shp := [2]; dat := [EInt 3; EInt 4]%Z |}));
   (KStr "a", DMap [(KStr "x", DLeaf (LStr "hi"))])]) "x").
Example C95_ex_stopped : stopped "x" empty_file root c95_items c95_cut /\ c95_cut <> empty_file.
Proof.
  split; [|discriminate]. exists [(2, KStr "y", DLeaf (LBytes "yo"))].
  eapply steps_next; [eapply step_dset; vm_compute; reflexivity|]. eapply steps_next; [eapply step_group; vm_compute; reflexivity|].
  eapply steps_next; [eapply step_dset; vm_compute; reflexivity|]. apply steps_refl.
Qed.
Example C95_ex_hyps : dumpable (DMap c95_items) /\ arrays_ok (DMap c95_items) /\ plain_keys (DMap c95_items) /\ ~ unsupported (DMap c95_items).
Proof.
  assert (D : dumpable (DMap c95_items)).
  { constructor; [repeat constructor; simpl; intuition discriminate| |].
    - intros k v [E|[E|[]]]; injection E as <- <-; eexists; (split; [reflexivity|repeat split; discriminate]).
    - intros k v [E|[E|[]]]; injection E as <- <-; [left; do 2 eexists; split; reflexivity|right]. eexists. split; [reflexivity|]. constructor; [repeat constructor; simpl; intuition discriminate| |].
      + intros k v [E|[E|[]]]; injection E as <- <-; eexists; (split; [reflexivity|repeat split; discriminate]).
      + intros k v [E|[E|[]]]; injection E as <- <-; left; do 2 eexists; split; reflexivity. }
  split; [exact D|]. split; [|split; [apply dumpable_plain; exact D|intros U; apply supported_spec in U; discriminate]].
  constructor. intros k v [E|[E|[]]]; injection E as <- <-.
  - constructor. intros d E. injection E as <-. split; [reflexivity|]. constructor; [|constructor; [|constructor]]; vm_compute; split; discriminate.
  - constructor. intros k v [E|[E|[]]]; injection E as <- <-; constructor; intros d E; injection E as <-; split; try reflexivity; repeat constructor.
Qed.
Example C95_ex_retry : dump c95_cut root (DMap c95_items) "ac" = dump empty_file root (DMap c95_items) "x" /\
  dump c95_cut root (DMap c95_items) "x" = (Err ValueError, c95_cut).
Proof. split; vm_compute; reflexivity. Qed.

(** ** Attributes *)
Lemma od_set_id : forall (l : list (string * dset)) k d, sget l k = Some d -> od_set String.eqb l k d = l.
Proof.
  induction l as [|[k0 d0] l IH]; intros k d H; [discriminate|]. unfold sget in *. cbn [od_get od_set] in *.
  destruct (String.eqb k k0) eqn:E; [|rewrite IH by exact H; reflexivity]. injection H as ->. reflexivity.
Qed.
Lemma set_attrs_id h i : set_attrs h i (attrs_of h i) = h.
Proof.
  unfold set_attrs, attrs_of. destruct (nth_error h i) as [o|] eqn:E; [|reflexivity]. destruct o as [b a]. cbn [bdy atts].
  revert i E. induction h as [|o h IH]; intros [|i] E; cbn in *; try discriminate; [injection E as ->; reflexivity|]. rewrite IH by exact E. reflexivity.
Qed.
(** The attribute is there and writing the value once more would leave it as it is (io/h5/named_objs.py:49-65). *)
Definition settled (h : file) (i : nat) (kv : string * leaf) : Prop :=
  exists d src, sget (attrs_of h i) (fst kv) = Some d /\ stored_as (snd kv) = Some src /\ raw_modify d src = Ok d.
Lemma settled_again h i k v flag : flag = "ac"%string \/ flag = "ca"%string -> settled h i (k, v) -> attr_create h i k v flag = (Ok tt, h).
Proof.
  intros F (d & src & G & S & M). cbn [fst snd] in *. unfold attr_create. rewrite G.
  assert (A : attr_modify h i k d v = (Ok tt, h)) by (unfold attr_modify; rewrite S, M, od_set_id by exact G; rewrite set_attrs_id; reflexivity).
  rewrite A. destruct F as [-> | ->]; reflexivity.
Qed.
Lemma conv_all_fits t : forall l, Forall (fits t) l -> conv_all t l = Some l.
Proof.
  intros l H. apply conv_all_spec. induction H as [|e l He _ IH]; constructor; [|exact IH].
  apply fits_conv, He.
Qed.
Lemma raw_modify_self src : dset_ok src -> raw_modify src src = Ok src.
Proof.
  intros [_ F]. unfold raw_modify, shape_eqb. destruct (list_eq_dec Nat.eq_dec (shp src) (shp src)) as [_|N]; [|contradiction N; reflexivity].
  cbn [orb]. rewrite conv_all_fits by exact F. destruct src; reflexivity.
Qed.
Lemma raw_modify_twice d src d' : raw_modify d src = Ok d' -> raw_modify d' src = Ok d'.
Proof.
  unfold raw_modify. intros H. destruct (shape_eqb (shp src) (shp d) || (Nat.eqb (prod (shp src)) 1 && Nat.eqb (prod (shp d)) 1)) eqn:E; [|discriminate].
  destruct (conv_all (dt d) (dat src)) as [l|] eqn:C; [|discriminate]. injection H as <-. cbn [dt shp]. rewrite E, C. reflexivity.
Qed.
Lemma attr_get_sget h i k r : attr_get h i k = r -> sget (attrs_of h i) k = match r with Ok d => Some d | Err _ => None end.
Proof. unfold attr_get. destruct (sget (attrs_of h i) k); intros <-; reflexivity. Qed.
Lemma effect_len h h' i k d : attr_effect h h' i k d -> length h' = length h.
Proof.
  intros (_ & _ & _ & B). pose proof (f_equal (@length _) (eq_refl (map bdy h))) as _.
  destruct (Nat.lt_trichotomy (length h') (length h)) as [Q|[Q|Q]]; [exfalso|exact Q|exfalso].
  - specialize (B (length h')). rewrite (proj2 (nth_error_None h' (length h'))) in B by lia. destruct (nth_error h (length h')) eqn:X; [discriminate|]. apply nth_error_None in X. lia.
  - specialize (B (length h)). rewrite (proj2 (nth_error_None h (length h))) in B by lia. destruct (nth_error h' (length h)) eqn:X; [discriminate|]. apply nth_error_None in X. lia.
Qed.
Lemma create_settles h i k v flag h1 : i < length h -> (forall src, stored_as v = Some src -> dset_ok src) -> attr_create h i k v flag = (Ok tt, h1) ->
  settled h1 i (k, v) /\ (exists d, attr_effect h h1 i k d) /\ attr_create h i k v "ac" = (Ok tt, h1) /\ attr_create h i k v "ca" = (Ok tt, h1).
Proof.
  intros Hi Hok. unfold attr_create. destruct (valid_flag flag) eqn:V; cbn [negb]; [|discriminate].
  change (valid_flag "ac") with true. change (valid_flag "ca") with true. cbn [negb].
  destruct (sget (attrs_of h i) k) as [d|] eqn:G.
  - destruct (String.eqb flag "x"); [discriminate|]. cbn. unfold attr_modify.
    destruct (stored_as v) as [src|] eqn:S; [|discriminate]. destruct (raw_modify d src) as [d'|] eqn:M; [|discriminate]. intros [= <-].
    assert (E : attr_effect h (set_attrs h i (od_set String.eqb (attrs_of h i) k d')) i k d') by (apply effect_set with d; unfold attr_get; rewrite G; reflexivity).
    split; [|split; [exists d'; exact E|split; reflexivity]]. exists d', src. cbn [fst snd].
    split; [exact (attr_get_sget _ _ _ _ (proj1 E))|]. split; [exact S|exact (raw_modify_twice _ _ _ M)].
  - destruct (stored_as v) as [src|] eqn:S; [|discriminate]. intros [= <-].
    assert (E : attr_effect h (set_attrs h i (ins (attrs_of h i) k src)) i k src) by (apply effect_ins; [exact Hi|unfold attr_get; rewrite G; reflexivity]).
    split; [|split; [exists src; exact E|split; reflexivity]]. exists src, src. cbn [fst snd].
    split; [exact (attr_get_sget _ _ _ _ (proj1 E))|]. split; [exact S|apply raw_modify_self, Hok; reflexivity].
Qed.
Lemma settled_kept h h1 i k d kv : attr_effect h h1 i k d -> fst kv <> k -> settled h i kv -> settled h1 i kv.
Proof.
  intros (_ & E & _) N (d0 & src & G & S & M). exists d0, src. split; [|auto]. specialize (E (fst kv) N). unfold attr_get in E. rewrite G in E.
  destruct (sget (attrs_of h1 i) (fst kv)) as [d1|]; [injection E as ->; reflexivity|discriminate].
Qed.
(** The values given as arrays are consistent arrays (io/h5/named_objs.py:49-65). *)
Definition attrs_ok (items : list (string * leaf)) : Prop := forall k v src, In (k, v) items -> stored_as v = Some src -> dset_ok src.
Lemma attr_dump_settles i flag : forall pre h h1, i < length h -> NoDup (map fst pre) -> attrs_ok pre -> attr_dump h i pre flag = (Ok tt, h1) ->
  Forall (settled h1 i) pre /\ length h1 = length h /\ attr_dump h i pre "ac" = (Ok tt, h1) /\ attr_dump h i pre "ca" = (Ok tt, h1) /\
  (forall k, ~ In k (map fst pre) -> attr_get h1 i k = attr_get h i k) /\ (forall kv, ~ In (fst kv) (map fst pre) -> settled h i kv -> settled h1 i kv) /\
  (forall j k, j <> i -> attr_get h1 j k = attr_get h j k) /\ (forall j, option_map bdy (nth_error h1 j) = option_map bdy (nth_error h j)).
Proof.
  induction pre as [|[k v] pre IH]; intros h h1 Hi N O H; cbn [attr_dump] in *.
  - injection H as <-. repeat split; auto.
  - destruct (attr_create h i k v flag) as [[[]|e] h0] eqn:C; [|discriminate].
    destruct (create_settles h i k v flag h0 Hi) as (S & (d & E) & -> & ->); [intros src; apply (O k v); left; reflexivity|exact C|].
    inversion N as [|? ? N1 N2]; subst. pose proof (effect_len _ _ _ _ _ E) as L.
    destruct (IH h0 h1) as (A1 & A2 & A3 & A4 & A5 & A6 & A7 & A8); [lia|exact N2|intros k2 v2 src Hin; apply (O k2 v2); right; exact Hin|exact H|].
    split; [|split; [lia|split; [exact A3|split; [exact A4|split; [|split; [|split]]]]]].
    + constructor; [|exact A1]. apply A6; [exact N1|exact S].
    + intros k2 Hn. cbn in Hn. rewrite A5 by tauto. apply (proj1 (proj2 E)). intros ->. tauto.
    + intros kv Hn Hs. cbn in Hn. apply A6; [tauto|]. apply settled_kept with h k d; [exact E| |exact Hs]. intros Ek. apply Hn. left. symmetry. exact Ek.
    + intros j k2 Hj. rewrite A7 by exact Hj. apply (proj1 (proj2 (proj2 E))), Hj.
    + intros j. rewrite A8. apply (proj2 (proj2 (proj2 E))).
Qed.
Lemma attr_dump_app i flag : forall pre post h, attr_dump h i (pre ++ post) flag = match attr_dump h i pre flag with (Ok _, h1) => attr_dump h1 i post flag | r => r end.
Proof. induction pre as [|[k v] pre IH]; intros post h; cbn [app attr_dump]; [reflexivity|]. destruct (attr_create h i k v flag) as [[[]|e] h0]; [apply IH|reflexivity]. Qed.
Lemma settled_dump i flag : flag = "ac"%string \/ flag = "ca"%string -> forall pre h, Forall (settled h i) pre -> attr_dump h i pre flag = (Ok tt, h).
Proof. intros F. induction pre as [|[k v] pre IH]; intros h H; cbn [attr_dump]; [reflexivity|]. inversion H; subst. rewrite settled_again by assumption. apply IH. assumption. Qed.

(** AttrManager.dump stopped between two attributes (after those of [pre]): no other attribute and no other object has changed; repeating the
    whole dump with "ac" gives the result and the file of one uninterrupted dump with "ac" on the original file; repeating it with "x" once
    anything has been written is refused and changes nothing. *)
Theorem C95_attributes : forall flag retry_flag i pre post h h1, i < length h -> NoDup (map fst (pre ++ post)) ->
  (forall k v src, In (k, v) (pre ++ post) -> stored_as v = Some src -> dset_ok src) ->
  attr_dump h i pre flag = (Ok tt, h1) ->
  (retry_flag = "ac"%string \/ retry_flag = "ca"%string -> attr_dump h1 i (pre ++ post) retry_flag = attr_dump h i (pre ++ post) retry_flag) /\
  (pre <> [] -> attr_dump h1 i (pre ++ post) "x" = (Err ValueError, h1)) /\
  (forall k, ~ In k (map fst pre) -> attr_get h1 i k = attr_get h i k) /\
  (forall j k, j <> i -> attr_get h1 j k = attr_get h j k) /\ (forall j, option_map bdy (nth_error h1 j) = option_map bdy (nth_error h j)).
Proof.
  intros flag rf i pre post h h1 Hi N O H.
  destruct (attr_dump_settles i flag pre h h1 Hi) as (S & _ & A & C & K & _ & J & B).
  { rewrite map_app in N. clear -N. induction (map fst pre) as [|k l IH]; [constructor|]. cbn in N. inversion N; subst. constructor; [|auto]. rewrite in_app_iff in *. tauto. }
  { intros k v src Hin. apply (O k v). apply in_or_app. left. exact Hin. }
  { exact H. }
  split; [|split; [|auto]].
  - intros F. rewrite !attr_dump_app. rewrite (settled_dump i rf F pre h1 S). destruct F as [-> | ->]; [rewrite A|rewrite C]; reflexivity.
  - intros Np. destruct pre as [|[k v] pre]; [congruence|]. inversion S as [|? ? (d & src & G & _) _]; subst. cbn [app attr_dump]. cbn [fst] in G.
    unfold attr_create. rewrite G. reflexivity.
Qed.
Print Assumptions C95_attributes.
(** Any interrupted dump that would have succeeded is completed by "ac", to the same file; and a finished one is not changed by it. *)
Theorem C95_attributes_complete : forall flag retry_flag i pre post h h1 h2, i < length h -> NoDup (map fst (pre ++ post)) ->
  (forall k v src, In (k, v) (pre ++ post) -> stored_as v = Some src -> dset_ok src) ->
  retry_flag = "ac"%string \/ retry_flag = "ca"%string ->
  attr_dump h i pre flag = (Ok tt, h1) -> attr_dump h i (pre ++ post) flag = (Ok tt, h2) ->
  attr_dump h1 i (pre ++ post) retry_flag = (Ok tt, h2) /\ attr_dump h2 i (pre ++ post) retry_flag = (Ok tt, h2).
Proof.
  intros flag rf i pre post h h1 h2 Hi N O F H1 H2.
  rewrite (proj1 (C95_attributes flag rf i pre post h h1 Hi N O H1) F).
  destruct (attr_dump_settles i flag (pre ++ post) h h2 Hi N O H2) as (S & _ & A & C & _).
  split; [destruct F as [-> | ->]; assumption|]. apply settled_dump; assumption.
Qed.
Print Assumptions C95_attributes_complete.
Example C95_attributes_ex : let h := empty_file in let pre := [("u", LStr "m")]%string in let post := [("n", LStr "b")]%string in
  exists h1 h2, attr_dump h root pre "x" = (Ok tt, h1) /\ attr_dump h root (pre ++ post) "x" = (Ok tt, h2) /\ h1 <> h2 /\
    attr_dump h1 root (pre ++ post) "ac" = (Ok tt, h2) /\ root < length h /\ NoDup (map fst (pre ++ post)).
Proof.
  eexists _, _. split; [reflexivity|]. split; [reflexivity|]. split; [discriminate|]. split; [reflexivity|]. split; [apply Nat.ltb_lt; reflexivity|].
  repeat constructor; cbn; intuition discriminate.
Qed.
