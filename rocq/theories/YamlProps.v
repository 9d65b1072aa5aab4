(** C23: nested configuration levels. *)
From Verif Require Import Base Str YamlSpec YamlModel YamlProofs.
Local Open Scope list_scope. Local Open Scope nat_scope.

(** C23: let [init_nodes] lead to a node from which [nested_nodes] leads through the levels [levels], all mappings.  Then get
    either returns exactly the requested keys, each with the value of the deepest level that defines it, or raises KeyError
    because some key is defined at no level.  (Keys without "/".) *)
Theorem C23_get data init nested keys root levels :
  (forall k, In k keys -> has_char "/"%char k = false) ->
  (exists vs, chain data init (vs ++ [root])) -> chain root nested levels -> Forall is_map levels ->
  (exists d, get data init nested keys = Ok d /\
     (forall k, In k keys -> exists v, od_get String.eqb d k = Some v /\ deepest levels k v) /\
     (forall k, ~ In k keys -> od_get String.eqb d k = None)) \/
  (get data init nested keys = Err KeyError /\ exists k, In k keys /\ forall l v, In l levels -> ~ child l k v).
Proof. intros Hk Hd. apply get_maps; [assumption|]. apply descend_chain. assumption. Qed.
Print Assumptions C23_get.

(** The value found is the only candidate, so the answer is a function of the document. *)
Theorem C23_deepest_unique levels k v w : deepest levels k v -> deepest levels k w -> v = w.
Proof. apply deepest_unique. Qed.
Print Assumptions C23_deepest_unique.

(** C23: a success means that every node named on the way exists. *)
Theorem C23_path_exists data init nested keys d : get data init nested keys = Ok d ->
  exists root vs levels, chain data init (vs ++ [root]) /\ chain root nested levels.
Proof.
  unfold get. destruct (descend data init) as [root|] eqn:E; cbn [bind]; [|discriminate].
  destruct (try_parse keys [] root) as [d0|]; cbn [bind]; [|discriminate].
  destruct (nested_loop keys d0 root nested) as [d1|] eqn:N; cbn [bind]; [|discriminate]. intros _.
  apply descend_chain in E. destruct E as [vs E]. apply nested_loop_broken in N. destruct N as [ls N].
  exists root, vs, ls. auto.
Qed.
Print Assumptions C23_path_exists.

(** Finding: the innermost level may be a string, and then the test "is the key in it" is a substring test: the same document
    works or raises TypeError depending on the spelling of the value. *)
Definition doc (s : string) : yaml := YMap [("name", YNum 1); ("run", YStr s)]%string.
Theorem C23_string_level_refuted :
  get (doc "no") [] ["run"]%string ["name"]%string = Ok [("name", YNum 1)]%string /\
  get (doc "rename") [] ["run"]%string ["name"]%string = Err TypeError.
Proof. split; reflexivity. Qed.
Print Assumptions C23_string_level_refuted.

(** Non-vacuity: three levels, overridden at the second and the third. *)
Definition conf : yaml :=
  YMap [("cfg", YMap [("a", YNum 1); ("b", YNum 2); ("run", YMap [("b", YNum 3); ("x", YMap [("a", YNum 4)])])])]%string.
Definition conf_run : yaml := YMap [("b", YNum 3); ("x", YMap [("a", YNum 4)])]%string.
Definition conf_root : yaml := YMap [("a", YNum 1); ("b", YNum 2); ("run", conf_run)]%string.
Example ex_get : get conf ["cfg"]%string ["run"; "x"]%string ["a"; "b"]%string = Ok [("a", YNum 4); ("b", YNum 3)]%string.
Proof. reflexivity. Qed.
Example ex_levels : chain conf ["cfg"]%string ([conf] ++ [conf_root]) /\
  chain conf_root ["run"; "x"]%string [conf_root; conf_run; YMap [("a", YNum 4)]%string] /\
  Forall is_map [conf_root; conf_run; YMap [("a", YNum 4)]%string].
Proof.
  repeat split.
  - cbn [app]. eapply chain_cons; [eexists; split; reflexivity|constructor].
  - eapply chain_cons; [eexists; split; reflexivity|]. eapply chain_cons; [eexists; split; reflexivity|]. constructor.
  - repeat constructor; eexists; reflexivity.
Qed.
Example ex_missing : get conf ["cfg"]%string ["run"]%string ["c"]%string = Err KeyError. Proof. reflexivity. Qed.

(** A node of the way that does not exist: KeyError if its parent is a mapping, TypeError if not. *)
Theorem C23_missing_node data init pre k post nested keys vs v : init = pre ++ k :: post -> chain data pre (vs ++ [v]) -> (forall w, ~ child v k w) ->
  (is_map v -> get data init nested keys = Err KeyError) /\ (~ is_map v -> get data init nested keys = Err TypeError).
Proof.
  intros -> C N. assert (D : descend data (pre ++ k :: post) = match v with YMap _ => Err KeyError | _ => Err TypeError end).
  { clear nested keys. remember (vs ++ [v]) as l eqn:El. revert vs El. induction C as [u|u k' w ks us H C IH]; intros vs El.
    - destruct vs as [|? [|]]; [|discriminate|discriminate]. injection El as <-. cbn [app descend]. destruct u as [m| | | |]; try reflexivity. cbn [y_get]. destruct (od_get String.eqb m k) as [w|] eqn:E; [exfalso; apply (N w); exists m; auto|reflexivity].
    - destruct vs as [|u' vs]; [destruct us; [inversion C|discriminate]|]. injection El as -> El. destruct H as (m & -> & H). cbn [app descend y_get]. rewrite H. cbn [bind]. apply (IH vs). exact El. }
  unfold get. rewrite D. split; intros M; destruct v; try reflexivity; try (exfalso; destruct M; discriminate); exfalso; apply M; eexists; reflexivity.
Qed.
Print Assumptions C23_missing_node.
(** A nested node that is no mapping: a number or null is a TypeError as soon as a key is asked for; a string is a TypeError if one of
    the keys occurs in it as a substring, a list if one of the keys is an element; otherwise the node is ignored. *)
Definition occurs (k : string) (v : yaml) : Prop :=
  match v with YNum _ | YNull => True | YStr s => exists m, String.substring m (String.length k) s = k | YList l => In (YStr k) l | YMap _ => False end.
Theorem C23_other_levels m n lvl keys : od_get String.eqb m n = Some lvl -> ~ is_map lvl -> (forall k, In k keys -> has_char "/"%char k = false /\ k <> ""%string) ->
  ((exists k, In k keys /\ occurs k lvl) -> get (YMap m) [] [n] keys = Err TypeError) /\
  ((forall k, In k keys -> ~ occurs k lvl) -> get (YMap m) [] [n] keys = get (YMap m) [] [] keys).
Proof.
  intros Hn Nm Hk.
  assert (T : forall keys d, (forall k, In k keys -> has_char "/"%char k = false) -> exists d', try_parse keys d (YMap m) = Ok d').
  { clear. induction keys as [|k keys IH]; intros d H; [exists d; reflexivity|]. cbn [try_parse y_in bind]. unfold od_mem. destruct (od_get String.eqb m k) as [v|] eqn:E.
    - cbn [y_get]. rewrite E. cbn [bind]. unfold dd_set. rewrite (H k (or_introl eq_refl)). cbn [bind]. apply IH. intros; apply H; right; assumption.
    - apply IH. intros; apply H; right; assumption. }
  destruct (T keys [] (fun k I => proj1 (Hk k I))) as (d & Ed). clear T.
  assert (P : forall k, k <> ""%string -> (occurs k lvl -> y_in k lvl = Ok true \/ y_in k lvl = Err TypeError) /\ (~ occurs k lvl -> y_in k lvl = Ok false)).
  { intros k Nk. destruct lvl as [m'|s|l|z|]; [exfalso; apply Nm; eexists; reflexivity| | | |]; cbn [occurs y_in].
    - destruct (String.index 0 k s) as [i|] eqn:E; (split; [intros [j J]|intros J]); auto.
      + exfalso. apply J. exists i. exact (index_correct1 _ _ _ _ E).
      + exfalso. exact (index_correct3 _ _ _ _ E Nk (Nat.le_0_l j) J).
    - destruct (existsb _ l) eqn:E; split; intros J; auto.
      + exfalso. apply J. apply existsb_exists in E. destruct E as (w & I & E). destruct w; try discriminate. apply String.eqb_eq in E. subst. exact I.
      + exfalso. assert (existsb (fun w => match w with YStr s => String.eqb s k | _ => false end) l = true); [|congruence]. apply existsb_exists. exists (YStr k). split; [exact J|apply String.eqb_refl].
    - split; [auto|tauto].
    - split; [auto|tauto]. }
  assert (G : forall k, y_get lvl k = Err TypeError) by (intros k; destruct lvl; try reflexivity; exfalso; apply Nm; eexists; reflexivity).
  assert (Q1 : (exists k, In k keys /\ occurs k lvl) -> forall d, try_parse keys d lvl = Err TypeError).
  { clear Ed d. intros (k & I & O). induction keys as [|k0 keys IH]; [destruct I|]. intros d. cbn [try_parse].
    destruct (P k0 (proj2 (Hk k0 (or_introl eq_refl)))) as [P1 P2]. destruct I as [->|I].
    - destruct (P1 O) as [-> | ->]; cbn [bind]; [rewrite G; reflexivity|reflexivity].
    - assert (IH' : forall d, try_parse keys d lvl = Err TypeError) by (apply IH; [intros; apply Hk; right; assumption|exact I]).
      destruct lvl as [m'|s|l|z|]; cbn [y_in bind] in *; try reflexivity; [exfalso; apply Nm; eexists; reflexivity| |].
      + destruct (String.index 0 k0 s); [cbn [y_get bind]; reflexivity|apply IH'].
      + destruct (existsb _ l); [cbn [y_get bind]; reflexivity|apply IH']. }
  assert (Q2 : (forall k, In k keys -> ~ occurs k lvl) -> forall d, try_parse keys d lvl = Ok d).
  { clear Ed d Q1. intros N. induction keys as [|k0 keys IH]; intros d; [reflexivity|]. cbn [try_parse]. rewrite (proj2 (P k0 (proj2 (Hk k0 (or_introl eq_refl)))) (N k0 (or_introl eq_refl))). cbn [bind].
    apply IH; intros; [apply Hk|apply N]; right; assumption. }
  unfold get. cbn [descend bind]. rewrite Ed. cbn [bind nested_loop y_get]. rewrite Hn. cbn [bind]. split; intros H.
  - rewrite (Q1 H). reflexivity.
  - rewrite (Q2 H). reflexivity.
Qed.
Print Assumptions C23_other_levels.
