(** C77: simple representations, names and logging. *)
From Verif Require Import Base ReprModel.
Local Open Scope string_scope. Local Open Scope list_scope. Local Open Scope nat_scope.

(** Keys in the order of their first occurrence. *)
Fixpoint firsts (seen : list string) (l : list string) : list string :=
  match l with [] => [] | k :: l' => if existsb (String.eqb k) seen then firsts seen l' else k :: firsts (k :: seen) l' end.
Definition attr (attrs : list (string * val)) (k : string) : option val := od_get String.eqb attrs k.
Lemma attr_rep_is attrs k : attr_rep (map (fun p => (fst p, simple (snd p))) attrs) k = match attr attrs k with Some v => simple v | None => Err AttributeError end.
Proof.
  unfold attr_rep, attr. induction attrs as [|[k' v] attrs IH]; [reflexivity|]. cbn [map od_get fst snd]. destruct (String.eqb k k'); [reflexivity|exact IH].
Qed.
Lemma od_set_keys {V} (d : list (string * V)) k v : map fst (od_set String.eqb d k v) = if existsb (String.eqb k) (map fst d) then map fst d else map fst d ++ [k].
Proof.
  induction d as [|[k' v'] d IH]; [reflexivity|]. cbn [map fst existsb od_set]. destruct (String.eqb_spec k k') as [->|N]; cbn [map fst orb].
  - reflexivity.
  - rewrite IH. destruct (existsb (String.eqb k) (map fst d)); reflexivity.
Qed.
Lemma firsts_ext l : forall s s', (forall k, existsb (String.eqb k) s = existsb (String.eqb k) s') -> firsts s l = firsts s' l.
Proof.
  induction l as [|k l IH]; intros s s' E; [reflexivity|]. cbn [firsts]. rewrite E. destruct (existsb (String.eqb k) s'); [apply IH, E|]. f_equal. apply IH. intros k'. cbn [existsb]. rewrite E. reflexivity.
Qed.
Lemma fill_is attrs keys : forall d, let sub := map (fun p => (fst p, simple (snd p))) attrs in
  match fill sub d keys with
  | Ok d' => map fst d' = map fst d ++ firsts (map fst d) keys /\
      (forall k, In k keys -> exists v r, attr attrs k = Some v /\ simple v = Ok r /\ od_get String.eqb d' k = Some r) /\ (forall k, ~ In k keys -> od_get String.eqb d' k = od_get String.eqb d k)
  | Err e => exists pre k post, keys = pre ++ k :: post /\ match attr attrs k with Some v => simple v = Err e | None => e = AttributeError end /\ (forall k', In k' pre -> exists v r, attr attrs k' = Some v /\ simple v = Ok r)
  end.
Proof.
  induction keys as [|k keys IH]; intros d; cbv zeta; cbn [fill].
  - rewrite app_nil_r. split; [reflexivity|]. split; [intros k []|auto].
  - rewrite attr_rep_is. destruct (attr attrs k) as [v|] eqn:A; [|exists [], k, keys; rewrite A; split; [reflexivity|]; split; [reflexivity|intros k' []]].
    destruct (simple v) as [r|e] eqn:S; cbn [bind]; [|exists [], k, keys; rewrite A; split; [reflexivity|]; split; [exact S|intros k' []]].
    specialize (IH (od_set String.eqb d k r)). cbv zeta in IH. destruct (fill _ (od_set String.eqb d k r) keys) as [d'|e].
    + destruct IH as (K & G & O). split; [|split].
      * rewrite K, od_set_keys. cbn [firsts]. destruct (existsb (String.eqb k) (map fst d)) eqn:X; [reflexivity|]. rewrite <- app_assoc. cbn [app]. f_equal. f_equal. apply firsts_ext. intros k'. rewrite existsb_app. cbn [existsb]. rewrite Bool.orb_false_r. apply Bool.orb_comm.
      * intros k' [<-|I]; [|exact (G k' I)]. destruct (in_dec string_dec k keys) as [I|N]; [exact (G k I)|]. exists v, r. rewrite (O k N). split; [exact A|]. split; [exact S|apply (od_get_set_same _ String.eqb_spec)].
      * intros k' N. rewrite O by (intros I; apply N; right; exact I). apply (od_get_set_other _ String.eqb_spec). intros ->. apply N. left. reflexivity.
    + destruct IH as (pre & k' & post & E & W & P). exists (k :: pre), k', post. split; [cbn [app]; congruence|]. split; [exact W|]. intros k'' [<-|I]; [exists v, r; auto|apply P, I].
Qed.

(** A HasDictRepr is represented by a dictionary: 'type' (the class name) first if enabled, then the listed attributes in order, every
    one in its own representation; representable exactly when every listed attribute exists and is representable itself. *)
Theorem C77_dict_repr : forall c attrs, match simple (VDict c attrs) with
  | Ok r => exists d, r = RDict d /\ map fst d = firsts [] ((if c_type c then ["type"] else []) ++ c_keys c) /\
      (forall k, In k (c_keys c) -> exists v, attr attrs k = Some v /\ exists x, simple v = Ok x /\ od_get String.eqb d k = Some x) /\
      (c_type c = true -> ~ In "type" (c_keys c) -> od_get String.eqb d "type" = Some (RAtom (c_name c)))
  | Err e => exists pre k post, c_keys c = pre ++ k :: post /\ match attr attrs k with Some v => simple v = Err e | None => e = AttributeError end /\
      (forall k', In k' pre -> exists v r, attr attrs k' = Some v /\ simple v = Ok r)
  end.
Proof.
  intros c attrs. cbn [simple]. pose proof (fill_is attrs (c_keys c) (if c_type c then [("type", RAtom (c_name c))] else [])) as F. cbv zeta in F. destruct (fill _ _ (c_keys c)) as [d|e]; cbn [rmap]; [|exact F].
  destruct F as (K & G & O). exists d. split; [reflexivity|]. split; [|split].
  - rewrite K. destruct (c_type c); reflexivity.
  - intros k I. destruct (G k I) as (v & x & A & B & C). exists v. split; [exact A|]. exists x. auto.
  - intros T N. rewrite (O _ N), T. reflexivity.
Qed.
Print Assumptions C77_dict_repr.

(** A HasListRepr is represented by a tuple: the class name first if enabled, then the listed attributes in order. *)
Theorem C77_list_repr : forall c attrs r, simple (VList c attrs) = Ok r <-> exists l, r = RTuple ((if c_type c then [RAtom (c_name c)] else []) ++ l) /\
  Forall2 (fun k x => exists v, attr attrs k = Some v /\ simple v = Ok x) (c_keys c) l.
Proof.
  intros c attrs r. cbn [simple].
  assert (M : forall ks l, mapM (attr_rep (map (fun p => (fst p, simple (snd p))) attrs)) ks = Ok l <-> Forall2 (fun k x => exists v, attr attrs k = Some v /\ simple v = Ok x) ks l).
  { induction ks as [|k ks IH]; intros l; cbn [mapM].
    - split; [intros [= <-]; constructor|intros H; inversion H; reflexivity].
    - rewrite attr_rep_is. split.
      + destruct (attr attrs k) as [v|] eqn:A; [|discriminate]. destruct (simple v) as [x|] eqn:S; [|discriminate]. cbn [bind]. destruct (mapM _ ks) as [l'|]; [|discriminate]. cbn [bind]. intros [= <-]. constructor; [eauto|]. apply IH. reflexivity.
      + intros H. inversion H as [|? ? ? l' (v & A & S) F]; subst. rewrite A, S. cbn [bind]. apply IH in F. rewrite F. reflexivity. }
  split.
  - destruct (mapM _ (c_keys c)) as [l|] eqn:E; [|discriminate]. cbn [rmap]. intros [= <-]. exists l. split; [reflexivity|]. apply M, E.
  - intros (l & -> & F). apply M in F. rewrite F. reflexivity.
Qed.
Print Assumptions C77_list_repr.

(** A DataDict is represented by a dictionary with the same keys in the same order. *)
Theorem C77_data_repr : forall items r, simple (VData items) = Ok r <-> exists d, r = RDict d /\ Forall2 (fun kv kx => fst kx = fst kv /\ simple (snd kv) = Ok (snd kx)) items d.
Proof.
  intros items r. cbn [simple].
  assert (M : forall it l, mapM (fun p : string * result rep => rmap (pair (fst p)) (snd p)) (map (fun p => (fst p, simple (snd p))) it) = Ok l <-> Forall2 (fun (kv : string * val) kx => fst kx = fst kv /\ simple (snd kv) = Ok (snd kx)) it l).
  { induction it as [|[k v] it IH]; intros l; cbn [mapM map fst snd].
    - split; [intros [= <-]; constructor|intros H; inversion H; reflexivity].
    - split.
      + destruct (simple v) as [x|] eqn:S; [|discriminate]. cbn [rmap bind]. destruct (mapM _ _) as [l'|]; [|discriminate]. cbn [bind]. intros [= <-]. constructor; [split; [reflexivity|exact S]|]. apply IH. reflexivity.
      + intros H. inversion H as [|? [k' x] ? l' [A S] F]; subst. cbn [fst snd] in A, S. subst k'. rewrite S. cbn [rmap bind]. apply IH in F. rewrite F. reflexivity. }
  split.
  - destruct (mapM _ _) as [l|] eqn:E; [|discriminate]. cbn [rmap]. intros [= <-]. exists l. split; [reflexivity|]. apply M, E.
  - intros (l & -> & F). apply M in F. rewrite F. reflexivity.
Qed.
Print Assumptions C77_data_repr.

(** The only failure is a missing attribute, at whatever depth. *)
Lemma val_depth_ind (P : val -> Prop) : (forall a, P (VAtom a)) -> (forall t, P (VPlain t)) -> (forall c attrs, Forall (fun p => P (snd p)) attrs -> P (VDict c attrs)) ->
  (forall c attrs, Forall (fun p => P (snd p)) attrs -> P (VList c attrs)) -> (forall it, Forall (fun p => P (snd p)) it -> P (VData it)) -> forall v, P v.
Proof.
  intros A T D L I. fix IH 1. intros [a|t|c attrs|c attrs|it]; [apply A|apply T|apply D|apply L|apply I].
  - induction attrs as [|[k v] attrs IHa]; constructor; [apply IH|exact IHa].
  - induction attrs as [|[k v] attrs IHa]; constructor; [apply IH|exact IHa].
  - induction it as [|[k v] it IHa]; constructor; [apply IH|exact IHa].
Qed.
Theorem C77_only_attribute_errors : forall v e, simple v = Err e -> e = AttributeError.
Proof.
  apply (val_depth_ind (fun v => forall e, simple v = Err e -> e = AttributeError)); try discriminate.
  - intros c attrs IH e H. pose proof (C77_dict_repr c attrs) as D. rewrite H in D. destruct D as (pre & k & post & _ & W & _). destruct (attr attrs k) as [v|] eqn:A; [|exact W].
    assert (I : exists p, In p attrs /\ snd p = v). { clear -A. unfold attr in A. induction attrs as [|[k' v'] attrs IH]; [discriminate|]. cbn [od_get] in A. destruct (String.eqb k k'); [injection A as ->; eexists; split; [left; reflexivity|reflexivity]|]. destruct (IH A) as (p & I & E). exists p. split; [right; exact I|exact E]. }
    destruct I as (p & I & <-). rewrite Forall_forall in IH. exact (IH p I e W).
  - intros c attrs IH e H. cbn [simple] in H. destruct (mapM _ (c_keys c)) as [|e'] eqn:E; [discriminate|]. cbn [rmap] in H. injection H as <-. revert E. generalize (c_keys c). intros ks. induction ks as [|k ks IHk]; cbn [mapM]; [discriminate|].
    rewrite attr_rep_is. destruct (attr attrs k) as [v|] eqn:A; [|cbn [bind]; congruence]. destruct (simple v) as [x|e2] eqn:S; cbn [bind].
    + destruct (mapM _ ks) as [|e3]; [discriminate|]. cbn [bind]. exact IHk.
    + intros [= <-]. assert (I : exists p, In p attrs /\ snd p = v). { clear -A. unfold attr in A. induction attrs as [|[k' v'] attrs IH]; [discriminate|]. cbn [od_get] in A. destruct (String.eqb k k'); [injection A as ->; eexists; split; [left; reflexivity|reflexivity]|]. destruct (IH A) as (p & I & E). exists p. split; [right; exact I|exact E]. }
      destruct I as (p & I & <-). rewrite Forall_forall in IH. exact (IH p I e2 S).
  - intros it IH e H. cbn [simple] in H. destruct (mapM _ _) as [|e'] eqn:E; [discriminate|]. cbn [rmap] in H. injection H as <-. revert E. induction IH as [|[k v] it Pv IH IHi]; cbn [map mapM fst snd]; [discriminate|].
    cbn [snd] in Pv. destruct (simple v) as [x|e2] eqn:S; cbn [rmap bind]; [|intros [= <-]; apply Pv; reflexivity]. destruct (mapM _ _) as [|e3]; [discriminate|]. cbn [bind]. exact IHi.
Qed.
Print Assumptions C77_only_attribute_errors.

(** The classes of the library: an instance whose attributes are representable has a representation, except for Standardize (it lists
    'sd_lb', which no instance has) and BinaryFile (its attributes begin with an underscore, the listed names do not): for these two
    repr, str and print always raise AttributeError. *)
Theorem C77_library_refuted : forall c names attrs, In (c, names) library -> map fst attrs = names -> (forall p, In p attrs -> exists r, simple (snd p) = Ok r) ->
  if String.eqb (c_name c) "Standardize" || String.eqb (c_name c) "BinaryFile" then simple (VDict c attrs) = Err AttributeError
  else exists d, simple (VDict c attrs) = Ok (RDict (("type", RAtom (c_name c)) :: d)) /\ map fst d = c_keys c.
Proof.
  intros c names attrs I N R.
  assert (GA : forall k, In k (map fst attrs) -> exists v r, attr attrs k = Some v /\ simple v = Ok r).
  { clear -R. unfold attr. induction attrs as [|[k' v] attrs IH]; intros k Hk; [destruct Hk|]. cbn [od_get]. destruct (String.eqb_spec k k') as [->|Nk].
    - destruct (R (k', v) (or_introl eq_refl)) as (r & E). exists v, r. split; [reflexivity|exact E].
    - destruct Hk as [E|Hk]; [cbn [fst] in E; congruence|]. apply IH; [intros p Hp; apply R; right; exact Hp|exact Hk]. }
  assert (GN : forall k, ~ In k (map fst attrs) -> attr attrs k = None).
  { clear. unfold attr. induction attrs as [|[k' v] attrs IH]; intros k Hk; [reflexivity|]. cbn [od_get]. destruct (String.eqb_spec k k') as [->|Nk]; [exfalso; apply Hk; left; reflexivity|]. apply IH. intros H. apply Hk. right. exact H. }
  rewrite N in GA, GN.
  assert (OK : forallb (fun k => existsb (String.eqb k) names) (c_keys c) = true -> exists d, simple (VDict c attrs) = Ok (RDict d) /\ map fst d = firsts [] ((if c_type c then ["type"] else []) ++ c_keys c) /\ (c_type c = true -> ~ In "type" (c_keys c) -> od_get String.eqb d "type" = Some (RAtom (c_name c)))).
  { intros F. pose proof (C77_dict_repr c attrs) as D. destruct (simple (VDict c attrs)) as [r|e].
    - destruct D as (d & -> & K & _ & T). exists d. auto.
    - exfalso. destruct D as (pre & k & post & E & W & _). rewrite forallb_forall in F. assert (Ik : In k (c_keys c)) by (rewrite E; apply in_or_app; right; left; reflexivity). specialize (F k Ik). apply existsb_exists in F. destruct F as (k2 & I2 & E2). apply String.eqb_eq in E2. subst k2.
      destruct (GA k I2) as (v & r & A & S). rewrite A in W. congruence. }
  assert (BAD : forallb (fun k => existsb (String.eqb k) names) (c_keys c) = false -> simple (VDict c attrs) = Err AttributeError).
  { intros F. destruct (simple (VDict c attrs)) as [r|e] eqn:E; [|f_equal; exact (C77_only_attribute_errors _ _ E)]. exfalso. pose proof (C77_dict_repr c attrs) as D. rewrite E in D. destruct D as (d & _ & _ & G & _).
    assert (X : forallb (fun k => existsb (String.eqb k) names) (c_keys c) = true); [|congruence]. apply forallb_forall. intros k Ik. destruct (G k Ik) as (v & A & _). destruct (existsb (String.eqb k) names) eqn:Ex; [reflexivity|]. exfalso.
    assert (Nk : ~ In k names) by (intros In2; assert (existsb (String.eqb k) names = true) by (apply existsb_exists; exists k; split; [exact In2|apply String.eqb_refl]); congruence). rewrite (GN k Nk) in A. discriminate. }
  clear GA GN R N.
  assert (FIN : forall d, map fst d = "type" :: c_keys c -> od_get String.eqb d "type" = Some (RAtom (c_name c)) -> exists d', RDict d = RDict (("type", RAtom (c_name c)) :: d') /\ map fst d' = c_keys c).
  { intros [|[k x] d] K G; [discriminate|]. cbn [map fst] in K. injection K as -> K. cbn [od_get String.eqb Ascii.eqb Bool.eqb] in G. injection G as ->. exists d. split; [reflexivity|exact K]. }
  unfold library in I. cbn [In] in I.
  repeat (destruct I as [I|I]; [injection I as <- <-; cbn [c_name c_keys c_type String.eqb Ascii.eqb Bool.eqb orb] in *; first [apply BAD; reflexivity | destruct (OK eq_refl) as (d & E & K & T); rewrite E; destruct (FIN d) as (d' & E' & K'); [rewrite K; reflexivity|apply T; [reflexivity|cbn [In]; intuition discriminate]|exists d'; split; [f_equal; exact E'|exact K']]]|]).
  destruct I.
Qed.
Print Assumptions C77_library_refuted.

(** ** Names and logging *)
(** Output appears exactly for the log calls made while verbose (the constructor's flag until the first switch), in order; the text is
    [name][time] and a blank before the message, separated by sep, or the message alone; the name never changes. *)
Fixpoint switch (v : bool) (ops : list log_op) : bool := match ops with [] => v | On :: o => switch true o | Off :: o => switch false o | _ :: o => switch v o end.
Definition message (name : string) (c : log_call) : string :=
  let body := join (sep c) (args c) in let tail := match args c with [] => "" | _ => (sep c ++ body)%string end in
  match named c, timed c with
  | false, None => body ++ end_ c
  | false, Some t => "[" ++ t ++ "]" ++ sep c ++ " " ++ tail ++ end_ c
  | true, None => "[" ++ name ++ "]" ++ sep c ++ " " ++ tail ++ end_ c
  | true, Some t => "[" ++ name ++ "][" ++ t ++ "]" ++ sep c ++ " " ++ tail ++ end_ c
  end%string.
Lemma sapp_assoc (a b c : string) : ((a ++ b) ++ c = a ++ b ++ c)%string.
Proof. induction a as [|x a IH]; [reflexivity|]. cbn. rewrite IH. reflexivity. Qed.
Theorem C77_log : forall class_name name v ops, let l := new_logger class_name name v in let own := match name with Some n => n | None => class_name end in
  l_name (fst (log_run l ops)) = own /\ verbose (fst (log_run l ops)) = switch v ops /\
  snd (log_run l ops) = flat_map (fun i => match nth_error ops i with Some (Log c) => if switch v (firstn i ops) then [message own c] else [] | _ => [] end) (seq 0 (length ops)).
Proof.
  intros cn name v ops l own.
  assert (LM : forall l c, log l c = if verbose l then [message (l_name l) c] else []).
  { clear. intros l c. unfold log. destruct (verbose l); [|reflexivity]. unfold message, printed. destruct (named c), (timed c) as [t|]; cbn [append String.length Nat.ltb Nat.leb]; rewrite ?sapp_assoc; cbn [append];
      repeat match goal with |- context [Nat.ltb ?a ?b] => change (Nat.ltb a b) with true end; cbn [Nat.ltb Nat.leb]; f_equal; destruct (args c) as [|a [|b r]]; cbn [join append]; rewrite ?sapp_assoc; cbn [append]; rewrite ?sapp_assoc; reflexivity. }
  assert (G : forall ops l out, l_name (fst (fold_left log_step ops (l, out))) = l_name l /\ verbose (fst (fold_left log_step ops (l, out))) = switch (verbose l) ops /\
     snd (fold_left log_step ops (l, out)) = out ++ flat_map (fun i => match nth_error ops i with Some (Log c) => if switch (verbose l) (firstn i ops) then [message (l_name l) c] else [] | _ => [] end) (seq 0 (length ops))).
  { clear -LM. induction ops as [|o ops IH]; intros l out; cbn [fold_left length seq flat_map switch]; [rewrite app_nil_r; auto|].
    assert (SH : forall (F : nat -> list string), flat_map F (seq 1 (length ops)) = flat_map (fun i => F (S i)) (seq 0 (length ops))) by (intros F; rewrite <- seq_shift, !flat_map_concat_map, map_map; reflexivity).
    cbn [nth_error firstn switch]. rewrite SH. cbn [nth_error firstn]. destruct o as [| |c]; cbn [log_step switch].
    - destruct (IH {| l_name := l_name l; verbose := true |} out) as (A & B & C). cbn [l_name verbose] in A, B, C. rewrite A, B, C. auto.
    - destruct (IH {| l_name := l_name l; verbose := false |} out) as (A & B & C). cbn [l_name verbose] in A, B, C. rewrite A, B, C. auto.
    - destruct (IH l (out ++ log l c)) as (A & B & C). rewrite A, B, C, LM, <- app_assoc. auto. }
  exact (G ops l []).
Qed.
Print Assumptions C77_log.

(** Non-vacuity. *)
Example C77_case : let m := VDict {| c_name := "Mesh"; c_type := true; c_keys := ["n_grids"; "l_box"] |} [("l_box", VAtom "1.0"); ("n_grids", VAtom "32"); ("x", VDict {| c_name := "Y"; c_type := true; c_keys := ["nope"] |} [])] in
  simple (VDict {| c_name := "T"; c_type := true; c_keys := ["mesh"; "lam"] |} [("mesh", m); ("lam", VAtom "0")]) =
  Ok (RDict [("type", RAtom "T"); ("mesh", RDict [("type", RAtom "Mesh"); ("n_grids", RAtom "32"); ("l_box", RAtom "1.0")]); ("lam", RAtom "0")]).
Proof. reflexivity. Qed.
Example C77_log_case : snd (log_run (new_logger "Scatter2D" None false) [Log (plain_log "." ["a"]); On; Log (plain_log "." ["b"; "c"]); Off; Log (plain_log "." ["d"])]) = ["[Scatter2D] bc."].
Proof. reflexivity. Qed.
(** log(a, b, ...) without keywords: the name in brackets, a space, the arguments run together, a newline [nl]; nothing when the object is not verbose. *)
Theorem C77_log_defaults : forall name nl a,
  log {| l_name := name; verbose := true |} (plain_log nl a) = [("[" ++ name ++ "] " ++ String.concat "" a ++ nl)%string] /\
  log {| l_name := name; verbose := false |} (plain_log nl a) = [].
Proof.
  intros name nl a. split; [|reflexivity]. unfold log, plain_log. cbn [verbose named timed args sep end_ l_name append]. change (Nat.ltb 0 (String.length (String "[" ((name ++ "]") ++ "")))) with true. cbv iota. f_equal. unfold printed.
  assert (J : forall l, join "" l = String.concat "" l) by (induction l as [|x l IH]; [reflexivity|]; destruct l as [|y l]; [reflexivity|]; change (x ++ "" ++ join "" (y :: l) = x ++ "" ++ String.concat "" (y :: l))%string; rewrite IH; reflexivity).
  rewrite J. assert (Z : forall s, (s ++ "" = s)%string) by (induction s as [|c s IH]; [reflexivity|cbn; rewrite IH; reflexivity]). rewrite Z.
  destruct a as [|a l]; cbn [String.concat append]; rewrite ?sapp_assoc; cbn [append]; [reflexivity|]. rewrite ?sapp_assoc. reflexivity.
Qed.
Print Assumptions C77_log_defaults.
