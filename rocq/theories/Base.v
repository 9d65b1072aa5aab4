(** Shared vocabulary: Python exceptions as values and insertion-ordered dictionaries. *)
From Coq Require Export String Ascii Bool List Arith ZArith Lia.
Export ListNotations.

(** Python exception classes that the modelled code can raise. *)
Inductive exn :=
| KeyError | ValueError | TypeError | AssertionError | IndexError
| AttributeError | OSError | RuntimeError | ZeroDivisionError | UnboundLocalError
| NotImplementedError | FileNotFoundError | FileExistsError | UserError (n : nat) (* raised by a caller-supplied callable *).

Inductive result (A : Type) := Ok (a : A) | Err (e : exn).
Arguments Ok {A} a.
Arguments Err {A} e.

Definition bind {A B} (r : result A) (f : A -> result B) : result B :=
  match r with Ok a => f a | Err e => Err e end.
Definition rmap {A B} (f : A -> B) (r : result A) : result B :=
  match r with Ok a => Ok (f a) | Err e => Err e end.

(** [tuple(f(x) for x in l)]: left to right, the first exception escapes. *)
Fixpoint mapM {A B} (f : A -> result B) (l : list A) : result (list B) :=
  match l with
  | [] => Ok []
  | a :: l' => bind (f a) (fun b => bind (mapM f l') (fun bs => Ok (b :: bs)))
  end.

Lemma mapM_Ok {A B} (f : A -> result B) : forall l bs,
  mapM f l = Ok bs <-> Forall2 (fun a b => f a = Ok b) l bs.
Proof.
  induction l as [|a l IH]; intros bs; simpl.
  - split; intros H. + inversion H; constructor. + inversion H; reflexivity.
  - split; intros H.
    + destruct (f a) as [b|e] eqn:Ea; simpl in H; [|discriminate].
      destruct (mapM f l) as [bs'|e] eqn:El; simpl in H; [|discriminate].
      inversion H; subst. constructor; [assumption|]. apply IH. reflexivity.
    + inversion H as [|? b ? bs' Hab Hl]; subst. rewrite Hab. simpl.
      apply IH in Hl. rewrite Hl. reflexivity.
Qed.

(** First failure: a prefix succeeds and the next element raises. *)
Lemma mapM_Err {A B} (f : A -> result B) : forall l e,
  mapM f l = Err e <->
  exists pre a suf, l = pre ++ a :: suf /\ (forall x, In x pre -> exists b, f x = Ok b) /\ f a = Err e.
Proof.
  induction l as [|a l IH]; intros e; simpl.
  - split; [discriminate|]. intros (pre & a & suf & H & _). destruct pre; discriminate.
  - split.
    + intros H. destruct (f a) as [b|e'] eqn:Ea; simpl in H.
      * destruct (mapM f l) as [bs|e''] eqn:El; simpl in H; [discriminate|].
        inversion H; subst. destruct (proj1 (IH e) eq_refl) as (pre & x & suf & Hl & Hp & Hx).
        exists (a :: pre), x, suf. split; [simpl; congruence|]. split; [|assumption].
        intros y [Hy|Hy]; [subst; eauto|auto].
      * inversion H; subst. exists [], a, l. split; [reflexivity|]. split; [intros x []|assumption].
    + intros (pre & x & suf & Hl & Hp & Hx). destruct pre as [|y pre]; simpl in Hl; inversion Hl; subst.
      * rewrite Hx. reflexivity.
      * destruct (Hp y (or_introl eq_refl)) as [b Hb]. rewrite Hb. simpl.
        rewrite (proj2 (IH e)); [reflexivity|].
        exists pre, x, suf. split; [reflexivity|]. split; [|assumption]. intros z Hz; apply Hp; right; assumption.
Qed.

(** * Insertion-ordered dictionaries (Python's dict / OrderedDict)

    An association list in insertion order.  [od_set] keeps the position of an existing key and
    appends a new one, [od_del] removes, exactly as CPython's dict does. *)
Section Odict.
  Context {K V : Type}.
  Variable keqb : K -> K -> bool.

  Definition odict := list (K * V).

  Fixpoint od_get (d : odict) (k : K) : option V :=
    match d with
    | [] => None
    | (k', v) :: d' => if keqb k k' then Some v else od_get d' k
    end.

  Definition od_mem (d : odict) (k : K) : bool :=
    match od_get d k with Some _ => true | None => false end.

  Fixpoint od_set (d : odict) (k : K) (v : V) : odict :=
    match d with
    | [] => [(k, v)]
    | (k', v') :: d' => if keqb k k' then (k', v) :: d' else (k', v') :: od_set d' k v
    end.

  Fixpoint od_del (d : odict) (k : K) : odict :=
    match d with
    | [] => []
    | (k', v') :: d' => if keqb k k' then d' else (k', v') :: od_del d' k
    end.

  Definition od_update (d : odict) (items : list (K * V)) : odict :=
    fold_left (fun d kv => od_set d (fst kv) (snd kv)) items d.

  Definition od_keys (d : odict) : list K := map fst d.

  Definition od_wf (d : odict) : Prop := NoDup (od_keys d).

  Hypothesis keqb_spec : forall a b, reflect (a = b) (keqb a b).

  Lemma od_get_set_same d k v : od_get (od_set d k v) k = Some v.
  Proof.
    induction d as [|[k' v'] d IH]; simpl.
    - destruct (keqb_spec k k); congruence.
    - destruct (keqb_spec k k') as [->|N]; simpl.
      + destruct (keqb_spec k' k'); congruence.
      + destruct (keqb_spec k k'); congruence.
  Qed.

  Lemma od_get_set_other d k k2 v : k2 <> k -> od_get (od_set d k v) k2 = od_get d k2.
  Proof.
    intros Hne. induction d as [|[k' v'] d IH]; simpl.
    - destruct (keqb_spec k2 k); congruence.
    - destruct (keqb_spec k k') as [->|N]; simpl.
      + destruct (keqb_spec k2 k'); congruence.
      + destruct (keqb_spec k2 k'); congruence.
  Qed.

  Lemma od_get_set d k k2 v : od_get (od_set d k v) k2 = if keqb k2 k then Some v else od_get d k2.
  Proof.
    destruct (keqb_spec k2 k) as [->|N]; [apply od_get_set_same | apply od_get_set_other; assumption].
  Qed.

  Lemma od_get_None d k : od_get d k = None <-> ~ In k (od_keys d).
  Proof.
    induction d as [|[k' v'] d IH]; simpl; [tauto|].
    destruct (keqb_spec k k') as [->|N].
    - split; [discriminate|]. intros H; exfalso; apply H; left; reflexivity.
    - rewrite IH. split.
      + intros H [Hk|Hk]; [congruence|contradiction].
      + intros H Hk; apply H; right; assumption.
  Qed.

  Lemma od_get_In d k v : od_get d k = Some v -> In (k, v) d.
  Proof.
    induction d as [|[k' v'] d IH]; simpl; [discriminate|].
    destruct (keqb_spec k k') as [->|N]; intros H; [left; congruence | right; auto].
  Qed.

  Lemma od_In_get d k v : od_wf d -> In (k, v) d -> od_get d k = Some v.
  Proof.
    unfold od_wf. induction d as [|[k' v'] d IH]; simpl; [tauto|].
    intros Hnd [He|Hin]; inversion Hnd as [|? ? Hni Hnd']; subst.
    - inversion He; subst. destruct (keqb_spec k k); congruence.
    - destruct (keqb_spec k k') as [->|N]; [|auto].
      exfalso. apply Hni. apply in_map_iff. exists (k', v). auto.
  Qed.

  Lemma od_mem_keys d k : od_mem d k = true <-> In k (od_keys d).
  Proof.
    unfold od_mem. destruct (od_get d k) as [v|] eqn:E.
    - split; [|reflexivity]. intros _. apply od_get_In in E. apply in_map_iff. exists (k, v); auto.
    - apply od_get_None in E. split; [discriminate|contradiction].
  Qed.

  Lemma od_keys_set d k v :
    od_keys (od_set d k v) = if od_mem d k then od_keys d else od_keys d ++ [k].
  Proof.
    unfold od_mem. induction d as [|[k' v'] d IH]; simpl; [reflexivity|].
    destruct (keqb_spec k k') as [->|N]; simpl; [reflexivity|].
    rewrite IH. destruct (od_get d k); reflexivity.
  Qed.

  Lemma NoDup_app_single (A : Type) (l : list A) a : NoDup l -> ~ In a l -> NoDup (l ++ [a]).
  Proof.
    induction l as [|b l IH]; simpl; intros Hnd Hni.
    - constructor; [intros []|constructor].
    - inversion Hnd; subst. constructor.
      + intros Hin. apply in_app_or in Hin. destruct Hin as [Hin|[Hin|[]]]; [contradiction|].
        subst. apply Hni. left; reflexivity.
      + apply IH; [assumption|]. intros H; apply Hni; right; assumption.
  Qed.

  Lemma od_wf_set d k v : od_wf d -> od_wf (od_set d k v).
  Proof.
    unfold od_wf. intros H. rewrite od_keys_set. destruct (od_mem d k) eqn:E; [assumption|].
    apply NoDup_app_single; [assumption|]. intros Hin. apply od_mem_keys in Hin. congruence.
  Qed.

  Lemma od_get_del_same d k : od_wf d -> od_get (od_del d k) k = None.
  Proof.
    unfold od_wf. induction d as [|[k' v'] d IH]; simpl; [reflexivity|].
    intros Hnd; inversion Hnd as [|? ? Hni Hnd']; subst.
    destruct (keqb_spec k k') as [->|N]; simpl.
    - apply od_get_None. assumption.
    - destruct (keqb_spec k k'); [congruence|auto].
  Qed.

  Lemma od_get_del_other d k k2 : k2 <> k -> od_get (od_del d k) k2 = od_get d k2.
  Proof.
    intros Hne. induction d as [|[k' v'] d IH]; simpl; [reflexivity|].
    destruct (keqb_spec k k') as [->|N]; simpl.
    - destruct (keqb_spec k2 k'); [congruence|reflexivity].
    - destruct (keqb_spec k2 k'); [reflexivity|assumption].
  Qed.

  (** Deleting keeps the relative order of all other entries. *)
  Lemma od_del_filter d k : od_wf d -> od_del d k = filter (fun kv => negb (keqb k (fst kv))) d.
  Proof.
    unfold od_wf. induction d as [|[k' v'] d IH]; simpl; [reflexivity|].
    intros Hnd; inversion Hnd as [|? ? Hni Hnd']; subst.
    destruct (keqb_spec k k') as [->|N]; simpl.
    - symmetry. rewrite <- (IH Hnd').
      clear IH Hnd Hnd'. induction d as [|[k2 v2] d IH]; simpl; [reflexivity|].
      simpl in Hni. destruct (keqb_spec k' k2) as [->|N]; [exfalso; apply Hni; left; reflexivity|].
      rewrite IH; [reflexivity|]. intros H; apply Hni; right; assumption.
    - rewrite IH; [reflexivity|assumption].
  Qed.

  Lemma filter_map_fst_NoDup (f : K * V -> bool) d : NoDup (map fst d) -> NoDup (map fst (filter f d)).
  Proof.
    induction d as [|kv d IH]; simpl; [auto|]. intros H; inversion H as [|? ? Hni Hnd]; subst.
    destruct (f kv); simpl; [|auto]. constructor; [|auto].
    intros Hin. apply Hni. apply in_map_iff in Hin. destruct Hin as (x & Hx & Hin).
    apply filter_In in Hin. apply in_map_iff. exists x. tauto.
  Qed.

  Lemma od_wf_del d k : od_wf d -> od_wf (od_del d k).
  Proof.
    intros H. rewrite od_del_filter by assumption. apply filter_map_fst_NoDup. exact H.
  Qed.

  Lemma od_wf_nil : od_wf [].
  Proof. constructor. Qed.

  Lemma od_wf_update items d : od_wf d -> od_wf (od_update d items).
  Proof.
    unfold od_update. revert d. induction items as [|[k v] items IH]; simpl; intros d H; [assumption|].
    apply IH. apply od_wf_set. assumption.
  Qed.

  (** The value found in the rightmost pair with key [k]. *)
  Fixpoint last_get (items : list (K * V)) (k : K) : option V :=
    match items with
    | [] => None
    | (k', v) :: items' =>
        match last_get items' k with
        | Some w => Some w
        | None => if keqb k k' then Some v else None
        end
    end.

  Lemma od_get_update items d k :
    od_get (od_update d items) k =
    match last_get items k with Some v => Some v | None => od_get d k end.
  Proof.
    unfold od_update. revert d. induction items as [|[k' v'] items IH]; intros d; simpl; [reflexivity|].
    rewrite IH, od_get_set. simpl. destruct (last_get items k); [reflexivity|].
    destruct (keqb k k'); reflexivity.
  Qed.

  Lemma last_get_wf items k : od_wf items -> last_get items k = od_get items k.
  Proof.
    unfold od_wf. induction items as [|[k' v'] items IH]; simpl; [reflexivity|].
    intros Hnd; inversion Hnd as [|? ? Hni Hnd']; subst. rewrite (IH Hnd').
    destruct (keqb_spec k k') as [->|N].
    - rewrite (proj2 (od_get_None items k') Hni). reflexivity.
    - destruct (od_get items k); reflexivity.
  Qed.

  (** Right-biased union, old keys first in their order, then the new keys in the order of [items]. *)
  Lemma od_keys_update items d : od_wf items ->
    od_keys (od_update d items) =
    od_keys d ++ filter (fun k => negb (od_mem d k)) (od_keys items).
  Proof.
    unfold od_wf, od_update. revert d.
    induction items as [|[k v] items IH]; simpl; intros d Hnd; [rewrite app_nil_r; reflexivity|].
    inversion Hnd as [|? ? Hni Hnd']; subst. rewrite IH by assumption.
    rewrite od_keys_set.
    assert (Hf : filter (fun k0 => negb (od_mem (od_set d k v) k0)) (od_keys items) =
                 filter (fun k0 => negb (od_mem d k0)) (od_keys items)).
    { unfold od_keys. clear -keqb_spec Hni. induction items as [|[k' v'] items IH]; simpl; [reflexivity|].
      simpl in Hni. rewrite IH by tauto.
      replace (od_mem (od_set d k v) k') with (od_mem d k'); [reflexivity|].
      unfold od_mem. rewrite od_get_set_other; [reflexivity|]. intros ->. apply Hni. left; reflexivity. }
    rewrite Hf. destruct (od_mem d k) eqn:E; simpl.
    - reflexivity.
    - rewrite <- app_assoc. reflexivity.
  Qed.

  (** A dict comprehension over pairs with distinct keys is the list of pairs itself. *)
  Lemma od_update_fresh items d :
    NoDup (od_keys d ++ od_keys items) -> od_update d items = d ++ items.
  Proof.
    unfold od_update. revert d. induction items as [|[k v] items IH]; simpl; intros d Hnd.
    - rewrite app_nil_r. reflexivity.
    - assert (Hset : od_set d k v = d ++ [(k, v)]).
      { assert (Hni : ~ In k (od_keys d)).
        { intros Hin. apply NoDup_remove_2 in Hnd. apply Hnd. apply in_or_app. left; assumption. }
        clear -keqb_spec Hni. induction d as [|[k' v'] d IH]; simpl; [reflexivity|].
        simpl in Hni. destruct (keqb_spec k k') as [->|N]; [exfalso; apply Hni; left; reflexivity|].
        rewrite IH; [reflexivity|]. intros H; apply Hni; right; assumption. }
      rewrite Hset, IH, <- app_assoc; [reflexivity|].
      unfold od_keys in *. rewrite map_app, <- app_assoc. assumption.
  Qed.

  Lemma od_update_id items : od_wf items -> od_update [] items = items.
  Proof. intros H. apply (od_update_fresh items []). exact H. Qed.
End Odict.

Arguments odict : clear implicits.

(** * Lists as finite stores *)
Fixpoint upd_nth {A} (l : list A) (i : nat) (a : A) : list A :=
  match l, i with
  | [], _ => []
  | _ :: l', 0 => a :: l'
  | b :: l', S i' => b :: upd_nth l' i' a
  end.

Lemma upd_nth_length {A} (l : list A) i a : length (upd_nth l i a) = length l.
Proof. revert i; induction l as [|b l IH]; intros [|i]; simpl; congruence. Qed.

Lemma upd_nth_same {A} (l : list A) i a : i < length l -> nth_error (upd_nth l i a) i = Some a.
Proof.
  revert i; induction l as [|b l IH]; intros [|i]; simpl; intros H; try lia; [reflexivity|].
  apply IH. lia.
Qed.

Lemma upd_nth_other {A} (l : list A) i j a : i <> j -> nth_error (upd_nth l i a) j = nth_error l j.
Proof.
  revert i j; induction l as [|b l IH]; intros [|i] [|j]; simpl; intros H; try reflexivity; try lia.
  apply IH. lia.
Qed.

Lemma Forall2_len {A B} (P : A -> B -> Prop) l l' : Forall2 P l l' -> length l = length l'.
Proof. induction 1; simpl; congruence. Qed.
