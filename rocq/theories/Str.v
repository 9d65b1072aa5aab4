(** Python string helpers used by several modules: str.split(sep), sep.join, `sep in s`. *)
From Verif Require Import Base.
Open Scope string_scope.

Fixpoint has_char (c : ascii) (s : string) : bool :=
  match s with
  | EmptyString => false
  | String a s' => Ascii.eqb a c || has_char c s'
  end.

(** [s.split(c)] for a one-character separator: never empty, keeps empty pieces. *)
Fixpoint split_on (c : ascii) (s : string) : list string :=
  match s with
  | EmptyString => [EmptyString]
  | String a s' =>
      if Ascii.eqb a c then EmptyString :: split_on c s'
      else match split_on c s' with
           | w :: ws => String a w :: ws
           | [] => [String a EmptyString]
           end
  end.

(** [c.join(l)] *)
Fixpoint join_with (c : ascii) (l : list string) : string :=
  match l with
  | [] => EmptyString
  | [w] => w
  | w :: ws => w ++ String c (join_with c ws)
  end.

Definition is_empty (s : string) : bool := match s with EmptyString => true | _ => false end.

(** [tuple(k for k in key.split(c) if len(k) > 0)] *)
Definition nonempty_segments (c : ascii) (s : string) : list string :=
  filter (fun w => negb (is_empty w)) (split_on c s).

Lemma split_on_nonnil c s : split_on c s <> [].
Proof. destruct s as [|a s]; simpl; [discriminate|]. destruct (Ascii.eqb a c); [discriminate|].
  destruct (split_on c s); discriminate. Qed.

Lemma split_on_nochar c s : has_char c s = false -> split_on c s = [s].
Proof.
  induction s as [|a s IH]; simpl; [reflexivity|]. intros H.
  apply orb_false_elim in H. destruct H as [H1 H2]. rewrite H1, (IH H2). reflexivity.
Qed.

Lemma split_on_app c s t : split_on c (s ++ String c t) = (split_on c s ++ split_on c t)%list.
Proof.
  induction s as [|a s IH]; simpl.
  - rewrite Ascii.eqb_refl. reflexivity.
  - rewrite IH. destruct (Ascii.eqb a c); [reflexivity|].
    destruct (split_on c s) as [|w ws] eqn:E; [exfalso; exact (split_on_nonnil c s E)|]. reflexivity.
Qed.

Lemma split_on_pieces c s w : In w (split_on c s) -> has_char c w = false.
Proof.
  revert w. induction s as [|a s IH]; simpl; intros w.
  - intros [<-|[]]. reflexivity.
  - destruct (Ascii.eqb a c) eqn:E.
    + intros [<-|H]; [reflexivity|auto].
    + destruct (split_on c s) as [|w' ws] eqn:Es; [exfalso; exact (split_on_nonnil c s Es)|].
      intros [<-|H]; [|apply IH; right; assumption].
      simpl. rewrite E. simpl. apply IH. left; reflexivity.
Qed.

Lemma join_split c s : join_with c (split_on c s) = s.
Proof.
  induction s as [|a s IH]; simpl; [reflexivity|].
  destruct (Ascii.eqb_spec a c) as [->|N].
  - destruct (split_on c s) as [|w ws] eqn:E; [exfalso; exact (split_on_nonnil c s E)|].
    simpl in *. rewrite IH. reflexivity.
  - destruct (split_on c s) as [|w ws] eqn:E; [exfalso; exact (split_on_nonnil c s E)|].
    destruct ws as [|w2 ws]; simpl in *; rewrite <- IH; reflexivity.
Qed.

Lemma split_join c l : l <> [] -> (forall w, In w l -> has_char c w = false) ->
  split_on c (join_with c l) = l.
Proof.
  intros Hne. induction l as [|w l IH]; [congruence|]. intros H.
  destruct l as [|w2 l].
  - simpl. apply split_on_nochar. apply H. left; reflexivity.
  - change (join_with c (w :: w2 :: l)) with (w ++ String c (join_with c (w2 :: l))).
    rewrite split_on_app, (split_on_nochar c w) by (apply H; left; reflexivity).
    rewrite IH; [reflexivity|discriminate|]. intros x Hx. apply H. right; assumption.
Qed.

Lemma segments_app c s t :
  nonempty_segments c (s ++ String c t) = (nonempty_segments c s ++ nonempty_segments c t)%list.
Proof. unfold nonempty_segments. rewrite split_on_app, filter_app. reflexivity. Qed.

Lemma segments_nochar c s : has_char c s = false -> s <> "" -> nonempty_segments c s = [s].
Proof.
  intros H Hne. unfold nonempty_segments. rewrite split_on_nochar by assumption.
  destruct s; [congruence|reflexivity].
Qed.

Lemma segments_In c s w : In w (nonempty_segments c s) -> w <> "" /\ has_char c w = false.
Proof.
  intros H. apply filter_In in H. destruct H as [H1 H2]. split.
  - destruct w; [discriminate|congruence].
  - eapply split_on_pieces; eassumption.
Qed.

(** Independent description of slash-separated paths: [is_path c s p] says that [s] is the
    concatenation of the names [p] with at least one separator between two names and any
    number of extra separators anywhere. *)
Inductive is_path (c : ascii) : string -> list string -> Prop :=
| path_empty : is_path c "" []
| path_name s : s <> "" -> has_char c s = false -> is_path c s [s]
| path_sep s t p q : is_path c s p -> is_path c t q -> is_path c (s ++ String c t) (p ++ q)%list.

Lemma is_path_segments c s p : is_path c s p <-> p = nonempty_segments c s.
Proof.
  split.
  - induction 1 as [|s Hne Hno|s t p q _ IH1 _ IH2].
    + reflexivity.
    + symmetry; apply segments_nochar; assumption.
    + rewrite segments_app. congruence.
  - intros ->. rewrite <- (join_split c s) at 1. unfold nonempty_segments.
    pose proof (split_on_pieces c s) as Hp. pose proof (split_on_nonnil c s) as Hn.
    induction (split_on c s) as [|w l IH]; [congruence|].
    assert (Hw : is_path c w (if negb (is_empty w) then [w] else [])).
    { destruct w as [|a w]; simpl; [constructor|].
      constructor; [discriminate|]. apply Hp. left; reflexivity. }
    destruct l as [|w2 l].
    + simpl. simpl in Hw. destruct (negb (is_empty w)); assumption.
    + change (join_with c (w :: w2 :: l)) with (w ++ String c (join_with c (w2 :: l))).
      replace (filter (fun w0 => negb (is_empty w0)) (w :: w2 :: l))
        with ((if negb (is_empty w) then [w] else []) ++ filter (fun w0 => negb (is_empty w0)) (w2 :: l))%list
        by (simpl; destruct (negb (is_empty w)); reflexivity).
      constructor; [assumption|]. apply IH; [|discriminate]. intros x Hx. apply Hp. right; assumption.
Qed.

Lemma append_nil_r (s : string) : s ++ "" = s.
Proof. induction s; simpl; congruence. Qed.
