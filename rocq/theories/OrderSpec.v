(** Shared order vocabulary. *)
From Coq Require Import QArith Sorted.
From Verif Require Import Base.
Local Open Scope list_scope. Local Open Scope nat_scope.

(** A strict weak order given by a boolean "less than": what numpy's [<] is on ints, and on floats without
    NaN (+0 and -0 are equivalent but different). *)
Record weak_order {T} (lt : T -> T -> bool) : Prop := {
  wo_irr : forall a, lt a a = false;
  wo_trans : forall a b c, lt a b = true -> lt b c = true -> lt a c = true;
  wo_neg : forall a b c, lt a b = false -> lt b c = false -> lt a c = false }.

(** Non-decreasing (position-wise). *)
Definition ascending {T} (lt : T -> T -> bool) (xs : list T) : Prop :=
  forall i j a b, i < j -> nth_error xs i = Some a -> nth_error xs j = Some b -> lt b a = false.
(** Strictly increasing. *)
Definition increasing {T} (lt : T -> T -> bool) (xs : list T) : Prop :=
  forall i j a b, i < j -> nth_error xs i = Some a -> nth_error xs j = Some b -> lt a b = true.

Definition Qltb (a b : Q) : bool := negb (Qle_bool b a).
Lemma Qltb_lt a b : Qltb a b = true <-> (a < b)%Q.
Proof.
  unfold Qltb. rewrite negb_true_iff. split; intros H.
  - destruct (Qlt_le_dec a b) as [L|L]; [assumption|]. apply Qle_bool_iff in L. congruence.
  - destruct (Qle_bool b a) eqn:E; [|reflexivity]. apply Qle_bool_iff in E. exfalso. eapply Qlt_not_le; eassumption.
Qed.
Lemma Qltb_ge a b : Qltb a b = false <-> (b <= a)%Q.
Proof. unfold Qltb. rewrite negb_false_iff. apply Qle_bool_iff. Qed.
Lemma Q_weak_order : weak_order Qltb.
Proof.
  constructor.
  - intros a. apply Qltb_ge. apply Qle_refl.
  - intros a b c. rewrite !Qltb_lt. apply Qlt_trans.
  - intros a b c. rewrite !Qltb_ge. intros H1 H2. eapply Qle_trans; eassumption.
Qed.
Lemma Z_weak_order : weak_order Z.ltb.
Proof. constructor; intros; rewrite ?Z.ltb_lt, ?Z.ltb_ge in *; lia. Qed.
Lemma increasing_ascending {T} lt (xs : list T) : weak_order lt -> increasing lt xs -> ascending lt xs.
Proof.
  intros [Hi Ht _] H i j a b L Ha Hb. specialize (H _ _ _ _ L Ha Hb). destruct (lt b a) eqn:E; [|reflexivity].
  rewrite <- (Hi a). symmetry. eapply Ht; eassumption.
Qed.
