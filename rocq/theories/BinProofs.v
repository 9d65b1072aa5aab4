From Coq Require Import QArith Qround Qabs Qminmax Lqa Permutation.
From Verif Require Import Base OrderSpec BinSpec BinModel.
Local Open Scope list_scope. Local Open Scope nat_scope.

Lemma Ok_inj {A} (a b : A) : Ok a = Ok b -> a = b.
Proof. congruence. Qed.

(** ** orders and sorting *)
Lemma np_weak_order : weak_order np_lt.
Proof.
  constructor.
  - intros [q| | |]; simpl; auto. apply Qltb_ge. apply Qle_refl.
  - intros [p| | |] [q| | |] [r| | |]; simpl; try discriminate; auto. rewrite !Qltb_lt. apply Qlt_trans.
  - intros [p| | |] [q| | |] [r| | |]; simpl; try discriminate; auto. rewrite !Qltb_ge. intros; eapply Qle_trans; eassumption.
Qed.

Lemma ins_length {T} (lt : T -> T -> bool) x l : length (ins lt x l) = S (length l).
Proof. induction l as [|y l IH]; simpl; [reflexivity|]. destruct (lt y x); simpl; congruence. Qed.
Lemma ins_perm {T} (lt : T -> T -> bool) x l : Permutation (ins lt x l) (x :: l).
Proof.
  induction l as [|y l IH]; simpl; [reflexivity|]. destruct (lt y x); [|reflexivity].
  rewrite IH. apply perm_swap.
Qed.
Lemma sort_perm {T} (lt : T -> T -> bool) l : Permutation (np_sort lt l) l.
Proof. induction l as [|x l IH]; simpl; [reflexivity|]. rewrite ins_perm, IH. reflexivity. Qed.

Lemma asc_cons {T} (lt : T -> T -> bool) x l : ascending lt (x :: l) <-> (forall y, In y l -> lt y x = false) /\ ascending lt l.
Proof.
  split.
  - intros H. split.
    + intros y Hy. apply In_nth_error in Hy. destruct Hy as [n Hn]. apply (H 0 (S n)); [lia|reflexivity|assumption].
    + intros i j a b L Ha Hb. apply (H (S i) (S j)); [lia|assumption|assumption].
  - intros [H1 H2] [|i] [|j] a b L Ha Hb; simpl in *; try lia.
    + injection Ha as <-. apply H1. eapply nth_error_In; eassumption.
    + apply (H2 i j); [lia|assumption|assumption].
Qed.
Lemma ins_asc {T} (lt : T -> T -> bool) x l : weak_order lt -> ascending lt l -> ascending lt (ins lt x l).
Proof.
  intros W. induction l as [|y l IH]; intros H; simpl.
  - apply asc_cons. split; [intros z []|]. intros i j a b L Ha. destruct i; discriminate.
  - apply asc_cons in H as Hc. destruct Hc as [H1 H2]. destruct (lt y x) eqn:E.
    + apply asc_cons. split; [|auto]. intros z Hz.
      apply (Permutation_in _ (ins_perm lt x l)) in Hz. destruct Hz as [<-|Hz]; [|auto].
      destruct (lt x y) eqn:E2; [|reflexivity]. rewrite <- (wo_irr lt W x). symmetry. eapply wo_trans; eassumption.
    + apply asc_cons. split; [|assumption]. intros z [<-|Hz]; [assumption|].
      eapply wo_neg; [exact W|apply H1; exact Hz|assumption].
Qed.
Lemma sort_asc {T} (lt : T -> T -> bool) l : weak_order lt -> ascending lt (np_sort lt l).
Proof.
  intros W. induction l as [|x l IH]; simpl; [intros i j a b L Ha; destruct i; discriminate|]. apply ins_asc; assumption.
Qed.

(** ** searchsorted *)
Lemma ss_le {T} (lt : T -> T -> bool) es x : searchsorted_right lt es x <= length es.
Proof. induction es as [|e es IH]; simpl; [lia|]. destruct (lt x e); lia. Qed.
Lemma ss_index {T} (lt : T -> T -> bool) es x : weak_order lt -> ascending lt es -> bin_index lt es x (bs_locate lt es x).
Proof.
  intros W H. unfold bin_index, bs_locate. pose proof (ss_le lt es x). split; [lia|].
  intros j e Hj. revert j e Hj. induction es as [|y es IH]; intros j e Hj; [destruct j; discriminate|].
  apply asc_cons in H as Hc. destruct Hc as [H1 H2]. cbn [searchsorted_right] in *. destruct (lt x y) eqn:E.
  - split; intros L; [lia|]. exfalso.
    destruct j as [|j]; simpl in Hj; [injection Hj as <-; congruence|].
    assert (lt e y = false) by (apply H1; eapply nth_error_In; eassumption).
    assert (lt x y = false) by (eapply wo_neg; eassumption). congruence.
  - destruct j as [|j]; simpl in Hj.
    + injection Hj as <-. split; intros; [assumption|lia].
    + assert (Hle := ss_le lt es x). specialize (IH H2 Hle j e Hj). rewrite <- IH. lia.
Qed.
Lemma bin_index_unique {T} (lt : T -> T -> bool) es x i i' : bin_index lt es x i -> bin_index lt es x i' -> i = i'.
Proof.
  intros [R H] [R' H'].
  assert (G : forall a b, (-1 <= a < Z.of_nat (length es))%Z -> (-1 <= b)%Z -> (forall j e, nth_error es j = Some e -> ((Z.of_nat j <= a)%Z <-> lt x e = false)) ->
    (forall j e, nth_error es j = Some e -> ((Z.of_nat j <= b)%Z <-> lt x e = false)) -> (a <= b)%Z).
  { intros a b Ra Rb Ha Hb. destruct (Z_le_gt_dec a b) as [L|L]; [assumption|].
    destruct (nth_error es (Z.to_nat a)) as [e|] eqn:E; [|apply nth_error_None in E; lia].
    assert (Hx : lt x e = false) by (apply (Ha _ _ E); lia). apply (Hb _ _ E) in Hx. lia. }
  assert (i <= i')%Z by (apply G; auto; lia). assert (i' <= i)%Z by (apply G; auto; lia). lia.
Qed.

Lemma bs_new_spec {T} (lt : T -> T -> bool) edges : weak_order lt ->
  match bs_new lt edges with
  | Ok es => Permutation es edges /\ ascending lt es /\ 2 <= length edges /\ forall x, bin_index lt es x (bs_locate lt es x)
  | Err e => e = AssertionError /\ length edges < 2
  end.
Proof.
  intros W. unfold bs_new. pose proof (sort_perm lt edges) as P. pose proof (sort_asc lt edges W) as A.
  pose proof (Permutation_length P) as L. destruct (Nat.leb 2 (length (np_sort lt edges))) eqn:E.
  - apply Nat.leb_le in E. split; [assumption|]. split; [assumption|]. split; [lia|]. intros x. apply ss_index; assumption.
  - apply Nat.leb_gt in E. split; [reflexivity|lia].
Qed.

(** ** linspace *)
Lemma nth_error_map_seq {A} (f : nat -> A) n k : nth_error (map f (seq 0 n)) k = if Nat.ltb k n then Some (f k) else None.
Proof.
  destruct (Nat.ltb k n) eqn:E.
  - apply Nat.ltb_lt in E. rewrite nth_error_map, (nth_error_nth' _ 0) by (rewrite seq_length; lia). rewrite seq_nth by lia. reflexivity.
  - apply Nat.ltb_ge in E. apply nth_error_None. rewrite map_length, seq_length. lia.
Qed.
Lemma linspace_length a b n : length (linspace a b n) = n.
Proof. unfold linspace. rewrite map_length, seq_length. reflexivity. Qed.
Lemma linspace_nth a b n k e : nth_error (linspace a b n) k = Some e ->
  k < n /\ e = (a + inject_Z (Z.of_nat k) * ((b - a) / inject_Z (Z.of_nat (n - 1))))%Q.
Proof.
  unfold linspace. rewrite nth_error_map_seq. destruct (Nat.ltb k n) eqn:E; [|discriminate].
  apply Nat.ltb_lt in E. intros H; injection H as <-. split; [assumption|reflexivity].
Qed.
Lemma inject_pos n : (0 < n)%Z -> (0 < inject_Z n)%Q.
Proof. intros H. replace 0%Q with (inject_Z 0) by reflexivity. rewrite <- Zlt_Qlt. assumption. Qed.
Lemma inject_le a b : (a <= b)%Z <-> (inject_Z a <= inject_Z b)%Q.
Proof. rewrite Zle_Qle. reflexivity. Qed.

Lemma Qfloor_spec q z : (z <= Qfloor q)%Z <-> (inject_Z z <= q)%Q.
Proof.
  split; intros H.
  - apply Qle_trans with (inject_Z (Qfloor q)); [apply (proj1 (inject_le _ _)); assumption|apply Qfloor_le].
  - destruct (Z_le_gt_dec z (Qfloor q)) as [L|L]; [assumption|]. exfalso.
    pose proof (Qlt_floor q) as F. assert (Qfloor q + 1 <= z)%Z by lia. apply (proj1 (inject_le _ _)) in H0.
    apply (Qlt_irrefl q). eapply Qlt_le_trans; [exact F|]. eapply Qle_trans; eassumption.
Qed.

(** ** EqualSpaceBins *)
Lemma es_new_Ok b e n s : es_new b e n = Ok s <-> ((b < e)%Q /\ (0 < n)%Z /\
  s = {| es_b := b; es_e := e; es_n := n; es_step := ((e - b) / inject_Z n)%Q |}).
Proof.
  unfold es_new. destruct (Qltb b e) eqn:E1; simpl.
  - apply Qltb_lt in E1. destruct (Z.ltb_spec 0 n); simpl.
    + split; [intros H0; injection H0 as <-; auto|intros (_ & _ & ->); reflexivity].
    + split; [discriminate|intros (_ & ? & _); lia].
  - apply Qltb_ge in E1. split; [discriminate|]. intros (H & _). exfalso. eapply Qlt_not_le; eassumption.
Qed.
Lemma es_new_Err b e n x : es_new b e n = Err x -> x = AssertionError /\ ((e <= b)%Q \/ (n <= 0)%Z).
Proof.
  unfold es_new. destruct (Qltb b e) eqn:E1; simpl.
  - destruct (Z.ltb_spec 0 n); simpl; [discriminate|]. intros H0; injection H0 as <-; auto.
  - apply Qltb_ge in E1. intros H0; injection H0 as <-; auto.
Qed.
Lemma step_pos b e n : (b < e)%Q -> (0 < n)%Z -> (0 < (e - b) / inject_Z n)%Q.
Proof. intros H1 H2. apply Qlt_shift_div_l; [apply inject_pos; assumption|lra]. Qed.
Lemma es_index b e n s q : es_new b e n = Ok s ->
  (- 2 ^ 63 <= Qfloor ((q - b) / ((e - b) / inject_Z n)) < 2 ^ 63)%Z ->
  (-1 <= es_locate s (Fin q) <= n)%Z /\ length (es_edges s) = S (Z.to_nat n) /\
  bin_index Qltb (es_edges s) q (es_locate s (Fin q)).
Proof.
  intros H R. apply es_new_Ok in H. destruct H as (Hbe & Hn & ->). unfold es_locate, es_edges. cbn [es_b es_e es_n es_step].
  set (st := ((e - b) / inject_Z n)%Q) in *. pose proof (step_pos b e n Hbe Hn) as Sp. fold st in Sp.
  set (f := Qfloor ((q - b) / st)) in *. unfold int64_cast.
  replace ((- (2 ^ 63) <=? f)%Z && (f <? 2 ^ 63)%Z) with true by (symmetry; apply andb_true_intro; split; [apply Z.leb_le|apply Z.ltb_lt]; lia).
  cbv iota. unfold zclip. split; [lia|]. rewrite linspace_length. split; [lia|]. split; [rewrite linspace_length; lia|].
  intros j x Hj. apply linspace_nth in Hj. destruct Hj as [Lj ->].
  replace (Z.of_nat (Z.to_nat n + 1 - 1)) with n by lia. fold st. rewrite Qltb_ge.
  assert (E : (b + inject_Z (Z.of_nat j) * st <= q)%Q <-> (Z.of_nat j <= f)%Z).
  { unfold f. rewrite Qfloor_spec. split; intros H.
    - apply Qle_shift_div_l; [assumption|]. lra.
    - assert (inject_Z (Z.of_nat j) * st <= (q - b) / st * st)%Q by (apply Qmult_le_compat_r; [assumption|apply Qlt_le_weak; assumption]).
      assert ((q - b) / st * st == q - b)%Q by (field; lra). lra. }
  rewrite E. clearbody f. clear E. split; intros; lia.
Qed.
Lemma es_out_of_int64 b e n s q : es_new b e n = Ok s -> (2 ^ 63 <= Qfloor ((q - b) / ((e - b) / inject_Z n)))%Z ->
  es_locate s (Fin q) = (-1)%Z.
Proof.
  intros H R. apply es_new_Ok in H. destruct H as (Hbe & Hn & ->). unfold es_locate, int64_cast, zclip. cbn [es_b es_e es_n es_step].
  destruct (Z.ltb_spec (Qfloor ((q - b) / ((e - b) / inject_Z n))) (2 ^ 63)); [lia|]. rewrite andb_false_r. lia.
Qed.
