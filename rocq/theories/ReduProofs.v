From Coq Require Import QArith Qround Qabs Lqa Permutation.
From Verif Require Import Base OrderSpec BinSpec BinModel BinProofs InterpModel InterpProofs ReduSpec ReduModel.
Local Open Scope list_scope. Local Open Scope nat_scope.

(** ** num_eq *)
Lemma num_eq_refl a : num_eq a a.
Proof. destruct a; simpl; auto. reflexivity. Qed.
Lemma num_eq_sym a b : num_eq a b -> num_eq b a.
Proof. destruct a, b; simpl; auto. intros; symmetry; assumption. Qed.
Lemma num_eq_trans a b c : num_eq a b -> num_eq b c -> num_eq a c.
Proof. destruct a, b, c; simpl; auto; try tauto. intros; etransitivity; eassumption. Qed.

Lemma Qeq_bool_compat p q : (p == q)%Q -> forall r, Qeq_bool p r = Qeq_bool q r.
Proof.
  intros H r. destruct (Qeq_bool p r) eqn:E; symmetry.
  - apply Qeq_bool_iff in E. apply Qeq_bool_iff. rewrite <- H. assumption.
  - destruct (Qeq_bool q r) eqn:F; [|reflexivity]. apply Qeq_bool_iff in F. rewrite <- H in F. apply Qeq_bool_iff in F. congruence.
Qed.
Lemma Qltb_compat p q r s : (p == q)%Q -> (r == s)%Q -> Qltb p r = Qltb q s.
Proof.
  intros H H'. destruct (Qltb p r) eqn:E; symmetry.
  - apply Qltb_lt in E. apply Qltb_lt. rewrite <- H, <- H'. assumption.
  - apply Qltb_ge in E. apply Qltb_ge. rewrite <- H, <- H'. assumption.
Qed.
Lemma ndiv_fin_compat p p' q q' : (p == p')%Q -> (q == q')%Q -> num_eq (ndiv (Fin p) (Fin q)) (ndiv (Fin p') (Fin q')).
Proof.
  intros H H'. unfold ndiv. rewrite (Qeq_bool_compat q q' H'), (Qeq_bool_compat p p' H), (Qltb_compat 0 0 p p' (Qeq_refl _) H).
  destruct (Qeq_bool q' 0); [apply num_eq_refl|]. simpl. rewrite H, H'. reflexivity.
Qed.
Lemma ndiv_fin_nz p q : ~ (q == 0)%Q -> ndiv (Fin p) (Fin q) = Fin (p / q).
Proof. intros H. unfold ndiv. destruct (Qeq_bool q 0) eqn:E; [apply Qeq_bool_iff in E; contradiction|reflexivity]. Qed.

(** ** Finite sums *)
Lemma nsum_fin l : nsum (map Fin l) = Fin (Qsum l).
Proof. induction l as [|a l IH]; cbn [map nsum fold_right Qsum]; [reflexivity|]. fold (nsum (map Fin l)). rewrite IH. reflexivity. Qed.

Lemma zip_with_cons {A B C} (f : A -> B -> C) a b l l' : zip_with f (a :: l) (b :: l') = f a b :: zip_with f l l'.
Proof. reflexivity. Qed.
Lemma zip_with_length {A B C} (f : A -> B -> C) l l' : length (zip_with f l l') = Nat.min (length l) (length l').
Proof. unfold zip_with. rewrite map_length, combine_length. reflexivity. Qed.
Lemma zip_with_nth {A B C} (f : A -> B -> C) : forall l l' i a b, nth_error l i = Some a -> nth_error l' i = Some b ->
  nth_error (zip_with f l l') i = Some (f a b).
Proof.
  induction l as [|x l IH]; intros [|y l'] [|i] a b Ha Hb; cbn [nth_error] in *; try discriminate.
  - rewrite zip_with_cons. cbn. congruence.
  - rewrite zip_with_cons. cbn. apply IH; assumption.
Qed.

Definition finw (w : list Q) : list num := map Fin w.
Fixpoint Qmul2 (x w : list Q) : list Q := match x, w with a :: x', b :: w' => (a * b)%Q :: Qmul2 x' w' | _, _ => [] end.
Lemma zip_mul_fin : forall x w, zip_with nmul (map Fin x) (map Fin w) = map Fin (Qmul2 x w).
Proof. induction x as [|a x IH]; intros [|b w]; try reflexivity. cbn [map Qmul2]. rewrite zip_with_cons, IH. reflexivity. Qed.
Lemma Qsum_mul2 : forall x w, Qsum (Qmul2 x w) = dotp x w.
Proof. induction x as [|a x IH]; intros [|b w]; try reflexivity. cbn [Qmul2 Qsum dotp]. rewrite IH. reflexivity. Qed.
Definition qb (b : bool) : Q := if b then 1%Q else 0%Q.
Lemma of_bool_fin m : map of_bool m = map Fin (map qb m).
Proof. rewrite map_map. reflexivity. Qed.

Lemma dotp_ones x : (dotp x (repeat 1 (length x)) == Qsum x)%Q.
Proof. induction x as [|a x IH]; cbn [length repeat dotp Qsum]; [reflexivity|]. rewrite IH. ring. Qed.
Lemma dotp_mask : forall x m, length m = length x -> (dotp x (map qb m) == Qsum (selected x m))%Q.
Proof.
  induction x as [|a x IH]; intros [|b m] H; cbn in H; try discriminate; [reflexivity|]. cbn [map dotp selected].
  rewrite IH by congruence. destruct b; cbn [qb Qsum]; ring.
Qed.
Lemma dotp_mask_w : forall x w m, length w = length x -> length m = length x ->
  (dotp x (Qmul2 w (map qb m)) == dotp (selected x m) (selected w m))%Q.
Proof.
  induction x as [|a x IH]; intros [|c w] [|b m] H H'; cbn in H, H'; try discriminate; [reflexivity|].
  cbn [map Qmul2 dotp selected]. rewrite IH by congruence. destruct b; cbn [qb dotp]; ring.
Qed.
Lemma selected_length : forall {A} (l : list A) m, length m = length l -> length (selected l m) = length (filter (fun b => b) m).
Proof.
  intros A. induction l as [|a l IH]; intros [|b m] H; cbn in H; try discriminate; [reflexivity|]. cbn [selected filter].
  destruct b; cbn [length]; rewrite IH by congruence; reflexivity.
Qed.
Lemma selected_repeat {A} (a : A) : forall n m, length m = n -> selected (repeat a n) m = repeat a (length (selected (repeat a n) m)).
Proof.
  induction n as [|n IH]; intros [|b m] H; cbn in H; try discriminate; [reflexivity|]. cbn [repeat selected].
  destruct b; cbn [length repeat]; rewrite IH at 1 by congruence; reflexivity.
Qed.
Lemma selected_map {A B} (f : A -> B) : forall l m, selected (map f l) m = map f (selected l m).
Proof. induction l as [|a l IH]; intros [|b m]; try reflexivity. cbn [map selected]. destruct b; cbn [map]; rewrite IH; reflexivity. Qed.
Lemma selected_In {A} : forall (l : list A) m a, In a (selected l m) -> In a l.
Proof.
  induction l as [|x l IH]; intros [|b m] a; cbn [selected In]; try tauto. destruct b; cbn [In]; intros H; [destruct H; [auto|right; eauto]|right; eauto].
Qed.


Lemma checked_fits {C} x w m (k : result C) : fits x w m -> checked (fin1 x) (finw1 w) (m1 m) k = k.
Proof.
  intros [Hw Hm]. unfold checked, fin1, finw1, m1. destruct w as [w|], m as [m|]; cbn [option_map same_shape andb fin1];
    rewrite ?map_length, ?Hw, ?Hm, ?Nat.eqb_refl; reflexivity.
Qed.

Lemma weights_of_sel x w m : fits x w m ->
  sel m (weights_of x w) = weights_of (sel m x) (option_map (sel m) w).
Proof.
  intros [Hw Hm]. destruct w as [w|]; [reflexivity|]. destruct m as [m|]; [|reflexivity]. cbn [sel weights_of option_map].
  rewrite selected_repeat by assumption. f_equal. rewrite !selected_length; auto. rewrite repeat_length. assumption.
Qed.

Lemma sum_1d x w m : fits x w m ->
  exists q, sum_impl (fin1 x) (finw1 w) (m1 m) = S0 (Fin q) /\ (q == dotp (sel m x) (sel m (weights_of x w)))%Q.
Proof.
  intros [Hw Hm]. unfold sum_impl, fin1, finw1, m1. destruct w as [w|], m as [m|]; cbn [option_map amap azip sel weights_of sum_last fin1].
  - rewrite of_bool_fin, !zip_mul_fin, nsum_fin, Qsum_mul2. eexists. split; [reflexivity|]. apply dotp_mask_w; assumption.
  - rewrite zip_mul_fin, nsum_fin, Qsum_mul2. eexists. split; reflexivity.
  - rewrite of_bool_fin, zip_mul_fin, nsum_fin, Qsum_mul2. eexists. split; [reflexivity|]. rewrite dotp_mask by assumption.
    rewrite selected_repeat by assumption. rewrite selected_length by (rewrite repeat_length; assumption).
    rewrite <- (selected_length x) by assumption. rewrite dotp_ones. reflexivity.
  - rewrite nsum_fin. eexists. split; [reflexivity|]. rewrite dotp_ones. reflexivity.
Qed.

Lemma count_1d (x : list Q) m : match m with Some m => length m = length x | None => True end ->
  count_impl (fin1 x) (m1 m) = S0 (Z.of_nat (length (sel m x))).
Proof.
  intros H. unfold count_impl, fin1, m1. destruct m as [m|]; cbn [option_map sel].
  - unfold count_true. rewrite selected_length by assumption. reflexivity.
  - rewrite map_length. reflexivity.
Qed.

Lemma Qsum_dotp1 w : (dotp w (repeat 1 (length w)) == Qsum w)%Q.
Proof. apply dotp_ones. Qed.
Lemma Qsum_ones n : (Qsum (repeat 1 n) == inject_Z (Z.of_nat n))%Q.
Proof.
  induction n as [|n IH]; cbn [repeat Qsum]; [reflexivity|]. rewrite IH, Nat2Z.inj_succ. unfold Z.succ. rewrite inject_Z_plus. ring.
Qed.

Definition is_some {A} (o : option A) : bool := match o with Some _ => true | None => false end.
Lemma mean_1d fill x w m : fits x w m ->
  (sel m x = [] -> mean fill (fin1 x) (finw1 w) (m1 m) = Ok (S0 fill)) /\
  (sel m x <> [] -> exists q1 q2, mean fill (fin1 x) (finw1 w) (m1 m) = Ok (S0 (ndiv (Fin q1) (Fin q2))) /\
      (q1 == dotp (sel m x) (sel m (weights_of x w)))%Q /\ (q2 == Qsum (sel m (weights_of x w)))%Q).
Proof.
  intros Hf. pose proof Hf as [Hw Hm]. unfold mean. rewrite checked_fits by assumption. unfold mean_impl.
  assert (F : fits (B := Q) x None m) by (split; [exact I|assumption]).
  assert (C : count (fin1 x) None (m1 m) = Ok (S0 (Z.of_nat (length (sel m x))))).
  { unfold count. change (@None (arr num)) with (finw1 None). rewrite (checked_fits x None m), count_1d by assumption. reflexivity. }
  rewrite C. unfold sum. rewrite checked_fits by assumption. cbn [bind omap].
  destruct (sum_1d x w m Hf) as (q1 & E1 & Q1). rewrite E1.
  assert (W : exists q2, match finw1 w with
     | Some w0 => checked w0 (@None (arr num)) (m1 m) (Ok (sum_impl w0 None (m1 m)))
     | None => Ok (S0 (Fin (inject_Z (Z.of_nat (length (sel m x)))))) end = Ok (S0 (Fin q2)) /\ (q2 == Qsum (sel m (weights_of x w)))%Q).
  { destruct w as [w|]; cbn [finw1 option_map].
    - assert (F2 : fits (B := Q) w None m) by (split; [exact I|destruct m; [congruence|exact I]]).
      change (@None (arr num)) with (finw1 None).
      rewrite checked_fits by assumption. destruct (sum_1d w None m F2) as (q2 & E2 & Q2). rewrite E2. exists q2. split; [reflexivity|].
      rewrite Q2. rewrite (weights_of_sel w None m F2). cbn [option_map weights_of]. apply dotp_ones.
    - eexists. split; [reflexivity|]. rewrite (weights_of_sel x None m F). cbn [option_map weights_of]. rewrite Qsum_ones. reflexivity. }
  destruct W as (q2 & E2 & Q2). rewrite E2. cbn [bind assign].
  split; intros Hx.
  - rewrite Hx. cbn [length]. cbn [Z.of_nat Z.ltb Z.compare bind ozip assign]. reflexivity.
  - destruct (Z.ltb_spec (Z.of_nat (length (sel m x))) 1) as [L|L].
    + destruct (sel m x); [congruence|cbn [length] in L; lia].
    + cbn [bind ozip assign]. exists q1, q2. auto.
Qed.

Lemma mean_1d_fin fill x w m : fits x w m -> sel m x <> [] -> ~ (Qsum (sel m (weights_of x w)) == 0)%Q ->
  exists mu, mean fill (fin1 x) (finw1 w) (m1 m) = Ok (S0 (Fin mu)) /\
    (mu == dotp (sel m x) (sel m (weights_of x w)) / Qsum (sel m (weights_of x w)))%Q.
Proof.
  intros Hf Hx Hq. destruct (mean_1d fill x w m Hf) as [_ H]. destruct (H Hx) as (q1 & q2 & E & Q1 & Q2).
  rewrite ndiv_fin_nz in E by (rewrite Q2; assumption). eexists. split; [exact E|]. rewrite Q1, Q2. reflexivity.
Qed.

(** ** Standard deviation *)
Definition dev2 (mu : Q) (x : list Q) : list Q := map (fun v => (v + - mu) * (v + - mu))%Q x.
Lemma square_sub x mu : square (sub_mean (fin1 x) (S0 (Fin mu))) = fin1 (dev2 mu x).
Proof.
  unfold square, fin1, sub_mean, azip, dev2. f_equal. rewrite map_map. induction x as [|a x IH]; [reflexivity|].
  cbn [map]. rewrite zip_with_cons, IH. reflexivity.
Qed.
Lemma fits_map (f : Q -> Q) x (w : option (list Q)) m : fits x w m -> fits (map f x) w m.
Proof. unfold fits. rewrite map_length. auto. Qed.
Lemma weights_of_map f x w : weights_of (map f x) w = weights_of x w.
Proof. unfold weights_of. rewrite map_length. reflexivity. Qed.
Lemma sel_map {A B} (f : A -> B) m l : sel m (map f l) = map f (sel m l).
Proof. destruct m; [apply selected_map|reflexivity]. Qed.

Lemma radicand_1d fill x w m : fits x w m -> sel m x <> [] -> ~ (Qsum (sel m (weights_of x w)) == 0)%Q ->
  exists mu v, mean fill (fin1 x) (finw1 w) (m1 m) = Ok (S0 (Fin mu)) /\
    radicand fill (fin1 x) (finw1 w) (m1 m) = Ok (S0 (Fin v)) /\
    (mu == dotp (sel m x) (sel m (weights_of x w)) / Qsum (sel m (weights_of x w)))%Q /\
    (v == dotp (map (fun a => (a - mu) * (a - mu)) (sel m x)) (sel m (weights_of x w)) / Qsum (sel m (weights_of x w)))%Q.
Proof.
  intros Hf Hx Hq. destruct (mean_1d_fin fill x w m Hf Hx Hq) as (mu & E & Q). exists mu.
  unfold radicand. rewrite E. cbn [bind]. rewrite square_sub.
  destruct (mean_1d_fin fill (dev2 mu x) w m) as (v & E2 & Q2).
  - apply fits_map. assumption.
  - unfold dev2. rewrite sel_map. destruct (sel m x); [congruence|discriminate].
  - unfold dev2. rewrite weights_of_map. assumption.
  - exists v. rewrite E2. split; [reflexivity|]. split; [reflexivity|]. split; [assumption|].
    rewrite Q2. unfold dev2. rewrite weights_of_map, sel_map. reflexivity.
Qed.

Lemma mean_empty fill x w m : fits x w m -> sel m x = [] -> mean fill (fin1 x) (finw1 w) (m1 m) = Ok (S0 fill).
Proof. intros Hf Hx. apply (proj1 (mean_1d fill x w m Hf) Hx). Qed.

(** [mean] on any samples (not only finite ones) when nothing is selected. *)
Lemma square_length x mu : exists l, square (sub_mean (A1 x) (S0 mu)) = A1 l /\ length l = length x.
Proof.
  unfold square, sub_mean, azip. eexists. split; [reflexivity|]. rewrite zip_with_length, map_length. lia.
Qed.
Lemma mean_empty_any fill (x : list num) (w : option (list num)) (m : option (list bool)) :
  match w with Some w => length w = length x | None => True end -> match m with Some m => length m = length x | None => True end ->
  sel m x = [] -> mean fill (A1 x) (option_map A1 w) (option_map A1 m) = Ok (S0 fill).
Proof.
  intros Hw Hm Hx. unfold mean, mean_impl, count, sum, checked.
  assert (Hc : count_impl (A1 x) (option_map A1 m) = S0 0%Z).
  { unfold count_impl. destruct m as [m|]; cbn [option_map sel] in *.
    - unfold count_true. rewrite <- (selected_length x), Hx by assumption. reflexivity.
    - subst x. reflexivity. }
  rewrite Hc.
  destruct w as [w|], m as [m|]; cbn [option_map same_shape andb bind omap Z.ltb Z.compare];
    rewrite ?Hw, ?Hm, ?Nat.eqb_refl; cbn [andb bind assign];
    repeat match goal with |- context [sum_impl ?a ?b ?c] => let E := fresh in
      assert (E : exists v, sum_impl a b c = S0 v) by (eexists; reflexivity); destruct E as [? E]; rewrite E; clear E; cbn [bind assign ozip omap] end;
    reflexivity.
Qed.
Lemma radicand_empty fill x w m : fits x w m -> sel m x = [] -> radicand fill (fin1 x) (finw1 w) (m1 m) = Ok (S0 fill).
Proof.
  intros Hf Hx. pose proof Hf as [Hw Hm]. unfold radicand. rewrite (mean_empty fill x w m Hf Hx). cbn [bind]. unfold fin1.
  destruct (square_length (map Fin x) fill) as (l & E & Hl). rewrite E.
  replace (finw1 w) with (option_map A1 (option_map (map Fin) w)) by (destruct w; reflexivity).
  unfold m1. rewrite map_length in Hl. apply mean_empty_any.
  - destruct w as [w|]; cbn [option_map]; [rewrite map_length; congruence|exact I].
  - destruct m as [m|]; [congruence|exact I].
  - assert (L : forall {A B} (a : list A) (b : list B) mm, length a = length b -> sel mm a = [] -> sel mm b = []).
    { clear. intros A B a b [mm|]; cbn [sel].
      - revert b mm. induction a as [|x a IH]; intros [|y b] [|c mm] H; cbn in H; try discriminate; try reflexivity.
        cbn [selected]. destruct c; [discriminate|]. intros G. apply (IH b mm); [congruence|assumption].
      - intros H ->. destruct b; [reflexivity|discriminate]. }
    apply (L _ _ x l m); [congruence|assumption].
Qed.
