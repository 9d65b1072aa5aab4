From Coq Require Import Reals ZArith Lra.
From Verif Require Import Base GroupSpec GroupModel.
Local Open Scope list_scope. Local Open Scope nat_scope.

(** ** Sums *)
Lemma zsum_ext n f g : (forall k, k < n -> f k = g k) -> zsum n f = zsum n g.
Proof. induction n as [|n IH]; intros H; cbn [zsum]; [reflexivity|]. rewrite IH by (intros; apply H; lia). rewrite (H n) by lia. reflexivity. Qed.
Lemma rsum_ext n f g : (forall k, k < n -> f k = g k) -> rsum n f = rsum n g.
Proof. induction n as [|n IH]; intros H; cbn [rsum]; [reflexivity|]. rewrite IH by (intros; apply H; lia). rewrite (H n) by lia. reflexivity. Qed.
Lemma IZR_zsum n f : IZR (zsum n f) = rsum n (fun k => IZR (f k)).
Proof. induction n as [|n IH]; cbn [zsum rsum]; [reflexivity|]. rewrite plus_IZR, IH. reflexivity. Qed.
Lemma rsum_scal n f c : rsum n (fun k => (c * f k)%R) = (c * rsum n f)%R.
Proof. induction n as [|n IH]; cbn [rsum]; [ring|]. rewrite IH. ring. Qed.
Lemma rsum_plus n f g : rsum n (fun k => (f k + g k)%R) = (rsum n f + rsum n g)%R.
Proof. induction n as [|n IH]; cbn [rsum]; [ring|]. rewrite IH. ring. Qed.
Lemma rsum_zero n : rsum n (fun _ => 0%R) = 0%R.
Proof. induction n as [|n IH]; cbn [rsum]; [reflexivity|]. rewrite IH. ring. Qed.
Lemma rsum_swap n m f : rsum n (fun i => rsum m (fun j => f i j)) = rsum m (fun j => rsum n (fun i => f i j)).
Proof. induction n as [|n IH]; cbn [rsum]; [rewrite rsum_zero; reflexivity|]. rewrite IH, <- rsum_plus. apply rsum_ext. reflexivity. Qed.
Lemma rsum_delta n (f : nat -> R) i : i < n -> rsum n (fun k => (f k * IZR (if Nat.eqb k i then 1 else 0))%R) = f i.
Proof.
  induction n as [|n IH]; intros H; [lia|]. cbn [rsum]. destruct (Nat.eq_dec i n) as [->|N].
  - rewrite Nat.eqb_refl. rewrite (rsum_ext n _ (fun _ => 0%R)); [rewrite rsum_zero; simpl; ring|]. intros k Hk. assert (E : Nat.eqb k n = false) by (apply Nat.eqb_neq; lia). rewrite E. simpl. ring.
  - rewrite IH by lia. assert (E : Nat.eqb n i = false) by (apply Nat.eqb_neq; lia). rewrite E. simpl. ring.
Qed.
(** ** Tables *)
Lemma nth_map_seq {A} (f : nat -> A) n i d : i < n -> nth i (map f (seq 0 n)) d = f i.
Proof. intros H. rewrite (nth_indep _ _ (f 0)) by (rewrite map_length, seq_length; assumption). rewrite map_nth, seq_nth by assumption. reflexivity. Qed.
Lemma entry_tab n f i j : i < n -> j < n -> entry (tabulate n f) i j = f i j.
Proof. intros Hi Hj. unfold entry, tabulate. rewrite nth_map_seq by assumption. apply nth_map_seq. assumption. Qed.
Lemma tab_square n f : is_square n (tabulate n f).
Proof. unfold is_square, tabulate. rewrite map_length, seq_length. split; [reflexivity|]. apply Forall_map, Forall_forall. intros i _. rewrite map_length, seq_length. reflexivity. Qed.
Lemma square_ext n a b : is_square n a -> is_square n b -> (forall i j, i < n -> j < n -> entry a i j = entry b i j) -> a = b.
Proof.
  intros [La Fa] [Lb Fb] H. apply (nth_ext a b [] []); [congruence|]. intros i Hi. rewrite La in Hi. rewrite Forall_forall in Fa, Fb.
  assert (length (nth i a []) = n) by (apply Fa, nth_In; lia). assert (length (nth i b []) = n) by (apply Fb, nth_In; lia).
  apply (nth_ext _ _ 0%Z 0%Z); [congruence|]. intros j Hj. apply (H i j); lia.
Qed.
(** ** The action *)
Lemma call_ok a x : length x = o_dim a -> op_call a x = Ok (map (fun i => rsum (o_dim a) (fun k => (comp x k * IZR (entry (o_mat a) i k))%R)) (seq 0 (o_dim a))).
Proof. intros H. unfold op_call. rewrite H, Nat.eqb_refl. reflexivity. Qed.
Lemma call_mul a b c x : op_mul a b = Ok c -> op_call c x = bind (op_call b x) (op_call a).
Proof.
  unfold op_mul. destruct (Nat.eqb_spec (o_dim a) (o_dim b)) as [E|]; [|discriminate]. intros H. assert (Hc : c = {| o_dim := o_dim a; o_mat := mat_mul (o_dim a) (o_mat a) (o_mat b) |}) by congruence. subst c. clear H.
  unfold op_call at 1 2. cbn [o_dim o_mat]. rewrite <- E. destruct (Nat.eqb_spec (length x) (o_dim a)) as [L|L]; [|reflexivity]. cbn [bind].
  rewrite call_ok by (rewrite map_length, seq_length; reflexivity). f_equal. apply map_ext_in. intros i Hi. apply in_seq in Hi. set (n := o_dim a) in *.
  transitivity (rsum n (fun k => rsum n (fun m => (comp x k * (IZR (entry (o_mat a) i m) * IZR (entry (o_mat b) m k)))%R))).
  - apply rsum_ext. intros k Hk. unfold mat_mul. rewrite entry_tab by lia. rewrite IZR_zsum, <- rsum_scal. apply rsum_ext. intros m _. rewrite mult_IZR. reflexivity.
  - rewrite rsum_swap. apply rsum_ext. intros m Hm. unfold comp. rewrite nth_map_seq by assumption.
    match goal with |- _ = (?u * ?v)%R => rewrite (Rmult_comm u v) end. rewrite <- rsum_scal. apply rsum_ext. intros k _. ring.
Qed.
Lemma call_isometry a x y : orthogonal (o_dim a) (o_mat a) -> length x = o_dim a -> length y = o_dim a ->
  exists x' y', op_call a x = Ok x' /\ op_call a y = Ok y' /\ length x' = o_dim a /\ length y' = o_dim a /\ dot (o_dim a) x' y' = dot (o_dim a) x y.
Proof.
  intros O Lx Ly. rewrite !call_ok by assumption. eexists. eexists. split; [reflexivity|]. split; [reflexivity|]. rewrite !map_length, seq_length. split; [reflexivity|]. split; [reflexivity|].
  set (n := o_dim a) in *. unfold dot.
  transitivity (rsum n (fun i => rsum n (fun k => rsum n (fun m => (comp x k * comp y m * (IZR (entry (o_mat a) i k) * IZR (entry (o_mat a) i m)))%R)))).
  - apply rsum_ext. intros i Hi. unfold comp. rewrite !nth_map_seq by assumption.
    match goal with |- (?u * ?v)%R = _ => rewrite (Rmult_comm u v) end. rewrite <- rsum_scal. apply rsum_ext. intros k _. match goal with |- (?u * ?v)%R = _ => rewrite (Rmult_comm u v) end. rewrite <- rsum_scal. apply rsum_ext. intros m _. ring.
  - rewrite rsum_swap. apply rsum_ext. intros k Hk. rewrite rsum_swap.
    rewrite (rsum_ext n _ (fun m => (comp x k * comp y m) * IZR (if Nat.eqb m k then 1 else 0))%R).
    + rewrite (rsum_delta n (fun m => comp x k * comp y m)%R) by assumption. reflexivity.
    + intros m Hm. rewrite rsum_scal. f_equal. rewrite Nat.eqb_sym, <- (O k m Hk Hm), IZR_zsum. apply rsum_ext. intros i _. rewrite mult_IZR. reflexivity.
Qed.
(** ** Combining groups *)
Lemma prod_nth {A B} : forall (l : list A) (l' : list B) i j a b, nth_error l i = Some a -> nth_error l' j = Some b -> nth_error (list_prod l l') (i * length l' + j) = Some (a, b).
Proof.
  induction l as [|x l IH]; intros l' i j a b Ha Hb; [destruct i; discriminate|]. assert (j < length l') by (apply nth_error_Some; congruence). cbn [list_prod]. destruct i as [|i]; cbn [nth_error] in Ha.
  - rewrite nth_error_app1 by (rewrite map_length; lia). rewrite nth_error_map. cbn [Nat.mul Nat.add]. rewrite Hb. cbn [option_map]. congruence.
  - rewrite nth_error_app2 by (rewrite map_length; nia). rewrite map_length. replace (S i * length l' + j - length l') with (i * length l' + j) by nia. apply IH; assumption.
Qed.
Definition dims (n : nat) (g : list op) : Prop := Forall (fun o => o_dim o = n) g.
Lemma mul_ok n a b : o_dim a = n -> o_dim b = n -> exists c, op_mul a b = Ok c /\ o_dim c = n.
Proof. intros Ha Hb. unfold op_mul. rewrite Ha, Hb, Nat.eqb_refl. eexists. split; [reflexivity|reflexivity]. Qed.
Lemma pairs_ok n : forall l : list (op * op), (forall p, In p l -> o_dim (fst p) = n /\ o_dim (snd p) = n) -> exists g, mapM (fun p => op_combined (fst p) [snd p]) l = Ok g /\ dims n g.
Proof.
  induction l as [|p l IH]; intros H; [exists []; split; [reflexivity|constructor]|]. destruct IH as (g & E & D); [intros q Hq; apply H; right; exact Hq|].
  destruct (H p (or_introl eq_refl)) as [H1 H2]. destruct (mul_ok n (fst p) (snd p) H1 H2) as (c & Ec & Dc). exists (c :: g). assert (X : op_combined (fst p) [snd p] = Ok c) by (cbn [op_combined]; rewrite Ec; reflexivity).
  cbn [mapM]. rewrite X. cbn [bind]. rewrite E. split; [reflexivity|]. constructor; assumption.
Qed.
Lemma combined_app a l l' : op_combined a (l ++ l') = bind (op_combined a l) (fun c => op_combined c l').
Proof. revert a. induction l as [|b l IH]; intros a; cbn [app op_combined bind]; [reflexivity|]. destruct (op_mul a b); cbn [bind]; [apply IH|reflexivity]. Qed.
Lemma group_combined_spec n : forall gs g0, dims n g0 -> Forall (dims n) gs -> exists g, group_combined g0 gs = Ok g /\ dims n g /\
  length g = fold_left Nat.mul (map (@length op) gs) (length g0) /\ (forall c, In c g <-> exists a bs, In a g0 /\ Forall2 (@In op) bs gs /\ op_combined a bs = Ok c).
Proof.
  induction gs as [|g1 gs IH]; intros g0 D0 DS.
  - exists g0. cbn. split; [reflexivity|]. split; [assumption|]. split; [reflexivity|]. intros c. split; [intros H; exists c, []; auto|]. intros (a & bs & Ha & Hb & E). inversion Hb; subst. cbn in E. congruence.
  - inversion DS as [|? ? D1 DS']; subst. cbn [group_combined]. unfold dims in D0, D1. rewrite Forall_forall in D0, D1.
    destruct (pairs_ok n (list_prod g0 g1)) as (g01 & E & D01). { intros [u v] Huv. apply in_prod_iff in Huv. cbn. split; [apply D0|apply D1]; apply Huv. }
    rewrite E. cbn [bind]. destruct (IH g01 D01 DS') as (g & Eg & Dg & Lg & Ig). exists g. split; [assumption|]. split; [assumption|]. apply mapM_Ok in E. split.
    + rewrite Lg. cbn [map fold_left]. f_equal. rewrite <- (prod_length g0 g1). clear - E. induction E; cbn; congruence.
    + intros c. rewrite Ig. split.
      * intros (a & bs & Ha & Hb & Hc). assert (Hp : exists p, In p (list_prod g0 g1) /\ op_combined (fst p) [snd p] = Ok a).
        { clear - E Ha. induction E as [|p q l l' Hpq E IH]; [destruct Ha|]. destruct Ha as [->|Ha]; [exists p; split; [left; reflexivity|assumption]|]. destruct (IH Ha) as (p' & I & J). exists p'. split; [right; exact I|exact J]. }
        destruct Hp as ([u v] & Huv & Huv'). apply in_prod_iff in Huv. exists u, (v :: bs). split; [apply Huv|]. split; [constructor; [apply Huv|assumption]|]. cbn [fst snd op_combined] in *. destruct (op_mul u v); cbn [bind] in *; [|discriminate]. congruence.
      * intros (a & bs & Ha & Hb & Hc). inversion Hb as [|v ? bs' ? Hv Hb']; subst. cbn [op_combined] in Hc. destruct (op_mul a v) as [w|] eqn:Ew; cbn [bind] in Hc; [|discriminate].
        exists w, bs'. split; [|auto]. assert (Hp : In (a, v) (list_prod g0 g1)) by (apply in_prod; assumption). clear - E Hp Ew. induction E as [|p q l l' Hpq E IH]; [destruct Hp|]. destruct Hp as [->|Hp]; [left; cbn [fst snd op_combined] in Hpq; rewrite Ew in Hpq; cbn [bind] in Hpq; congruence|right; auto].
Qed.
(** ** The two groups *)
Definition mat_eqb (a b : mat) : bool := if list_eq_dec (list_eq_dec Z.eq_dec) a b then true else false.
Definition memb (m : mat) (l : list mat) : bool := existsb (mat_eqb m) l.
Lemma mat_eqb_eq a b : mat_eqb a b = true <-> a = b.
Proof. unfold mat_eqb. destruct (list_eq_dec (list_eq_dec Z.eq_dec) a b); split; congruence. Qed.
Lemma memb_In m l : memb m l = true <-> In m l.
Proof. unfold memb. rewrite existsb_exists. split; [intros (x & Hx & E); apply mat_eqb_eq in E; congruence|intros H; exists m; split; [assumption|apply mat_eqb_eq; reflexivity]]. Qed.
Fixpoint nodupb (l : list mat) : bool := match l with [] => true | a :: l' => (negb (memb a l') && nodupb l')%bool end.
Lemma nodupb_NoDup l : nodupb l = true -> NoDup l.
Proof. induction l as [|a l IH]; intros H; [constructor|]. cbn [nodupb] in H. apply andb_true_iff in H. destruct H as [H1 H2]. constructor; [|auto]. intros C. apply memb_In in C. rewrite C in H1. discriminate. Qed.
Definition orthb (n : nat) (m : mat) : bool :=
  forallb (fun i => forallb (fun j => Z.eqb (zsum n (fun k => entry m k i * entry m k j)%Z) (if Nat.eqb i j then 1 else 0)) (seq 0 n)) (seq 0 n).
Lemma orthb_orth n m : orthb n m = true -> orthogonal n m.
Proof.
  unfold orthb. intros H i j Hi Hj. rewrite forallb_forall in H. assert (H1 := H i ltac:(apply in_seq; lia)). rewrite forallb_forall in H1. assert (H2 := H1 j ltac:(apply in_seq; lia)). apply Z.eqb_eq in H2. exact H2.
Qed.
Lemma unit3 a b c : (a * a + b * b + c * c = 1)%Z ->
  (a = 1 /\ b = 0 /\ c = 0 \/ a = -1 /\ b = 0 /\ c = 0 \/ a = 0 /\ b = 1 /\ c = 0 \/ a = 0 /\ b = -1 /\ c = 0 \/ a = 0 /\ b = 0 /\ c = 1 \/ a = 0 /\ b = 0 /\ c = -1)%Z.
Proof.
  intros H. assert (-1 <= a <= 1)%Z by nia. assert (-1 <= b <= 1)%Z by nia. assert (-1 <= c <= 1)%Z by nia.
  assert (A : (a = -1 \/ a = 0 \/ a = 1)%Z) by lia. assert (B : (b = -1 \/ b = 0 \/ b = 1)%Z) by lia. assert (C : (c = -1 \/ c = 0 \/ c = 1)%Z) by lia.
  destruct A as [-> | [-> | ->]], B as [-> | [-> | ->]], C as [-> | [-> | ->]]; lia.
Qed.
Lemma unit2 a b : (a * a + b * b = 1)%Z -> (a = 1 /\ b = 0 \/ a = -1 /\ b = 0 \/ a = 0 /\ b = 1 \/ a = 0 /\ b = -1)%Z.
Proof.
  intros H. assert (-1 <= a <= 1)%Z by nia. assert (-1 <= b <= 1)%Z by nia.
  assert (A : (a = -1 \/ a = 0 \/ a = 1)%Z) by lia. assert (B : (b = -1 \/ b = 0 \/ b = 1)%Z) by lia.
  destruct A as [-> | [-> | ->]], B as [-> | [-> | ->]]; lia.
Qed.
Definition cubic_ops : list op := match group_create "cubic" with Ok g => g | Err _ => [] end.
Definition square_ops : list op := match group_create "square" with Ok g => g | Err _ => [] end.
Lemma cubic_all m : is_square 3 m -> orthogonal 3 m -> memb m (map o_mat cubic_ops) = true.
Proof.
  intros [L F] O. destruct m as [|r0 [|r1 [|r2 [|]]]]; try discriminate L. inversion F as [|? ? L0 F0]; subst. inversion F0 as [|? ? L1 F1]; subst. inversion F1 as [|? ? L2 _]; subst.
  destruct r0 as [|a [|b [|c [|]]]]; try discriminate L0. destruct r1 as [|d [|e [|f [|]]]]; try discriminate L1. destruct r2 as [|g [|h [|i [|]]]]; try discriminate L2.
  pose proof (O 0 0 ltac:(lia) ltac:(lia)) as O00. pose proof (O 1 1 ltac:(lia) ltac:(lia)) as O11. pose proof (O 2 2 ltac:(lia) ltac:(lia)) as O22.
  pose proof (O 0 1 ltac:(lia) ltac:(lia)) as O01. pose proof (O 0 2 ltac:(lia) ltac:(lia)) as O02. pose proof (O 1 2 ltac:(lia) ltac:(lia)) as O12.
  unfold entry in *. cbn [zsum nth Nat.eqb] in O00, O11, O22, O01, O02, O12. rewrite !Z.add_0_l in *. clear O L F F0 F1 L0 L1 L2.
  destruct (unit3 _ _ _ O00) as [(-> & -> & ->)|[(-> & -> & ->)|[(-> & -> & ->)|[(-> & -> & ->)|[(-> & -> & ->)|(-> & -> & ->)]]]]];
  destruct (unit3 _ _ _ O11) as [(-> & -> & ->)|[(-> & -> & ->)|[(-> & -> & ->)|[(-> & -> & ->)|[(-> & -> & ->)|(-> & -> & ->)]]]]]; try (exfalso; lia);
  destruct (unit3 _ _ _ O22) as [(-> & -> & ->)|[(-> & -> & ->)|[(-> & -> & ->)|[(-> & -> & ->)|[(-> & -> & ->)|(-> & -> & ->)]]]]]; try (exfalso; lia); vm_compute; reflexivity.
Qed.
Lemma square_all m : is_square 2 m -> orthogonal 2 m -> memb m (map o_mat square_ops) = true.
Proof.
  intros [L F] O. destruct m as [|r0 [|r1 [|]]]; try discriminate L. inversion F as [|? ? L0 F0]; subst. inversion F0 as [|? ? L1 _]; subst.
  destruct r0 as [|a [|b [|]]]; try discriminate L0. destruct r1 as [|d [|e [|]]]; try discriminate L1.
  pose proof (O 0 0 ltac:(lia) ltac:(lia)) as O00. pose proof (O 1 1 ltac:(lia) ltac:(lia)) as O11. pose proof (O 0 1 ltac:(lia) ltac:(lia)) as O01.
  unfold entry in *. cbn [zsum nth Nat.eqb] in O00, O11, O01. rewrite !Z.add_0_l in *. clear O L F F0 L0 L1.
  destruct (unit2 _ _ O00) as [(-> & ->)|[(-> & ->)|[(-> & ->)|(-> & ->)]]]; destruct (unit2 _ _ O11) as [(-> & ->)|[(-> & ->)|[(-> & ->)|(-> & ->)]]]; try (exfalso; lia); vm_compute; reflexivity.
Qed.
