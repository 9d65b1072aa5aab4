From Coq Require Import Reals Lra.
From Coquelicot Require Import Coquelicot.
From Verif Require Import Base Str KernModel GravModel.
Local Open Scope list_scope. Local Open Scope R_scope.

Lemma two_step_ind (P : nat -> Prop) : P O -> P (S O) -> (forall n, P n -> P (S (S n))) -> forall n, P n.
Proof. intros H0 H1 HS n. assert (P n /\ P (S n)) by (induction n as [|n [A B]]; split; auto). tauto. Qed.
Lemma ball_homogeneous n : forall c r, ball n (c * r) = c ^ n * ball n r.
Proof.
  induction n as [| |n IH] using two_step_ind; intros c r; [simpl; ring|simpl; ring|].
  change (ball (S (S n)) (c * r)) with (2 * PI / INR (S (S n)) * (c * r) * (c * r) * ball n (c * r)). change (ball (S (S n)) r) with (2 * PI / INR (S (S n)) * r * r * ball n r). rewrite IH. cbn [pow]. ring.
Qed.
Lemma ball_power n r : ball n r = ball n 1 * r ^ n.
Proof. replace r with (r * 1) at 1 by ring. rewrite ball_homogeneous. ring. Qed.
Lemma ball1_pos n : 0 < ball n 1.
Proof.
  induction n as [| |n IH] using two_step_ind; [simpl; lra|simpl; lra|]. change (ball (S (S n)) 1) with (2 * PI / INR (S (S n)) * 1 * 1 * ball n 1).
  assert (0 < INR (S (S n))) by (apply lt_0_INR; lia). pose proof PI_RGT_0. assert (0 < / INR (S (S n))) by (apply Rinv_0_lt_compat; assumption).
  apply Rmult_lt_0_compat; [|assumption]. unfold Rdiv. rewrite !Rmult_1_r. apply Rmult_lt_0_compat; lra.
Qed.
Lemma ball_pos n r : 0 < r -> 0 < ball n r.
Proof. intros H. rewrite ball_power. apply Rmult_lt_0_compat; [apply ball1_pos|apply pow_lt; assumption]. Qed.
Lemma ball_mono n r s : (0 < n)%nat -> 0 <= r < s -> ball n r < ball n s.
Proof.
  intros Hn [H0 H]. rewrite (ball_power n r), (ball_power n s). apply Rmult_lt_compat_l; [apply ball1_pos|]. 
  destruct n as [|n]; [lia|]. clear Hn. induction n as [|n IH]; [simpl; lra|]. change (r * r ^ S n < s * s ^ S n).
  apply Rle_lt_trans with (s * r ^ S n); [apply Rmult_le_compat_r; [apply pow_le; assumption|lra]|]. apply Rmult_lt_compat_l; [lra|exact IH].
Qed.
Lemma ball_derive n r : is_derive (ball n) r (INR n * ball n 1 * r ^ (n - 1)).
Proof.
  apply (is_derive_ext (fun x => ball n 1 * x ^ n)); [intros x; rewrite <- ball_power; reflexivity|]. auto_derive; [trivial|]. rewrite <- Nat.sub_1_r. ring.
Qed.
(** A ball of n + 2 dimensions is made of discs: at distance t from the centre inside the n-dimensional ball, the disc left over
    has area PI (r^2 - t^2). *)
Lemma ball_slices n r : (0 < n)%nat -> is_RInt (fun t => PI * (r ^ 2 - t ^ 2) * Derive (ball n) t) 0 r (ball (S (S n)) r).
Proof.
  intros Hn. set (c := ball n 1). set (F := fun t => PI * c * (r ^ 2 * t ^ n - INR n / INR (n + 2) * t ^ (n + 2))).
  assert (Hn' : INR (n + 2) <> 0) by (apply not_0_INR; lia).
  assert (E : ball (S (S n)) r = minus (F r) (F 0)).
  { change (ball (S (S n)) r = F r - F 0). unfold F. rewrite !pow_i by lia. change (ball (S (S n)) r) with (2 * PI / INR (S (S n)) * r * r * ball n r). rewrite (ball_power n r). fold c.
    replace (S (S n)) with (n + 2)%nat by lia. rewrite pow_add. assert (X : INR (n + 2) = INR n + 2) by (rewrite plus_INR; simpl; ring). rewrite X in *. field. exact Hn'. }
  rewrite E. apply (is_RInt_derive F).
  - intros t _. unfold F. rewrite (is_derive_unique _ _ _ (ball_derive n t)). fold c. auto_derive; [trivial|]. 
    replace (Init.Nat.pred (n + 2)) with (S n) by lia. replace (Init.Nat.pred n) with (n - 1)%nat by lia.
    replace (t ^ S n) with (t ^ 2 * t ^ (n - 1)) by (rewrite <- pow_add; f_equal; lia). field. exact Hn'.
  - intros t _. apply (continuous_ext (fun t => PI * (r ^ 2 - t ^ 2) * (INR n * c * t ^ (n - 1)))); [intros x; rewrite (is_derive_unique _ _ _ (ball_derive n x)); reflexivity|].
    apply (ex_derive_continuous (fun t => PI * (r ^ 2 - t ^ 2) * (INR n * c * t ^ (n - 1)))). auto_derive. trivial.
Qed.
Lemma ball_even k : forall r, ball (2 * k) r = PI ^ k / INR (fact k) * r ^ (2 * k).
Proof.
  induction k as [|k IH]; intros r; [simpl; field|]. replace (2 * S k)%nat with (S (S (2 * k))) by lia.
  change (ball (S (S (2 * k))) r) with (2 * PI / INR (S (S (2 * k))) * r * r * ball (2 * k) r). rewrite IH. replace (INR (S (S (2 * k)))) with (2 * (INR k + 1)) by (rewrite !S_INR, mult_INR; simpl; ring).
  change (fact (S k)) with (S k * fact k)%nat. rewrite mult_INR, S_INR. assert (INR (fact k) <> 0) by apply INR_fact_neq_0. assert (INR k + 1 <> 0) by (pose proof (pos_INR k); lra). cbn [pow]. field. split; assumption.
Qed.
Lemma ball_odd k : forall r, ball (2 * k + 1) r = 2 ^ (2 * k + 1) * INR (fact k) * PI ^ k / INR (fact (2 * k + 1)) * r ^ (2 * k + 1).
Proof.
  induction k as [|k IH]; intros r; [simpl; field|]. replace (2 * S k + 1)%nat with (S (S (2 * k + 1))) by lia.
  change (ball (S (S (2 * k + 1))) r) with (2 * PI / INR (S (S (2 * k + 1))) * r * r * ball (2 * k + 1) r). rewrite IH. set (m := (2 * k + 1)%nat).
  change (fact (S (S m))) with (S (S m) * (S m * fact m))%nat. change (fact (S k)) with (S k * fact k)%nat. rewrite !mult_INR.
  assert (Em : INR (S m) = 2 * (INR k + 1)) by (unfold m; rewrite S_INR, plus_INR, mult_INR; simpl; ring). assert (Em2 : INR (S (S m)) = 2 * INR k + 3) by (rewrite S_INR, Em; ring). rewrite Em, Em2, (S_INR k).
  assert (INR (fact m) <> 0) by apply INR_fact_neq_0. assert (0 <= INR k) by apply pos_INR. cbn [pow]. field. repeat split; lra.
Qed.
