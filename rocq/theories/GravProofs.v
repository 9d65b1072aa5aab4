From Coq Require Import Reals Lra Lia List ZArith Psatz.
From Verif Require Import Base GravSpec GravModel.
Local Open Scope R_scope.

(** ** finite sums *)
Lemma sumn_ext n f g : (forall i, (i < n)%nat -> f i = g i) -> sumn n f = sumn n g.
Proof. induction n as [|n IH]; intros H; simpl; [reflexivity|]. rewrite IH, H; auto. Qed.
Lemma sumn_add n f g : sumn n (fun i => f i + g i) = sumn n f + sumn n g.
Proof. induction n as [|n IH]; simpl; [lra|]. rewrite IH. lra. Qed.
Lemma sumn_mul n c f : sumn n (fun i => c * f i) = c * sumn n f.
Proof. induction n as [|n IH]; simpl; [lra|]. rewrite IH. lra. Qed.
Lemma sumn_sub n f g : sumn n (fun i => f i - g i) = sumn n f - sumn n g.
Proof. induction n as [|n IH]; simpl; [lra|]. rewrite IH. lra. Qed.
Lemma sumn_0 n : sumn n (fun _ => 0) = 0.
Proof. induction n as [|n IH]; simpl; [reflexivity|]. rewrite IH. lra. Qed.
Lemma sumn_const n c : sumn n (fun _ => c) = INR n * c.
Proof. induction n as [|n IH]; [simpl; lra|]. change (sumn (S n) (fun _ => c)) with (sumn n (fun _ => c) + c). rewrite IH, S_INR. lra. Qed.
Lemma sumn_swap n m f : sumn n (fun i => sumn m (fun j => f i j)) = sumn m (fun j => sumn n (fun i => f i j)).
Proof.
  induction n as [|n IH]; simpl; [rewrite sumn_0; reflexivity|]. rewrite IH, <- sumn_add. reflexivity.
Qed.
Lemma sumn_pick n f k : (k < n)%nat -> (forall i, (i < n)%nat -> i <> k -> f i = 0) -> sumn n f = f k.
Proof.
  induction n as [|n IH]; intros Hk H; [lia|]. simpl. destruct (Nat.eq_dec k n) as [->|N].
  - rewrite (sumn_ext n f (fun _ => 0)) by (intros i Hi; apply H; lia). rewrite sumn_0. lra.
  - rewrite IH by (lia || (intros; apply H; lia)). rewrite (H n) by lia. lra.
Qed.
Lemma sumn_head n f : sumn (S n) f = f O + sumn n (fun i => f (S i)).
Proof. induction n as [|n IH]; simpl in *; [lra|]. rewrite IH. lra. Qed.
Lemma sumn_rev n f : sumn n f = sumn n (fun i => f (n - 1 - i)%nat).
Proof.
  revert f. induction n as [|n IH]; intros f; [reflexivity|]. rewrite (sumn_head n (fun i => f (S n - 1 - i)%nat)). cbn [sumn]. rewrite IH.
  replace (S n - 1 - 0)%nat with n by lia. rewrite (sumn_ext n (fun i => f (n - 1 - i)%nat) (fun i => f (S n - 1 - S i)%nat)) by (intros; f_equal; lia). lra.
Qed.
Lemma sumn_split a b f : sumn (a + b) f = sumn a f + sumn b (fun i => f (a + i)%nat).
Proof. induction b as [|b IH]; [rewrite Nat.add_0_r; simpl; lra|]. rewrite Nat.add_succ_r. simpl. rewrite IH. lra. Qed.
Lemma sumn_nonneg n f : (forall i, (i < n)%nat -> 0 <= f i) -> 0 <= sumn n f.
Proof. induction n as [|n IH]; intros H; simpl; [lra|]. assert (0 <= sumn n f) by (apply IH; auto). assert (0 <= f n) by (apply H; lia). lra. Qed.

Lemma sum3_ext a b c f g : (forall i j k, (i < a)%nat -> (j < b)%nat -> (k < c)%nat -> f i j k = g i j k) -> sum3 a b c f = sum3 a b c g.
Proof. intros H. apply sumn_ext. intros i Hi. apply sumn_ext. intros j Hj. apply sumn_ext. intros k Hk. apply H; assumption. Qed.
Lemma sum3_add a b c f g : sum3 a b c (fun i j k => f i j k + g i j k) = sum3 a b c f + sum3 a b c g.
Proof.
  unfold sum3. rewrite <- sumn_add. apply sumn_ext. intros i _. rewrite <- sumn_add. apply sumn_ext. intros j _. rewrite <- sumn_add. reflexivity.
Qed.
Lemma sum3_sub a b c f g : sum3 a b c (fun i j k => f i j k - g i j k) = sum3 a b c f - sum3 a b c g.
Proof.
  unfold sum3. rewrite <- sumn_sub. apply sumn_ext. intros i _. rewrite <- sumn_sub. apply sumn_ext. intros j _. rewrite <- sumn_sub. reflexivity.
Qed.
Lemma sum3_mul a b c x f : sum3 a b c (fun i j k => x * f i j k) = x * sum3 a b c f.
Proof.
  unfold sum3. rewrite <- sumn_mul. apply sumn_ext. intros i _. rewrite <- sumn_mul. apply sumn_ext. intros j _. rewrite <- sumn_mul. reflexivity.
Qed.
Lemma sum3_const a b c x : sum3 a b c (fun _ _ _ => x) = INR (a * b * c) * x.
Proof.
  unfold sum3. rewrite (sumn_ext a _ (fun _ => INR b * (INR c * x))); [rewrite sumn_const, !mult_INR; ring|].
  intros i _. rewrite (sumn_ext b _ (fun _ => INR c * x)); [apply sumn_const|]. intros j _. apply sumn_const.
Qed.
Lemma sum3_pick a b c f i j k : (i < a)%nat -> (j < b)%nat -> (k < c)%nat ->
  (forall i' j' k', (i' < a)%nat -> (j' < b)%nat -> (k' < c)%nat -> (i' <> i \/ j' <> j \/ k' <> k) -> f i' j' k' = 0) -> sum3 a b c f = f i j k.
Proof.
  intros Hi Hj Hk H. unfold sum3. rewrite (sumn_pick a _ i Hi).
  - rewrite (sumn_pick b _ j Hj).
    + apply (sumn_pick c _ k Hk). intros k' L N. apply H; auto.
    + intros j' L N. rewrite (sumn_ext c _ (fun _ => 0)) by (intros; apply H; auto). apply sumn_0.
  - intros i' L N. rewrite (sumn_ext b _ (fun _ => 0)); [apply sumn_0|]. intros j' L'. rewrite (sumn_ext c _ (fun _ => 0)) by (intros; apply H; auto). apply sumn_0.
Qed.
Lemma sumn_sum3_swap n a b c f : sumn n (fun l => sum3 a b c (fun i j k => f l i j k)) = sum3 a b c (fun i j k => sumn n (fun l => f l i j k)).
Proof.
  unfold sum3. rewrite sumn_swap. apply sumn_ext. intros i _. rewrite sumn_swap. apply sumn_ext. intros j _. apply sumn_swap.
Qed.
Lemma sum3_swap a b c a' b' c' f : sum3 a b c (fun i j k => sum3 a' b' c' (fun i' j' k' => f i j k i' j' k')) =
  sum3 a' b' c' (fun i' j' k' => sum3 a b c (fun i j k => f i j k i' j' k')).
Proof.
  unfold sum3 at 1. transitivity (sumn a (fun i => sumn b (fun j => sum3 a' b' c' (fun i' j' k' => sumn c (fun k => f i j k i' j' k'))))).
  { apply sumn_ext. intros i _. apply sumn_ext. intros j _. apply sumn_sum3_swap. }
  transitivity (sumn a (fun i => sum3 a' b' c' (fun i' j' k' => sumn b (fun j => sumn c (fun k => f i j k i' j' k'))))).
  { apply sumn_ext. intros i _. apply (sumn_sum3_swap b a' b' c' (fun j i' j' k' => sumn c (fun k => f i j k i' j' k'))). }
  apply (sumn_sum3_swap a a' b' c' (fun i i' j' k' => sumn b (fun j => sumn c (fun k => f i j k i' j' k')))).
Qed.

(** ** roots of unity *)
Definition dvd (n : nat) (m : Z) : bool := (m mod Z.of_nat n =? 0)%Z.
Lemma sin_2PI_Z x k : sin (x + 2 * IZR k * PI) = sin x.
Proof.
  destruct (Z_le_gt_dec 0 k) as [H|H].
  - rewrite <- (Z2Nat.id k H), <- INR_IZR_INZ. apply sin_period.
  - rewrite <- (sin_period (x + 2 * IZR k * PI) (Z.to_nat (- k))). f_equal. rewrite INR_IZR_INZ, Z2Nat.id by lia. rewrite opp_IZR. ring.
Qed.
Lemma cos_2PI_Z x k : cos (x + 2 * IZR k * PI) = cos x.
Proof.
  destruct (Z_le_gt_dec 0 k) as [H|H].
  - rewrite <- (Z2Nat.id k H), <- INR_IZR_INZ. apply cos_period.
  - rewrite <- (cos_period (x + 2 * IZR k * PI) (Z.to_nat (- k))). f_equal. rewrite INR_IZR_INZ, Z2Nat.id by lia. rewrite opp_IZR. ring.
Qed.
Lemma cos_sum_zero n m a : (0 < n)%nat -> dvd n m = false -> sumn n (fun j => cos (a + 2 * PI * IZR m * INR j / INR n)) = 0.
Proof.
  intros Hn D. set (t := 2 * PI * IZR m / INR n). assert (Pn : 0 < INR n) by (apply lt_0_INR; exact Hn).
  assert (T : forall p, 2 * sin (t / 2) * sumn p (fun j => cos (a + 2 * PI * IZR m * INR j / INR n)) = sin (a + INR p * t - t / 2) - sin (a - t / 2)).
  { induction p as [|p IH]; [simpl; replace (a + 0 * t - t / 2) with (a - t / 2) by ring; ring|].
    cbn [sumn]. rewrite Rmult_plus_distr_l, IH, S_INR.
    replace (a + 2 * PI * IZR m * INR p / INR n) with (a + INR p * t) by (unfold t; field; lra).
    replace (a + (INR p + 1) * t - t / 2) with (a + INR p * t + t / 2) by field. replace (a + INR p * t - t / 2) with (a + INR p * t + - (t / 2)) by ring.
    rewrite !sin_plus, cos_neg, sin_neg. ring. }
  specialize (T n). assert (E : sin (a + INR n * t - t / 2) = sin (a - t / 2)).
  { replace (a + INR n * t - t / 2) with (a - t / 2 + 2 * IZR m * PI) by (unfold t; field; lra). apply sin_2PI_Z. }
  rewrite E in T. replace (sin (a - t / 2) - sin (a - t / 2)) with 0 in T by ring.
  destruct (Rmult_integral _ _ T) as [S|S]; [|exact S]. exfalso. assert (S0 : sin (t / 2) = 0) by lra. apply sin_eq_0_0 in S0. destruct S0 as (k & K).
  assert (M : IZR m = IZR (k * Z.of_nat n)). { rewrite mult_IZR, <- INR_IZR_INZ. unfold t in K. pose proof PI_RGT_0. 
    apply (Rmult_eq_reg_l PI); [|lra]. replace (PI * (IZR k * INR n)) with ((IZR k * PI) * INR n) by ring. rewrite <- K. field. lra. }
  apply eq_IZR in M. unfold dvd in D. rewrite M, Z_mod_mult in D. discriminate.
Qed.
Definition G (n : nat) (m : Z) : R := if dvd n m then INR n else 0.
Lemma cos_sum n m a : (0 < n)%nat -> sumn n (fun j => cos (a + 2 * PI * IZR m * INR j / INR n)) = G n m * cos a.
Proof.
  intros Hn. unfold G. destruct (dvd n m) eqn:D; [|rewrite cos_sum_zero by assumption; lra].
  unfold dvd in D. apply Z.eqb_eq in D. apply Zmod_divides in D; [|lia]. destruct D as (q & D). rewrite <- sumn_const. apply sumn_ext. intros j _.
  assert (Pn : 0 < INR n) by (apply lt_0_INR; exact Hn).
  replace (a + 2 * PI * IZR m * INR j / INR n) with (a + 2 * IZR (q * Z.of_nat j) * PI); [apply cos_2PI_Z|].
  rewrite D, !mult_IZR, <- !INR_IZR_INZ. field. lra.
Qed.
Lemma sin_sum n m a : (0 < n)%nat -> sumn n (fun j => sin (a + 2 * PI * IZR m * INR j / INR n)) = G n m * sin a.
Proof.
  intros Hn. pose proof (cos_sum n m (a - PI / 2) Hn) as H. rewrite (sumn_ext n (fun j => sin (a + 2 * PI * IZR m * INR j / INR n)) (fun j => cos (a - PI / 2 + 2 * PI * IZR m * INR j / INR n))).
  - rewrite H. f_equal. rewrite <- cos_shift. rewrite <- cos_neg. f_equal. ring.
  - intros j _. rewrite <- cos_shift. rewrite <- cos_neg. f_equal. field. apply not_0_INR. lia.
Qed.
Lemma G_diff n i j : (i < n)%nat -> (j < n)%nat -> G n (Z.of_nat i - Z.of_nat j) = if Nat.eqb i j then INR n else 0.
Proof.
  intros Hi Hj. unfold G, dvd. destruct (Nat.eqb_spec i j) as [->|N].
  - rewrite Z.sub_diag, Zmod_0_l. reflexivity.
  - destruct (Z.eqb_spec ((Z.of_nat i - Z.of_nat j) mod Z.of_nat n) 0) as [E|]; [|reflexivity]. apply Zmod_divides in E; [|lia]. destruct E as (q & E). assert (q = 0)%Z by nia. nia.
Qed.
(** The half spectrum with its weights adds up to the whole spectrum. *)
Definition cw (h k : nat) : R := if (Nat.eqb k 0 || Nat.eqb k h)%bool then 1 else 2.
Lemma half_sum h m : (0 < h)%nat -> sumn (S h) (fun k => cw h k * cos (2 * PI * IZR m * INR k / INR (2 * h))) = G (2 * h) m.
Proof.
  intros Hh. pose proof (cos_sum (2 * h) m 0 ltac:(lia)) as C. rewrite cos_0, Rmult_1_r in C. rewrite <- C. clear C.
  set (f := fun k : nat => cos (0 + 2 * PI * IZR m * INR k / INR (2 * h))). change (sumn (2 * h) (fun j => cos (0 + 2 * PI * IZR m * INR j / INR (2 * h)))) with (sumn (2 * h) f).
  rewrite (sumn_ext (S h) _ (fun k => cw h k * f k)) by (intros; unfold f; rewrite Rplus_0_l; reflexivity).
  assert (Sy : forall k, (k <= 2 * h)%nat -> f (2 * h - k)%nat = f k).
  { intros k Hk. unfold f. rewrite minus_INR by lia. rewrite <- (cos_neg (0 + 2 * PI * IZR m * INR k / INR (2 * h))). rewrite <- (cos_2PI_Z (- (0 + 2 * PI * IZR m * INR k / INR (2 * h))) m). f_equal. field. apply not_0_INR. lia. }
  replace (2 * h)%nat with (h + (1 + (h - 1)))%nat at 1 by lia. rewrite !sumn_split. simpl (sumn 1 _). rewrite Nat.add_0_r.
  destruct h as [|h]; [lia|]. rewrite sumn_head. rewrite (sumn_head h f). rewrite (sumn_ext (S h) _ (fun k => 2 * f (S k) - (if Nat.eqb k h then f (S k) else 0))).
  2:{ intros k Hk. unfold cw. change (Nat.eqb (S k) 0) with false. cbn [orb]. change (Nat.eqb (S k) (S h)) with (Nat.eqb k h). destruct (Nat.eqb k h); lra. }
  rewrite sumn_sub, sumn_mul. rewrite (sumn_pick (S h) (fun k => if Nat.eqb k h then f (S k) else 0) h) by (lia || (intros i Hi N; apply Nat.eqb_neq in N; rewrite N; reflexivity)).
  rewrite Nat.eqb_refl. unfold cw. cbn [Nat.eqb orb]. replace (S h - 1)%nat with h by lia.
  rewrite (sumn_ext h (fun i => f (S h + (1 + i))%nat) (fun i => f (S (h - 1 - i))%nat)).
  - rewrite <- (sumn_rev h (fun i => f (S i))). cbn [sumn]. lra.
  - intros i Hi. rewrite <- (Sy (S (h - 1 - i))) by lia. f_equal. lia.
Qed.
