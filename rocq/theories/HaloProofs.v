From Coq Require Import Reals Lra Lia.
From Coquelicot Require Import Coquelicot.
From Verif Require Import Base CosmModel CosmProps PowProofs PowProofs2 PowProofs3 LinModel LinProofs HaloModel.
Local Open Scope list_scope. Local Open Scope R_scope.

(** ** NFW *)
Definition hh (c : R) : R := ln (1 + c) - c / (1 + c) - (c / (1 + c)) ^ 2.
Lemma incr_from (f f' : R -> R) a b : a < b -> (forall x, a <= x <= b -> is_derive f x (f' x)) -> (forall x, a < x < b -> 0 < f' x) -> f a < f b.
Proof.
  intros L D P. destruct (MVT_cor2 f f' a b L) as (c & E & Hc); [intros c Hc; apply is_derive_Reals, D, Hc|]. pose proof (P c Hc). nra.
Qed.
Lemma mu_incr a b : 0 <= a -> a < b -> mu a < mu b.
Proof.
  intros Ha L. apply (incr_from mu (fun x => x / (1 + x) ^ 2) a b L).
  - intros x Hx. unfold mu. auto_derive; [lra|]. field. lra.
  - intros x Hx. apply Rdiv_lt_0_compat; [lra|]. apply pow_lt. lra.
Qed.
Lemma mu_0 : mu 0 = 0.
Proof. unfold mu. rewrite Rplus_0_r, ln_1. unfold Rdiv. ring. Qed.
Lemma mu_pos x : 0 < x -> 0 < mu x.
Proof. intros H. rewrite <- mu_0. apply mu_incr; lra. Qed.
Lemma hh_incr a b : 1 <= a -> a < b -> hh a < hh b.
Proof.
  intros Ha L. apply (incr_from hh (fun x => x * (x - 1) / (1 + x) ^ 3) a b L).
  - intros x Hx. unfold hh. auto_derive; [lra|]. field. lra.
  - intros x Hx. apply Rdiv_lt_0_compat; [nra|]. apply pow_lt. lra.
Qed.
Lemma hh_start : 0 < hh (21626 / 10000).
Proof.
  set (q := 537307337 / 500000000). assert (Q : q ^ 16 <= 1 + 21626 / 10000) by (unfold q; lra). assert (Q0 : 1 < q) by (unfold q; lra).
  assert (L : 16 * ln q <= ln (1 + 21626 / 10000)).
  { apply Rle_trans with (ln (q ^ 16)).
    - right. rewrite <- Rpower_pow by lra. unfold Rpower. rewrite ln_exp. f_equal. simpl. ring.
    - destruct Q as [Q|Q]; [left; apply ln_increasing; [apply pow_lt; lra|exact Q]|right; f_equal; exact Q]. }
  pose proof (ln_series ((q - 1) / (q + 1))) as S. assert (B : 0 <= (q - 1) / (q + 1) < 1).
  { split; [apply Rlt_le, Rdiv_lt_0_compat; lra|]. apply (Rmult_lt_reg_r (q + 1)); [lra|]. unfold Rdiv. rewrite Rmult_assoc, Rinv_l by lra. lra. }
  specialize (S B). replace ((1 + (q - 1) / (q + 1)) / (1 - (q - 1) / (q + 1))) with q in S by (field; lra).
  replace ((q - 1) / (q + 1)) with (37307337 / 1037307337) in S by (unfold q; field). unfold hh. lra.
Qed.
Lemma hh_pos c : 21626 / 10000 <= c -> 0 < hh c.
Proof. intros H. pose proof hh_start. destruct H as [H|<-]; [|assumption]. pose proof (hh_incr (21626 / 10000) c ltac:(lra) H). lra. Qed.
Lemma ratio_incr a b : 21626 / 10000 <= a -> a < b -> a / mu a < b / mu b.
Proof.
  intros Ha L. apply (incr_from (fun c => c / mu c) (fun c => hh c / (mu c) ^ 2) a b L).
  - intros x Hx. pose proof (mu_pos x ltac:(lra)) as M. unfold mu in *. assert (M1 : 0 < ln (1 + x) * (1 + x) - x) by (replace (ln (1 + x) * (1 + x) - x) with ((ln (1 + x) - x / (1 + x)) * (1 + x)) by (field; lra); apply Rmult_lt_0_compat; lra). auto_derive; [split; [lra|]; split; [lra|]; split; [unfold Rdiv in M; lra|exact I]|]. unfold hh. field. split; lra.
  - intros x Hx. apply Rdiv_lt_0_compat; [apply hh_pos; lra|]. apply pow_lt, mu_pos. lra.
Qed.
Lemma c_to_v_incr a b : 21626 / 10000 <= a -> a < b -> c_to_v a < c_to_v b.
Proof.
  intros Ha L. unfold c_to_v. pose proof (ratio_incr a b Ha L). pose proof (mu_pos a ltac:(lra)). assert (0 < a / mu a) by (apply Rdiv_lt_0_compat; lra).
  replace (216217 / 1000000 * a / mu a) with (216217 / 1000000 * (a / mu a)) by (unfold Rdiv; ring). replace (216217 / 1000000 * b / mu b) with (216217 / 1000000 * (b / mu b)) by (unfold Rdiv; ring).
  apply sqrt_lt_1; lra.
Qed.

(** ** The table of concentrations *)
Lemma linspace_nth a b n i x : nth_error (linspace a b n) i = Some x -> (i < n)%nat /\ x = match n with 1%nat => a | _ => a + INR i * ((b - a) / INR (n - 1)) end.
Proof.
  unfold linspace. intros H. assert (NN : nth_error (linspace a b n) i <> None) by (unfold linspace; congruence). apply nth_error_Some in NN. assert (I : (i < n)%nat) by (unfold linspace in NN; rewrite map_length, seq_length in NN; exact NN).
  split; [exact I|]. rewrite (map_nth_error _ i (seq 0 n) (d := i)) in H; [congruence|]. rewrite (nth_error_nth' _ 0%nat) by (rewrite seq_length; exact I). rewrite seq_nth by exact I. reflexivity.
Qed.
Lemma linspace_range a b n x : a < b -> In x (linspace a b n) -> a <= x <= b.
Proof.
  intros L H. apply In_nth_error in H. destruct H as [i H]. apply linspace_nth in H. destruct H as [I ->]. destruct n as [|[|n]]; [lia|lra|].
  assert (P : 0 < INR (S n)) by (apply lt_0_INR; lia). assert (Q : 0 <= INR i <= INR (S n)) by (split; [apply pos_INR|apply le_INR; lia]).
  assert (F : INR i * ((b - a) / INR (S n)) = (INR i / INR (S n)) * (b - a)) by (field; lra). replace (S (S n) - 1)%nat with (S n) by lia. rewrite F.
  assert (0 <= INR i / INR (S n) <= 1). { split; [apply Rmult_le_pos; [lra|left; apply Rinv_0_lt_compat, P]|]. apply (Rmult_le_reg_r (INR (S n))); [exact P|]. unfold Rdiv. rewrite Rmult_assoc, Rinv_l by lra. lra. }
  nra.
Qed.
Lemma linspace_climb a b n : a < b -> climbing (linspace a b n).
Proof.
  intros L i j x y I Hx Hy. apply linspace_nth in Hx, Hy. destruct Hx as [Ix ->]. destruct Hy as [Iy ->]. destruct n as [|[|n]]; [lia|lia|].
  assert (P : 0 < (b - a) / INR (S (S n) - 1)) by (apply Rdiv_lt_0_compat; [lra|apply lt_0_INR; lia]). assert (INR i < INR j) by (apply lt_INR; exact I). nra.
Qed.
Lemma climb_app l l' : climbing l -> climbing l' -> (forall a b, In a l -> In b l' -> a < b) -> climbing (l ++ l').
Proof.
  intros C C' H i j a b L Ha Hb. destruct (Nat.lt_ge_cases j (length l)) as [Q|Q].
  - rewrite nth_error_app1 in Ha, Hb by lia. apply (C i j); assumption.
  - rewrite nth_error_app2 in Hb by lia. destruct (Nat.lt_ge_cases i (length l)) as [Q'|Q'].
    + rewrite nth_error_app1 in Ha by lia. apply H; eapply nth_error_In; eassumption.
    + rewrite nth_error_app2 in Ha by lia. apply (C' (i - length l)%nat (j - length l)%nat); [lia|assumption|assumption].
Qed.
Lemma nodes_climb n : climbing (c_nodes n).
Proof.
  unfold c_nodes. apply climb_app; [apply linspace_climb; lra|apply climb_app; [apply linspace_climb; lra|apply linspace_climb; lra|]|].
  - intros a b Ha Hb. apply linspace_range in Ha, Hb; lra.
  - intros a b Ha Hb. apply in_app_iff in Hb. apply linspace_range in Ha; [|lra]. destruct Hb as [Hb|Hb]; apply linspace_range in Hb; lra.
Qed.
Lemma nodes_range n x : In x (c_nodes n) -> 21626 / 10000 <= x <= 1000.
Proof. unfold c_nodes. rewrite !in_app_iff. intros [H|[H|H]]; apply linspace_range in H; lra. Qed.
Lemma nodes_length n : length (c_nodes n) = (3 * n)%nat.
Proof. unfold c_nodes, linspace. rewrite !app_length, !map_length, !seq_length. lia. Qed.
Lemma v_nodes_climb n : climbing (map c_to_v (c_nodes n)).
Proof.
  intros i j a b L Ha Hb. rewrite nth_error_map in Ha, Hb. destruct (nth_error (c_nodes n) i) as [x|] eqn:X; [|discriminate]. destruct (nth_error (c_nodes n) j) as [y|] eqn:Y; [|discriminate].
  cbn in Ha, Hb. injection Ha as <-. injection Hb as <-. apply c_to_v_incr; [apply (nodes_range n), (nth_error_In _ _ X)|apply (nodes_climb n i j); assumption].
Qed.
Lemma nodes_first n : (1 <= n)%nat -> nth_error (c_nodes n) 0 = Some (21626 / 10000).
Proof. intros H. destruct n as [|[|n]]; [lia|reflexivity|]. unfold c_nodes. rewrite nth_error_app1 by (unfold linspace; rewrite map_length, seq_length; lia). cbn. f_equal. ring. Qed.
Lemma nodes_last n : (2 <= n)%nat -> nth_error (c_nodes n) (3 * n - 1) = Some 1000.
Proof.
  intros H. unfold c_nodes. assert (LL : forall a b, length (linspace a b n) = n) by (intros; unfold linspace; rewrite map_length, seq_length; reflexivity).
  rewrite nth_error_app2 by (rewrite LL; lia). rewrite nth_error_app2 by (rewrite !LL; lia). rewrite !LL. replace (3 * n - 1 - n - n)%nat with (n - 1)%nat by lia.
  unfold linspace. rewrite (map_nth_error _ (n - 1)%nat (seq 0 n) (d := (n - 1)%nat)); [|rewrite (nth_error_nth' _ 0%nat) by (rewrite seq_length; lia); rewrite seq_nth by lia; reflexivity].
  destruct n as [|[|n]]; [lia|lia|]. f_equal. assert (INR (S (S n) - 1) <> 0) by (apply not_0_INR; lia). field. assumption.
Qed.
