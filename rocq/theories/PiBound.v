(** The number pi to 20 digits, from Machin's formula in the standard library. *)
From Coq Require Import ZArith QArith Qreals Reals Lra Lia Machin Ratan Rtrigo_calc.
Local Open Scope R_scope.

Fixpoint qpow (q : Q) (n : nat) : Q := match n with O => 1%Q | S n => Qred (q * qpow q n) end.
Definition qterm (n : nat) : Q := let k := (2 * n + 1)%nat in Qred ((2 * qpow (1 # 3) k + qpow (1 # 7) k) * (1 # Pos.of_nat k)).
Fixpoint qsum (n : nat) : Q := match n with O => qterm 0 | S m => Qred (qsum m + (if Nat.even n then qterm n else - qterm n)) end.
Lemma Q2R_red q : Q2R (Qred q) = Q2R q.
Proof. apply Qeq_eqR, Qred_correct. Qed.
Lemma qpow_R q n : Q2R (qpow q n) = Q2R q ^ n.
Proof. induction n as [|n IH]; [unfold Q2R; cbn; field|]. cbn [qpow pow]. rewrite Q2R_red, Q2R_mult, IH. reflexivity. Qed.
Lemma qterm_R n : Q2R (qterm n) = PI_2_3_7_tg n.
Proof.
  unfold qterm, PI_2_3_7_tg, Ratan_seq. rewrite Q2R_red, Q2R_mult, Q2R_plus, Q2R_mult, !qpow_R. set (k := (2 * n + 1)%nat). assert (K : Q2R (1 # Pos.of_nat k) = / INR k). { unfold Q2R. cbn [Qnum Qden]. rewrite Rmult_1_l. f_equal. rewrite INR_IZR_INZ. f_equal. unfold k. lia. }
  rewrite K. replace (Q2R 2) with 2 by (unfold Q2R; cbn; field). replace (Q2R (1 # 3)) with (/ 3) by (unfold Q2R; cbn; field). replace (Q2R (1 # 7)) with (/ 7) by (unfold Q2R; cbn; field). unfold Rdiv. ring.
Qed.
Lemma qsum_R n : Q2R (qsum n) = sum_f_R0 (tg_alt PI_2_3_7_tg) n.
Proof.
  induction n as [|n IH]; [cbn [qsum sum_f_R0]; rewrite qterm_R; unfold tg_alt; rewrite pow_O, Rmult_1_l; reflexivity|]. cbn [sum_f_R0]. rewrite <- IH. change (qsum (S n)) with (Qred (qsum n + (if Nat.even (S n) then qterm (S n) else - qterm (S n)))). rewrite Q2R_red, Q2R_plus. f_equal. unfold tg_alt.
  rewrite <- qterm_R. set (t := qterm (S n)). clearbody t. destruct (Nat.even (S n)) eqn:E.
  - apply Nat.even_spec in E. destruct E as [m ->]. rewrite pow_1_even. ring.
  - assert (O : Nat.odd (S n) = true) by (rewrite <- Nat.negb_even, E; reflexivity). apply Nat.odd_spec in O. destruct O as [m Hm]. rewrite Q2R_opp. rewrite Hm. replace (2 * m + 1)%nat with (S (2 * m)) by lia. rewrite pow_1_odd. ring.
Qed.
(** 3.14159265358979323846 < pi < 3.14159265358979323847 *)
Lemma PI_20 : 314159265358979323846 / 100000000000000000000 < PI < 314159265358979323847 / 100000000000000000000.
Proof.
  pose proof (PI_2_3_7_ineq 10) as H. change (S (2 * 10)) with 21%nat in H. change (2 * 10)%nat with 20%nat in H. rewrite <- !qsum_R in H.
  assert (A : (314159265358979323846 # 400000000000000000000 < qsum 21)%Q) by (vm_compute; reflexivity). assert (C : (qsum 20 < 314159265358979323847 # 400000000000000000000)%Q) by (vm_compute; reflexivity).
  apply Qlt_Rlt in A. apply Qlt_Rlt in C. unfold Q2R in A at 1. unfold Q2R in C at 2. cbn [Qnum Qden] in A, C. lra.
Qed.
