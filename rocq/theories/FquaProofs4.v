(** Proofs for C91: weighted quantiles. *)
From Coq Require Import ZArith Reals Lra Lia List Permutation Bool.
Require Import Flocq.Core.Core Flocq.IEEE754.BinarySingleNaN.
From Verif Require Import Base ProcFloat InterpFloatProofs MeshFloatModel MeshFloatProofs BinFloatProofs FredModel FredSpec FredProofs FredProofs2 FredProofs3 FredProofs4 PrepFloatProofs FquaModel FquaSpec FquaProofs FquaProofs2 FquaProofs3.
Import ListNotations. Local Open Scope list_scope. Local Open Scope R_scope.

(** ** np.interp *)
Lemma not_above xp p : fin p = true -> finite xp -> (forall i j, (i <= j < length xp)%nat -> val (nth i xp zero64) <= val (nth j xp zero64)) ->
  let k := f_not_above xp p in (k <= length xp)%nat /\ (forall i, (i < k)%nat -> val (nth i xp zero64) <= val p) /\ (forall i, (k <= i < length xp)%nat -> val p < val (nth i xp zero64)).
Proof.
  intros Fp. induction xp as [|a xp IH]; intros F S; [cbn; split; [lia|split; intros; lia]|]. inversion F as [|? ? Fa F' E1]. subst. cbn zeta in *. unfold f_not_above in *. cbn [filter]. rewrite (Bleb_val a p Fa Fp). case Rle_bool_spec; intros H.
  - destruct (IH F') as (I1 & I2 & I3). { intros i j Hij. apply (S (Datatypes.S i) (Datatypes.S j)). cbn [length]. lia. } cbn [length]. split; [lia|]. split; intros [|i] Hi; cbn [nth]; try lra; try lia; [apply I2; lia|apply I3; lia].
  - assert (All : forall i, (i < length (a :: xp))%nat -> val p < val (nth i (a :: xp) zero64)). { intros i Hi. eapply Rlt_le_trans; [exact H|]. apply (S 0%nat i). lia. }
    assert (Z : filter (fun x => Bleb x p) xp = []). { destruct (filter (fun x => Bleb x p) xp) as [|y l] eqn:E; [reflexivity|]. assert (I : In y (filter (fun x => Bleb x p) xp)) by (rewrite E; left; reflexivity). apply filter_In in I. destruct I as [I1 I2]. destruct (In_nth _ _ zero64 I1) as (k & K & Ek). specialize (All (Datatypes.S k)). cbn [nth length] in All. rewrite Ek in All. unfold finite in F'. rewrite Forall_forall in F'. rewrite (Bleb_val y p (F' y I1) Fp) in I2. specialize (All ltac:(lia)). rewrite Rle_bool_false in I2 by exact All. discriminate. }
    rewrite Z. cbn [length]. split; [lia|]. split; [intros; lia|]. intros i Hi. apply All. cbn [length]. lia.
Qed.

Definition small : R := B (-1070).
Section line.
Variables a b y z p : b64.
Hypothesis Fa : fin a = true. Hypothesis Fb : fin b = true. Hypothesis Fy : fin y = true. Hypothesis Fz : fin z = true. Hypothesis Fp : fin p = true.
Hypothesis Ma : Rabs (val a) <= B 400. Hypothesis Mb : Rabs (val b) <= B 400. Hypothesis AB : val a <= val b.
Hypothesis Y0 : 0 <= val y. Hypothesis Z2 : val z <= 2. Hypothesis YP : val y < val p. Hypothesis PZ : val p < val z.
Hypothesis E500 : B (-500) <= val z - val y.
Let sl := div64 (sub64 b a) (sub64 z y).
Let r := add64 (mul64 sl (sub64 p y)) a.
Lemma slope_ok : fin sl = true /\ 0 <= val sl <= B 905 /\ exists d1 d2 d3 e3, Rabs d1 <= u /\ Rabs d2 <= u /\ Rabs d3 <= u /\ Rabs e3 <= eta /\ val sl = (val b - val a) * (1 + d1) / ((val z - val y) * (1 + d2)) * (1 + d3) + e3.
Proof.
  pose proof u_small as U. pose proof Ma as Ma'. pose proof Mb as Mb'. apply Rabs_le_inv in Ma', Mb'. assert (D2 : 0 <= val b - val a <= B 401) by (change (B 401) with (B (1 + 400)); rewrite bpow_plus; change (B 1) with 2; split; lra).
  destruct (minus_rel_sq b a Fb Fa) as (d1 & H1 & Fd & Vd). { rewrite Rabs_right by lra. eapply Rle_trans; [apply D2|apply bpow_le; lia]. }
  destruct (minus_rel_sq z y Fz Fy) as (d2 & H2 & Fe & Ve). { rewrite Rabs_right by lra. apply Rle_trans with (B 1); [change (B 1) with 2; lra|apply bpow_le; lia]. }
  assert (P500 : 0 < B (-500)) by apply bpow_gt_0. apply Rabs_le_inv in H1 as H1', H2 as H2'.
  assert (Dn : 0 <= (val b - val a) * (1 + d1) <= B 402). { split; [apply Rmult_le_pos; lra|]. change 402%Z with (401 + 1)%Z. rewrite bpow_plus. change (B 1) with 2. apply Rmult_le_compat; lra. }
  assert (De : B (-501) <= (val z - val y) * (1 + d2)). { change (-501)%Z with (-500 + -1)%Z. rewrite bpow_plus. change (B (-1)) with (/ 2). apply Rmult_le_compat; lra. } assert (P501 : 0 < B (-501)) by apply bpow_gt_0.
  assert (Q : 0 <= val (sub64 b a) / val (sub64 z y) <= B 903). { rewrite Vd, Ve. split; [apply Rmult_le_pos; [lra|left; apply Rinv_0_lt_compat; lra]|]. apply (Rmult_le_reg_r ((val z - val y) * (1 + d2))); [lra|]. unfold Rdiv. rewrite Rmult_assoc, Rinv_l, Rmult_1_r by lra. eapply Rle_trans; [apply Dn|]. change (B 402) with (B (903 + -501)). rewrite bpow_plus. apply Rmult_le_compat_l; [apply bpow_ge_0|exact De]. }
  destruct (div64_b (sub64 b a) (sub64 z y) Fd) as [Fs Vs]; [rewrite Ve; lra|rewrite Rabs_right by lra; eapply Rle_trans; [apply Q|apply bpow_le; lia]|]. fold sl in Fs, Vs. split; [exact Fs|]. split.
  - rewrite Vs. split; [apply rnd64_pos, Q|]. apply Rle_trans with (B 903); [rewrite <- (bpow64 903) by lia; apply rnd64_le, Q|apply bpow_le; lia].
  - destruct (err64 (val (sub64 b a) / val (sub64 z y))) as (d3 & e3 & H3 & H4 & _ & E). exists d1, d2, d3, e3. repeat (split; [assumption|]). rewrite Vs, E, Vd, Ve. reflexivity.
Qed.
Lemma dist_ok : fin (sub64 p y) = true /\ val (sub64 p y) = rnd64 (val p - val y) /\ 0 <= val (sub64 p y) <= 4.
Proof.
  destruct (sub64_b p y Fp Fy) as [F V]. { rewrite Rabs_right by lra. apply Rle_trans with (B 1); [change (B 1) with 2; lra|apply bpow_le; lia]. } split; [exact F|]. split; [exact V|]. rewrite V. split; [apply rnd64_pos; lra|]. apply Rle_trans with (rnd64 (B 1)); [apply rnd64_le; change (B 1) with 2; lra|rewrite bpow64 by lia; change (B 1) with 2; lra].
Qed.
Lemma prod_ok : fin (mul64 sl (sub64 p y)) = true /\ val (mul64 sl (sub64 p y)) = rnd64 (val sl * val (sub64 p y)) /\ 0 <= val (mul64 sl (sub64 p y)) <= B 907.
Proof.
  destruct slope_ok as (Fs & Rs & _). destruct dist_ok as (Fd & _ & Rd). assert (Q : 0 <= val sl * val (sub64 p y) <= B 907). { split; [apply Rmult_le_pos; lra|]. change 907%Z with (905 + 2)%Z. rewrite bpow_plus. change (B 2) with 4. apply Rmult_le_compat; lra. }
  destruct (mul64_b sl (sub64 p y) Fs Fd) as [F V]. { rewrite Rabs_right by lra. eapply Rle_trans; [apply Q|apply bpow_le; lia]. } split; [exact F|]. split; [exact V|]. rewrite V. split; [apply rnd64_pos, Q|]. rewrite <- (bpow64 907) by lia. apply rnd64_le, Q.
Qed.
Lemma line_val : fin r = true /\ val r = rnd64 (val (mul64 sl (sub64 p y)) + val a) /\ val a <= val r.
Proof.
  destruct prod_ok as (F & _ & R). destruct (add64_b (mul64 sl (sub64 p y)) a F Fa) as [Fr Vr]. { eapply Rle_trans; [apply Rabs_triang|]. rewrite Rabs_right by lra. assert (B 907 + B 907 = B 908) by (change 908%Z with (1 + 907)%Z; rewrite bpow_plus; change (B 1) with 2; ring). assert (B 400 <= B 907) by (apply bpow_le; lia). assert (B 908 <= B 1023) by (apply bpow_le; lia). lra. }
  split; [exact Fr|]. split; [exact Vr|]. change (val r) with (val (add64 (mul64 sl (sub64 p y)) a)). rewrite Vr, <- (rnd64_val a) at 1. apply rnd64_le. lra.
Qed.
Lemma line_err M : Rabs (val a) <= M -> Rabs (val b) <= M ->
  Rabs (val r - (val a + (val p - val y) / (val z - val y) * (val b - val a))) <= B (-49) * (val b - val a) + B (-53) * M + small.
Proof.
  intros Na Nb. destruct slope_ok as (Fs & Rs & d1 & d2 & d3 & e3 & H1 & H2 & H3 & H4 & Vs). destruct dist_ok as (Fd & Vd & Rd). destruct prod_ok as (Fm & Vm & Rm). destruct line_val as (Fr & Vr & _).
  destruct (minus_rel p y) as (d4 & H5 & E4). rewrite E4 in Vd. destruct (err64 (val sl * val (sub64 p y))) as (d5 & e5 & H6 & H7 & _ & E5). rewrite E5 in Vm. destruct (plus_rel (mul64 sl (sub64 p y)) a) as (d6 & H8 & E6). rewrite E6 in Vr.
  pose proof u_small as U. change (Rabs d4 <= u) in H5. change (Rabs d5 <= u) in H6. change (Rabs d6 <= u) in H8. change (Rabs e5 <= eta) in H7. set (D := val b - val a) in *. set (E := val z - val y) in *. set (T := val p - val y) in *. set (pr := val (mul64 sl (sub64 p y))) in *.
  assert (P500 : 0 < B (-500)) by apply bpow_gt_0. assert (E0 : 0 < E) by lra. assert (T0 : 0 < T < E) by (unfold T, E; lra). assert (D0 : 0 <= D) by (unfold D; lra).
  assert (TE : 0 <= T / E <= 1). { split; [apply Rmult_le_pos; [lra|left; apply Rinv_0_lt_compat; lra]|]. apply (Rmult_le_reg_r E); [lra|]. unfold Rdiv. rewrite Rmult_assoc, Rinv_l by lra. lra. }
  apply Rabs_le_inv in H1, H2, H3, H4, H5, H6, H7. set (rho := (1 + d1) * (1 + d3) * (1 + d4) * (1 + d5) / (1 + d2)).
  assert (PR : pr = T / E * D * rho + (e3 * (T * (1 + d4)) * (1 + d5) + e5)). { rewrite Vm, Vs, Vd. unfold rho. field. split; lra. }
  assert (UU : 0 <= u * u <= u * / 1024) by (split; [apply Rmult_le_pos; lra|apply Rmult_le_compat_l; lra]).
  assert (C2 : (1 - u) * (1 - u) <= (1 + d1) * (1 + d3) <= (1 + u) * (1 + u)) by (split; apply Rmult_le_compat; lra). assert (C2' : (1 - u) * (1 - u) <= (1 + d4) * (1 + d5) <= (1 + u) * (1 + u)) by (split; apply Rmult_le_compat; lra).
  assert (L2 : 1 - 2 * u <= (1 - u) * (1 - u)) by lra. assert (U2 : (1 + u) * (1 + u) <= 1 + 9 / 4 * u) by lra.
  assert (C4 : (1 - 2 * u) * (1 - 2 * u) <= (1 + d1) * (1 + d3) * ((1 + d4) * (1 + d5)) <= (1 + 9 / 4 * u) * (1 + 9 / 4 * u)) by (split; apply Rmult_le_compat; lra).
  assert (RHO : 1 - 6 * u <= rho <= 1 + 6 * u).
  { unfold rho. replace ((1 + d1) * (1 + d3) * (1 + d4) * (1 + d5)) with ((1 + d1) * (1 + d3) * ((1 + d4) * (1 + d5))) by ring. set (P := (1 + d1) * (1 + d3) * ((1 + d4) * (1 + d5))) in *. assert (Hd : 0 < 1 + d2) by lra.
    assert (Q : P / (1 + d2) * (1 + d2) = P) by (field; lra). split; apply (Rmult_le_reg_r (1 + d2)); try exact Hd; rewrite Q.
    - apply Rle_trans with ((1 - 6 * u) * (1 + u)); [apply Rmult_le_compat_l; lra|]. lra.
    - apply Rle_trans with ((1 + 6 * u) * (1 - u)); [lra|apply Rmult_le_compat_l; lra]. }
  assert (TD : 0 <= T / E * D <= D) by (split; [apply Rmult_le_pos; lra|rewrite <- (Rmult_1_l D) at 2; apply Rmult_le_compat_r; lra]).
  assert (T4 : 0 <= T * (1 + d4) <= 4) by (rewrite <- Vd; exact Rd).
  assert (E3 : Rabs (e3 * (T * (1 + d4)) * (1 + d5)) <= eta * 4 * 2). { rewrite (Rabs_mult (e3 * (T * (1 + d4)))), (Rabs_mult e3), (Rabs_right (T * (1 + d4))), (Rabs_right (1 + d5)) by lra. apply Rmult_le_compat; [apply Rmult_le_pos; [apply Rabs_pos|lra]|lra| |lra]. apply Rmult_le_compat; [apply Rabs_pos|lra|apply Rabs_le; lra|lra]. } apply Rabs_le_inv in E3.
  assert (R1 : Rabs (pr - T / E * D) <= 6 * u * D + 9 * eta). { rewrite PR. assert (RD : - (6 * u * D) <= T / E * D * (rho - 1) <= 6 * u * D). { apply Rabs_le_inv. rewrite Rabs_mult, (Rabs_right (T / E * D)) by lra. rewrite (Rmult_comm (6 * u) D). apply Rmult_le_compat; [lra|apply Rabs_pos|lra|apply Rabs_le; lra]. } apply Rabs_le. lra. }
  apply Rabs_le_inv in Na, Nb, R1. assert (M0 : 0 <= M) by lra. assert (UD : 0 <= u * D) by (apply Rmult_le_pos; lra). assert (UD1 : u * (u * D) <= / 1024 * (u * D)) by (apply Rmult_le_compat_r; lra). assert (UM : 0 <= u * M) by (apply Rmult_le_pos; lra).
  assert (eta0 : 0 < eta) by apply bpow_gt_0. assert (UE : u * eta <= / 1024 * eta) by (apply Rmult_le_compat_r; lra).
  assert (PA : Rabs (pr + val a) <= M + 6 * u * D + 9 * eta) by (apply Rabs_le; unfold D in *; lra).
  assert (F6 : Rabs ((pr + val a) * d6) <= (M + 6 * u * D + 9 * eta) * u) by (rewrite Rabs_mult; apply Rmult_le_compat; try apply Rabs_pos; assumption). apply Rabs_le_inv in F6.
  assert (EB : B (-49) = 16 * u) by (change (-49)%Z with (4 + -53)%Z; rewrite bpow_plus; reflexivity). assert (ES : small = 32 * eta) by (unfold small; change (-1070)%Z with (5 + -1075)%Z; rewrite bpow_plus; reflexivity).
  rewrite Vr, EB, ES. change (B (-53)) with u. apply Rabs_le. lra.
Qed.
Lemma line_upper M : Rabs (val a) <= M -> Rabs (val b) <= M -> val r <= val b + (B (-49) * (val b - val a) + B (-53) * M + small).
Proof.
  intros Na Nb. pose proof (line_err M Na Nb) as H. apply Rabs_le_inv in H. assert (P500 : 0 < B (-500)) by apply bpow_gt_0. assert (TE : (val p - val y) / (val z - val y) * (val b - val a) <= val b - val a); [|lra].
  rewrite <- (Rmult_1_l (val b - val a)) at 2. apply Rmult_le_compat_r; [lra|]. apply (Rmult_le_reg_r (val z - val y)); [lra|]. unfold Rdiv. rewrite Rmult_assoc, Rinv_l by lra. lra.
Qed.
End line.
