(** Proofs for C90. *)
From Coq Require Import ZArith Reals Lra Lia List.
Require Import Flocq.Core.Core Flocq.IEEE754.BinarySingleNaN.
From Verif Require Import Base ProcFloat InterpFloatProofs MeshFloatProofs BinFloatProofs FredModel FredSpec FredProofs FredProofs2 FredProofs3 FredProofs4 PrepFloatModel.
Import ListNotations. Local Open Scope list_scope. Local Open Scope R_scope.

Lemma zip3_nth f x m s j : (j < length x)%nat -> (j < length m)%nat -> (j < length s)%nat -> nth j (fzip3 f x m s) zero64 = f (nth j x zero64) (nth j m zero64) (nth j s zero64).
Proof.
  revert j m s. induction x as [|a x IH]; intros j m s Hx Hm Hs; [cbn in Hx; lia|]. destruct m as [|b m]; [cbn in Hm; lia|]. destruct s as [|c s]; [cbn in Hs; lia|].
  destruct j; [reflexivity|]. cbn in *. apply IH; lia.
Qed.
Lemma zip3_length f x m s c : length x = c -> length m = c -> length s = c -> length (fzip3 f x m s) = c.
Proof. intros Hx Hm Hs. unfold fzip3. rewrite map_length, combine_length, combine_length. lia. Qed.
Lemma fclip_val lb sd : fin lb = true -> fin sd = true -> fin (fclip lb sd) = true /\ val (fclip lb sd) = Rmax (val sd) (val lb).
Proof.
  intros F1 F2. unfold fclip. rewrite (Bltb_correct 53 1024 sd lb F2 F1). fold (val sd) (val lb). destruct (Rlt_bool_spec (val sd) (val lb)).
  - split; [exact F1|]. rewrite Rmax_right; lra.
  - split; [exact F2|]. rewrite Rmax_left; lra.
Qed.
Lemma minus_rel_sq x y : fin x = true -> fin y = true -> Rabs (val x - val y) <= B 1023 -> exists d, Rabs d <= u /\ fin (sub64 x y) = true /\ val (sub64 x y) = (val x - val y) * (1 + d).
Proof. intros Fx Fy H. destruct (sub64_b x y Fx Fy H) as [F V]. destruct (minus_rel x y) as (d & Hd & E). exists d. rewrite V, E. auto. Qed.
Lemma add_rel x y : fin x = true -> fin y = true -> Rabs (val x + val y) <= B 1023 -> exists d, Rabs d <= u /\ fin (add64 x y) = true /\ val (add64 x y) = (val x + val y) * (1 + d).
Proof. intros Fx Fy H. destruct (add64_b x y Fx Fy H) as [F V]. destruct (plus_rel x y) as (d & Hd & E). exists d. rewrite V, E. auto. Qed.
Lemma mul_err x y : fin x = true -> fin y = true -> Rabs (val x * val y) <= B 1023 -> exists d e, Rabs d <= u /\ Rabs e <= eta /\ fin (mul64 x y) = true /\ val (mul64 x y) = val x * val y * (1 + d) + e.
Proof. intros Fx Fy H. destruct (mul64_b x y Fx Fy H) as [F V]. destruct (err64 (val x * val y)) as (d & e & H1 & H2 & _ & E). exists d, e. rewrite V, E. auto. Qed.
Lemma div_err x y : fin x = true -> val y <> 0 -> Rabs (val x / val y) <= B 1023 -> exists d e, Rabs d <= u /\ Rabs e <= eta /\ fin (div64 x y) = true /\ val (div64 x y) = val x / val y * (1 + d) + e.
Proof. intros Fx Hy H. destruct (div64_b x y Fx Hy H) as [F V]. destruct (err64 (val x / val y)) as (d & e & H1 & H2 & _ & E). exists d, e. rewrite V, E. auto. Qed.
Lemma le_B a e : (e <= 1023)%Z -> Rabs a <= B e -> Rabs a <= B 1023.
Proof. intros H1 H2. eapply Rle_trans; [exact H2|apply bpow_le, H1]. Qed.
Lemma Rabs_mul a b ea eb e : Rabs a <= B ea -> Rabs b <= B eb -> (ea + eb = e)%Z -> Rabs (a * b) <= B e.
Proof. intros H1 H2 <-. rewrite Rabs_mult, bpow_plus. apply Rmult_le_compat; try apply Rabs_pos; assumption. Qed.
Lemma Rabs_dbl a b e : Rabs a <= B e -> Rabs b <= B e -> Rabs (a + b) <= B (1 + e) /\ Rabs (a - b) <= B (1 + e).
Proof. intros H1 H2. rewrite bpow_plus. change (B 1) with 2. split; (eapply Rle_trans; [apply Rabs_triang|]); rewrite ?Rabs_Ropp; lra. Qed.
Lemma one_plus d : Rabs d <= u -> Rabs (1 + d) <= 1 + u.
Proof. intros H. eapply Rle_trans; [apply Rabs_triang|]. rewrite Rabs_R1. lra. Qed.

Section Elt.
  Variables (mu sd : b64).
  Hypothesis Fm : fin mu = true.
  Hypothesis Fs : fin sd = true.
  Hypothesis Bm : Rabs (val mu) <= B 481.
  Hypothesis Bs : B (-480) <= val sd <= B 484.
  Let fwd v := div64 (sub64 v mu) sd.
  Let bwd v := add64 (mul64 v sd) mu.
  Lemma sd_pos : 0 < val sd. Proof. pose proof (bpow_gt_0 radix2 (-480)). lra. Qed.
  Lemma inv_sd : / val sd <= B 480 /\ 0 < / val sd.
  Proof. pose proof sd_pos. split; [|apply Rinv_0_lt_compat; assumption]. replace (B 480) with (/ B (-480)) by (rewrite <- bpow_opp; reflexivity). apply Rinv_le_contravar; [apply bpow_gt_0|apply Bs]. Qed.
  (** Forward. *)
  Lemma fwd_val v : fin v = true -> Rabs (val v) <= B 481 -> exists d1 d2 e, Rabs d1 <= u /\ Rabs d2 <= u /\ Rabs e <= eta /\ fin (fwd v) = true /\
    fin (sub64 v mu) = true /\ val (sub64 v mu) = (val v - val mu) * (1 + d1) /\ Rabs (val (sub64 v mu)) <= B 482 /\
    val (fwd v) = (val v - val mu) * (1 + d1) / val sd * (1 + d2) + e /\ val (fwd v) = rnd64 (rnd64 (val v - val mu) / val sd) /\ Rabs (val (fwd v)) <= B 962.
  Proof.
    intros Fv Bv. pose proof sd_pos as SP. destruct inv_sd as [I1 I2]. destruct (Rabs_dbl _ _ _ Bv Bm) as [_ DB]. change (1 + 481)%Z with 482%Z in DB.
    destruct (minus_rel_sq v mu Fv Fm (le_B _ 482 ltac:(lia) DB)) as (d1 & H1 & F1 & V1). pose proof (sub64_b v mu Fv Fm (le_B _ 482 ltac:(lia) DB)) as [_ R1].
    assert (B1 : Rabs (val (sub64 v mu)) <= B 482) by (rewrite R1; apply rnd64_bound; [lia|exact DB]).
    assert (Q : Rabs (val (sub64 v mu) / val sd) <= B 962). { unfold Rdiv. apply (Rabs_mul _ _ 482 480); [exact B1| |reflexivity]. rewrite Rabs_right; [exact I1|lra]. }
    destruct (div_err (sub64 v mu) sd F1 ltac:(lra) (le_B _ 962 ltac:(lia) Q)) as (d2 & e & H2 & He & F2 & V2). pose proof (div64_b (sub64 v mu) sd F1 ltac:(lra) (le_B _ 962 ltac:(lia) Q)) as [_ R2].
    exists d1, d2, e. fold (fwd v) in F2, V2, R2. repeat (split; [assumption|]). split; [rewrite V2, V1; reflexivity|]. split; [rewrite R2, R1; reflexivity|]. rewrite R2. apply rnd64_bound; [lia|exact Q].
  Qed.
  Lemma fwd_mono v w : fin v = true -> fin w = true -> Rabs (val v) <= B 481 -> Rabs (val w) <= B 481 -> val v <= val w -> val (fwd v) <= val (fwd w).
  Proof.
    intros Fv Fw Bv Bw L. destruct (fwd_val v Fv Bv) as (? & ? & ? & _ & _ & _ & _ & _ & _ & _ & _ & -> & _). destruct (fwd_val w Fw Bw) as (? & ? & ? & _ & _ & _ & _ & _ & _ & _ & _ & -> & _).
    apply rnd64_le. pose proof sd_pos. apply Rmult_le_compat_r; [left; apply Rinv_0_lt_compat; assumption|]. apply rnd64_le. lra.
  Qed.
  Lemma bwd_mono v w : fin v = true -> fin w = true -> Rabs (val v) <= B 481 -> Rabs (val w) <= B 481 -> val v <= val w -> fin (bwd v) = true /\ val (bwd v) <= val (bwd w).
  Proof.
    intros Fv Fw Bv Bw L. pose proof sd_pos as SP. assert (SB : Rabs (val sd) <= B 484) by (rewrite Rabs_right; lra).
    assert (P : forall z, fin z = true -> Rabs (val z) <= B 481 -> fin (bwd z) = true /\ val (bwd z) = rnd64 (rnd64 (val z * val sd) + val mu)).
    { intros z Fz Bz. pose proof (Rabs_mul _ _ 481 484 965 Bz SB eq_refl) as M. destruct (mul64_b z sd Fz Fs (le_B _ 965 ltac:(lia) M)) as [F1 V1].
      destruct (add64_b (mul64 z sd) mu F1 Fm) as [F2 V2]; [|rewrite V1 in V2; split; assumption]. rewrite V1. apply (le_B _ 966); [lia|]. change 966%Z with (1 + 965)%Z. apply Rabs_dbl; [apply rnd64_bound; [lia|exact M]|eapply Rle_trans; [exact Bm|apply bpow_le; lia]]. }
    destruct (P v Fv Bv) as [Fb Eb]. destruct (P w Fw Bw) as [_ Ew]. split; [exact Fb|]. rewrite Eb, Ew. apply rnd64_le. apply Rplus_le_compat_r, rnd64_le, Rmult_le_compat_r; lra.
  Qed.
  Lemma fwd_err v : fin v = true -> Rabs (val v) <= B 481 -> Rabs (val (fwd v) - (val v - val mu) / val sd) <= B (-51) * Rabs ((val v - val mu) / val sd) + eta.
  Proof.
    intros Fv Bv. destruct (fwd_val v Fv Bv) as (d1 & d2 & e & H1 & H2 & He & _ & _ & _ & _ & E & _). rewrite E. set (q := (val v - val mu) / val sd). replace ((val v - val mu) * (1 + d1) / val sd) with (q * (1 + d1)) by (unfold q; field; pose proof sd_pos; lra).
    replace (q * (1 + d1) * (1 + d2) + e - q) with (q * (d1 + d2 + d1 * d2) + e) by ring. eapply Rle_trans; [apply Rabs_triang|]. apply Rplus_le_compat; [|exact He]. rewrite Rabs_mult, Rmult_comm. apply Rmult_le_compat_r; [apply Rabs_pos|].
    change (B (-51)) with (B (2 + -53)). rewrite bpow_plus. change (B 2) with 4. pose proof u_small as U. assert (Rabs (d1 * d2) <= u * 1) by (rewrite Rabs_mult; apply Rmult_le_compat; try apply Rabs_pos; lra).
    eapply Rle_trans; [apply Rabs_triang|]. eapply Rle_trans; [apply Rplus_le_compat_r, Rabs_triang|]. lra.
  Qed.
  (** backward (forward v) *)
  Lemma there_and_back v : fin v = true -> Rabs (val v) <= B 481 -> fin (bwd (fwd v)) = true /\ Rabs (val (bwd (fwd v)) - val v) <= B (-50) * (Rabs (val v) + Rabs (val mu)) + B (-589).
  Proof.
    intros Fv Bv. pose proof sd_pos as SP. destruct (fwd_val v Fv Bv) as (d1 & d2 & e & H1 & H2 & He & F & _ & _ & _ & E & _ & BF). set (z := fwd v) in *. pose proof u_small as U.
    assert (ET : 0 < eta) by apply bpow_gt_0. set (a := val v - val mu) in *. assert (BA : Rabs a <= B 482) by (change 482%Z with (1 + 481)%Z; apply Rabs_dbl; assumption).
    assert (Zs : val z * val sd = a * (1 + d1) * (1 + d2) + e * val sd) by (rewrite E; field; lra).
    assert (ES : Rabs (e * val sd) <= B (-591)). { change (-591)%Z with (-1075 + 484)%Z. rewrite Rabs_mult, bpow_plus, (Rabs_right (val sd)) by lra. apply Rmult_le_compat; try apply Rabs_pos; lra. }
    assert (D12 : Rabs (d1 + d2 + d1 * d2) <= 17 / 8 * u). { assert (Rabs (d1 * d2) <= u * / 1024) by (rewrite Rabs_mult; apply Rmult_le_compat; try apply Rabs_pos; lra). eapply Rle_trans; [apply Rabs_triang|]. eapply Rle_trans; [apply Rplus_le_compat_r, Rabs_triang|]. lra. }
    set (D := d1 + d2 + d1 * d2) in *. assert (Zs' : val z * val sd = a + a * D + e * val sd) by (rewrite Zs; unfold D; ring).
    pose proof (bpow_gt_0 radix2 (-591)) as B591. assert (AD : Rabs (a * D) <= 17 / 8 * u * Rabs a) by (rewrite Rabs_mult, Rmult_comm; apply Rmult_le_compat_r; [apply Rabs_pos|exact D12]).
    assert (UA : u * Rabs a <= / 1024 * Rabs a) by (apply Rmult_le_compat_r; [apply Rabs_pos|lra]).
    assert (ZB : Rabs (val z * val sd) <= B 483). { rewrite Zs'. change 483%Z with (1 + 482)%Z. rewrite bpow_plus. change (B 1) with 2. assert (B (-591) <= / 4 * B 482) by (replace (/ 4) with (B (-2)) by reflexivity; rewrite <- bpow_plus; apply bpow_le; lia). eapply Rle_trans; [apply Rabs_triang|]. eapply Rle_trans; [apply Rplus_le_compat_r, Rabs_triang|]. pose proof (Rabs_pos a). lra. }
    destruct (mul_err z sd F Fs (le_B _ 483 ltac:(lia) ZB)) as (d3 & e3 & H3 & He3 & F3 & V3).
    assert (PB : Rabs (val (mul64 z sd)) <= B 483) by (destruct (mul64_b z sd F Fs (le_B _ 483 ltac:(lia) ZB)) as [_ ->]; apply rnd64_bound; [lia|exact ZB]).
    destruct (add_rel (mul64 z sd) mu F3 Fm) as (d4 & H4 & F4 & V4); [apply (le_B _ 484); [lia|]; change 484%Z with (1 + 483)%Z; apply Rabs_dbl; [exact PB|eapply Rle_trans; [exact Bm|apply bpow_le; lia]]|].
    split; [exact F4|]. unfold bwd. rewrite V4, V3.
    set (r := a * D + e * val sd + val z * val sd * d3 + e3). assert (VE : val z * val sd * (1 + d3) + e3 + val mu = val v + r) by (unfold r; rewrite !Rmult_plus_distr_l, Rmult_1_r; rewrite Zs' at 1; unfold a; ring).
    rewrite VE. replace ((val v + r) * (1 + d4) - val v) with (r * (1 + d4) + val v * d4) by ring.
    assert (RB : Rabs r <= 13 / 4 * u * Rabs a + 2 * B (-591)).
    { unfold r. assert (T3 : Rabs (val z * val sd * d3) <= u * (9 / 8 * Rabs a + B (-591))). { rewrite Rabs_mult, Rmult_comm. apply Rmult_le_compat; try apply Rabs_pos; [exact H3|]. rewrite Zs'. eapply Rle_trans; [apply Rabs_triang|]. eapply Rle_trans; [apply Rplus_le_compat_r, Rabs_triang|]. pose proof (Rabs_pos a). lra. }
      assert (eta <= / 4 * B (-591)) by (replace (/ 4) with (B (-2)) by reflexivity; rewrite <- bpow_plus; apply bpow_le; lia). assert (u * B (-591) <= / 4 * B (-591)) by (apply Rmult_le_compat_r; lra).
      eapply Rle_trans; [apply Rabs_triang|]. eapply Rle_trans; [apply Rplus_le_compat_r, Rabs_triang|]. eapply Rle_trans; [apply Rplus_le_compat_r, Rplus_le_compat_r, Rabs_triang|]. lra. }
    eapply Rle_trans; [apply Rabs_triang|]. rewrite !Rabs_mult.
    assert (T1 : Rabs r * Rabs (1 + d4) <= (13 / 4 * u * Rabs a + 2 * B (-591)) * (9 / 8)) by (apply Rmult_le_compat; try apply Rabs_pos; [exact RB|pose proof (one_plus d4 H4); lra]).
    assert (T2 : Rabs (val v) * Rabs d4 <= Rabs (val v) * u) by (apply Rmult_le_compat_l; [apply Rabs_pos|exact H4]).
    assert (AA : u * Rabs a <= u * (Rabs (val v) + Rabs (val mu))). { apply Rmult_le_compat_l; [lra|]. unfold a, Rminus. eapply Rle_trans; [apply Rabs_triang|]. rewrite Rabs_Ropp. lra. }
    change (-50)%Z with (3 + -53)%Z. change (-589)%Z with (2 + -591)%Z. rewrite !bpow_plus. change (B 3) with 8. change (B 2) with 4.
    assert (0 <= u * Rabs (val v)) by (apply Rmult_le_pos; [lra|apply Rabs_pos]). assert (0 <= u * Rabs (val mu)) by (apply Rmult_le_pos; [lra|apply Rabs_pos]). lra.
  Qed.
  (** forward (backward z) *)
  Lemma back_and_there z : fin z = true -> Rabs (val z) * val sd <= B 480 -> fin (fwd (bwd z)) = true /\ Rabs (val (fwd (bwd z)) - val z) <= B (-50) * (Rabs (val z) + Rabs (val mu) / val sd) + B (-590).
  Proof.
    intros Fz Bz. pose proof sd_pos as SP. pose proof u_small as U. destruct inv_sd as [I1 I2]. assert (ET : 0 < eta) by apply bpow_gt_0.
    assert (ZB : Rabs (val z * val sd) <= B 480) by (rewrite Rabs_mult, (Rabs_right (val sd)) by lra; exact Bz).
    destruct (mul_err z sd Fz Fs (le_B _ 480 ltac:(lia) ZB)) as (d1 & e1 & H1 & He1 & F1 & V1).
    assert (PB : Rabs (val (mul64 z sd)) <= B 480) by (destruct (mul64_b z sd Fz Fs (le_B _ 480 ltac:(lia) ZB)) as [_ ->]; apply rnd64_bound; [lia|exact ZB]).
    assert (S : Rabs (val (mul64 z sd) + val mu) <= B 482). { change 482%Z with (1 + 481)%Z. apply Rabs_dbl; [eapply Rle_trans; [exact PB|apply bpow_le; lia]|exact Bm]. }
    destruct (add_rel (mul64 z sd) mu F1 Fm (le_B _ 482 ltac:(lia) S)) as (d2 & H2 & F2 & V2).
    assert (S2 : Rabs (val (bwd z)) <= B 482) by (unfold bwd; destruct (add64_b (mul64 z sd) mu F1 Fm (le_B _ 482 ltac:(lia) S)) as [_ ->]; apply rnd64_bound; [lia|exact S]). fold (bwd z) in F2, V2.
    assert (DB : Rabs (val (bwd z) - val mu) <= B 483). { change 483%Z with (1 + 482)%Z. apply Rabs_dbl; [exact S2|eapply Rle_trans; [exact Bm|apply bpow_le; lia]]. }
    destruct (minus_rel_sq (bwd z) mu F2 Fm (le_B _ 483 ltac:(lia) DB)) as (d3 & H3 & F3 & V3). assert (B3 : Rabs (val (sub64 (bwd z) mu)) <= B 483) by (destruct (sub64_b (bwd z) mu F2 Fm (le_B _ 483 ltac:(lia) DB)) as [_ ->]; apply rnd64_bound; [lia|exact DB]).
    assert (Q : Rabs (val (sub64 (bwd z) mu) / val sd) <= B 963). { unfold Rdiv. apply (Rabs_mul _ _ 483 480); [exact B3| |reflexivity]. rewrite Rabs_right; [exact I1|lra]. }
    destruct (div_err (sub64 (bwd z) mu) sd F3 ltac:(lra) (le_B _ 963 ltac:(lia) Q)) as (d4 & e4 & H4 & He4 & F4 & V4). split; [exact F4|]. unfold fwd. rewrite V4, V3, V2, V1.
    set (m := val mu / val sd). set (f := e1 / val sd). set (w := val z).
    replace ((((w * val sd * (1 + d1) + e1 + val mu) * (1 + d2) - val mu) * (1 + d3)) / val sd) with (((w * (1 + d1) + f) * (1 + d2) + m * d2) * (1 + d3)) by (unfold f, m, w; field; lra).
    assert (FB : Rabs f <= B (-595)). { unfold f, Rdiv. apply (Rabs_mul _ _ (-1075) 480); [exact He1| |reflexivity]. rewrite Rabs_right; [exact I1|lra]. }
    set (D1 := (1 + d1) * (1 + d2) * ((1 + d3) * (1 + d4)) - 1). set (D2 := (1 + d2) * ((1 + d3) * (1 + d4))). set (D3 := d2 * ((1 + d3) * (1 + d4))).
    replace (((w * (1 + d1) + f) * (1 + d2) + m * d2) * (1 + d3) * (1 + d4) + e4 - w) with (w * D1 + f * D2 + m * D3 + e4) by (unfold D1, D2, D3; ring).
    assert (P2 : forall x y, Rabs x <= u -> Rabs y <= u -> Rabs ((1 + x) * (1 + y) - 1) <= 33 / 16 * u). { intros x y Hx Hy. replace ((1 + x) * (1 + y) - 1) with (x + y + x * y) by ring. assert (Rabs (x * y) <= u * / 1024) by (rewrite Rabs_mult; apply Rmult_le_compat; try apply Rabs_pos; lra). eapply Rle_trans; [apply Rabs_triang|]. eapply Rle_trans; [apply Rplus_le_compat_r, Rabs_triang|]. lra. }
    pose proof (P2 d1 d2 H1 H2) as A1. pose proof (P2 d3 d4 H3 H4) as A2. set (p := (1 + d1) * (1 + d2) - 1) in *. set (q := (1 + d3) * (1 + d4) - 1) in *.
    assert (B1 : Rabs D1 <= 5 * u). { replace D1 with (p + q + p * q) by (unfold D1, p, q; ring). assert (Rabs (p * q) <= 33 / 16 * u * / 16) by (rewrite Rabs_mult; apply Rmult_le_compat; try apply Rabs_pos; lra). eapply Rle_trans; [apply Rabs_triang|]. eapply Rle_trans; [apply Rplus_le_compat_r, Rabs_triang|]. lra. }
    assert (Q1 : Rabs (1 + q) <= 9 / 8) by (eapply Rle_trans; [apply Rabs_triang|]; rewrite Rabs_R1; lra).
    assert (B2 : Rabs D2 <= 2). { replace D2 with ((1 + d2) * (1 + q)) by (unfold D2, q; ring). rewrite Rabs_mult. pose proof (one_plus d2 H2). apply Rle_trans with (9 / 8 * (9 / 8)); [apply Rmult_le_compat; try apply Rabs_pos; lra|lra]. }
    assert (B3' : Rabs D3 <= 9 / 8 * u). { replace D3 with (d2 * (1 + q)) by (unfold D3, q; ring). rewrite Rabs_mult, Rmult_comm. apply Rmult_le_compat; try apply Rabs_pos; assumption. }
    assert (W1 : Rabs (w * D1) <= 5 * u * Rabs w) by (rewrite Rabs_mult, Rmult_comm; apply Rmult_le_compat_r; [apply Rabs_pos|exact B1]).
    assert (W2 : Rabs (f * D2) <= B (-595) * 2) by (rewrite Rabs_mult; apply Rmult_le_compat; try apply Rabs_pos; assumption).
    assert (W3 : Rabs (m * D3) <= 9 / 8 * u * Rabs m) by (rewrite Rabs_mult, Rmult_comm; apply Rmult_le_compat_r; [apply Rabs_pos|exact B3']).
    replace (Rabs (val mu) / val sd) with (Rabs m) by (unfold m, Rdiv; rewrite Rabs_mult, (Rabs_right (/ val sd)) by lra; reflexivity).
    assert (eta <= B (-595)) by (apply bpow_le; lia). pose proof (bpow_gt_0 radix2 (-595)). change (-590)%Z with (5 + -595)%Z. change (-50)%Z with (3 + -53)%Z. rewrite !bpow_plus. change (B 3) with 8. change (B 5) with 32.
    assert (0 <= u * Rabs w) by (apply Rmult_le_pos; [lra|apply Rabs_pos]). assert (0 <= u * Rabs m) by (apply Rmult_le_pos; [lra|apply Rabs_pos]).
    eapply Rle_trans; [apply Rabs_triang|]. eapply Rle_trans; [apply Rplus_le_compat_r, Rabs_triang|]. eapply Rle_trans; [apply Rplus_le_compat_r, Rplus_le_compat_r, Rabs_triang|]. lra.
  Qed.
End Elt.

(** ** The fit *)
From Verif Require Import PrepFloatSpec.
Lemma zero_is : zero64 = B754_zero false. Proof. apply B2SF_inj. reflexivity. Qed.
Lemma std_max total D fill x : adds total D -> well_formed x None None -> (Z.of_nat (length x) <= 2 ^ 53)%Z -> INR (D (length x)) * eps <= / 8 -> Forall (fun v => Rabs (val v) <= B 480) x -> x <> [] -> val (f_std total fill x None None) <= B 483.
Proof.
  intros A W Hn Hd Hx Ne. rewrite std_is. destruct (var_val total D fill x None A W Hn Hd Hx Ne (B 964)) as (F & P & L); [apply Forall_forall; intros v Hv; apply (sq_val total D fill x None A W Hn Hd Hx Ne); exact Hv|lra|].
  destruct (sqrt64_val _ F P) as [_ Vs]. rewrite Vs. rewrite <- (bpow64 483) by lia. apply rnd64_le. rewrite <- (sqrt_pow2 (B 483)) by apply bpow_ge_0. apply sqrt_le_1_alt. eapply Rle_trans; [exact L|].
  replace (B 483 ^ 2) with (4 * B 964). 2:{ replace (B 483 ^ 2) with (B 483 * B 483) by ring. rewrite <- bpow_plus. change (483 + 483)%Z with (2 + 964)%Z. rewrite bpow_plus. reflexivity. }
  assert (eta <= B 964) by (apply bpow_le; lia). pose proof (bpow_gt_0 radix2 964). lra.
Qed.
Lemma nth_map_seq {A} (f : nat -> A) c j d : (j < c)%nat -> nth j (map f (seq 0 c)) d = f j.
Proof. intros H. rewrite (nth_indep _ d (f 0%nat)) by (rewrite map_length, seq_length; exact H). rewrite map_nth, seq_nth by exact H. reflexivity. Qed.
Section Fit.
  Variables (total : list b64 -> b64) (D : nat -> nat) (lb : b64) (c : nat) (rows : list (list b64)).
  Hypothesis A : adds total D.
  Hypothesis G : good_table c rows.
  Hypothesis L : good_floor lb.
  Hypothesis Hd : INR (D (length rows)) * eps <= / 8.
  Let t := f_fit total lb c rows.
  Let cl j := fcol rows j.
  Lemma fit_len : length (fs_mean t) = c /\ length (fs_sd t) = c.
  Proof. unfold t, f_fit. cbn [fs_mean fs_sd]. rewrite !map_length, seq_length. auto. Qed.
  Lemma fit_nth j : (j < c)%nat -> nth j (fs_mean t) zero64 = f_mean total B754_nan (cl j) None None /\ nth j (fs_sd t) zero64 = fclip lb (f_std total B754_nan (cl j) None None).
  Proof.
    intros Hj. unfold t, f_fit. cbn [fs_mean fs_sd]. rewrite !nth_map_seq by exact Hj. auto.
  Qed.
  Lemma col_ok j : (j < c)%nat -> well_formed (cl j) None None /\ (Z.of_nat (length (cl j)) <= 2 ^ 53)%Z /\ length (cl j) = length rows /\ Forall (fun v => Rabs (val v) <= B 480) (cl j) /\ cl j <> [] /\ contributions (cl j) None None = values rows j.
  Proof.
    intros Hj. destruct G as (Ne & Hn & Gr). assert (Lc : length (cl j) = length rows) by (unfold cl, fcol; apply map_length).
    assert (E : forall v, In v (cl j) -> fin v = true /\ Rabs (val v) <= B 480). { intros v Hv. unfold cl, fcol in Hv. apply in_map_iff in Hv. destruct Hv as (r & <- & Hr). rewrite Forall_forall in Gr. destruct (Gr r Hr) as [Lr Fr]. rewrite Forall_forall in Fr. apply Fr, nth_In. lia. }
    split; [|split; [rewrite Lc; exact Hn|split; [exact Lc|split; [apply Forall_forall; intros v Hv; apply E, Hv|split]]]].
    - split; [apply Forall_forall; intros v Hv; apply E, Hv|split; [discriminate|discriminate]].
    - intros H. apply Ne. rewrite H in Lc. destruct rows; [reflexivity|discriminate].
    - unfold contributions, values, cl, fcol. cbn [chosen]. rewrite map_map, zero_is. reflexivity.
  Qed.
  Lemma fit_vals j : (j < c)%nat -> let mu := nth j (fs_mean t) zero64 in let sd := nth j (fs_sd t) zero64 in let v := values rows j in let d := INR (D (length rows)) in
    let err := (d + 1) * eps * (Rsize v / INR (length v)) + eta in let s := sqrt (variance_of v) in
    fin mu = true /\ fin sd = true /\ Rabs (val mu) <= B 481 /\ val lb <= val sd <= B 484 /\ Rabs (val mu - mean_of v) <= err /\
    Rabs (val sd - Rmax s (val lb)) <= (d + 4) * eps * s + 2 * err + B (-534).
  Proof.
    intros Hj mu sd v d err s. destruct (fit_nth j Hj) as [Em Es]. destruct (col_ok j Hj) as (W & Hn & Lc & Hx & Ne & Ec). destruct L as [Fl [L1 L2]].
    assert (Hd' : INR (D (length (cl j))) * eps <= / 8) by (rewrite Lc; exact Hd).
    destruct (mean_val total D B754_nan (cl j) None A W Hn Hd' Hx Ne) as [Fm Vm]. pose proof (mean_480 total D B754_nan (cl j) None A W Hn Hd' Hx Ne) as Bm.
    destruct (std_ok total D B754_nan (cl j) None A W Hn Hd' Hx Ne) as [Fs Ps]. pose proof (std_max total D B754_nan (cl j) A W Hn Hd' Hx Ne) as Bs. pose proof (std_accurate total D B754_nan (cl j) None A W Hn Hd' Hx Ne) as As.
    rewrite <- Em in Fm, Vm, Bm. fold mu in Fm, Vm, Bm. rewrite Ec, Lc in Vm. cbv zeta in Vm. fold v d in Vm. rewrite Ec, Lc in As. fold v d in As. fold (mean_of v) in As, Vm. fold (variance_of v) in As. fold s err in As. fold err in Vm.
    destruct (fclip_val lb _ Fl Fs) as [Fc Vc]. rewrite <- Es in Fc, Vc. fold sd in Fc, Vc.
    split; [exact Fm|]. split; [exact Fc|]. split; [change 481%Z with (1 + 480)%Z; rewrite bpow_plus; exact Bm|]. rewrite Vc.
    split; [split; [apply Rmax_r|apply Rmax_lub; [eapply Rle_trans; [exact Bs|apply bpow_le; lia]|eapply Rle_trans; [exact L2|apply bpow_le; lia]]]|]. split; [exact Vm|].
    eapply Rle_trans; [|exact As]. set (a := val (f_std total B754_nan (cl j) None None)). clearbody a s. unfold Rmax. destruct (Rle_dec a (val lb)), (Rle_dec s (val lb)); apply Rabs_le; pose proof (Rle_abs (a - s)); pose proof (Rle_abs (- (a - s))); rewrite Rabs_Ropp in *; pose proof (Rabs_pos (a - s)); lra.
  Qed.
End Fit.
