(** Proofs for C89: accuracy of standard deviations. *)
From Coq Require Import ZArith Reals Lra Lia List.
Require Import Flocq.Core.Core Flocq.IEEE754.BinarySingleNaN.
From Verif Require Import Base ProcFloat InterpFloatProofs MeshFloatProofs BinFloatProofs FredModel FredSpec FredProofs FredProofs2 FredProofs3.
Import ListNotations. Local Open Scope list_scope. Local Open Scope R_scope.

Lemma Rsum_upper {A} (f g : A -> R) (l : list A) a e : (forall v, In v l -> f v <= a * g v + e) -> Rsum (map f l) <= a * Rsum (map g l) + INR (length l) * e.
Proof.
  unfold Rsum. induction l as [|v l IH]; intros H; [cbn; lra|]. cbn [map fold_right length]. rewrite S_INR. pose proof (H v (or_introl eq_refl)). assert (IH' := IH (fun w Hw => H w (or_intror Hw))). lra.
Qed.
Lemma Rsum_lower {A} (f g : A -> R) (l : list A) a e : (forall v, In v l -> a * g v - e <= f v) -> a * Rsum (map g l) - INR (length l) * e <= Rsum (map f l).
Proof.
  unfold Rsum. induction l as [|v l IH]; intros H; [cbn; lra|]. cbn [map fold_right length]. rewrite S_INR. pose proof (H v (or_introl eq_refl)). assert (IH' := IH (fun w Hw => H w (or_intror Hw))). lra.
Qed.
Lemma shift_squares l a : Rsum (map (fun v => (v - a) ^ 2) l) = Rsum (map (fun v => v ^ 2) l) - 2 * a * Rsum l + INR (length l) * a ^ 2.
Proof. unfold Rsum. induction l as [|v l IH]; [cbn; ring|]. cbn [map fold_right length]. rewrite S_INR, IH. ring. Qed.
Lemma squares_about l a : l <> [] -> Rsum (map (fun v => (v - a) ^ 2) l) = Rsum (map (fun v => (v - Rsum l / INR (length l)) ^ 2) l) + INR (length l) * (a - Rsum l / INR (length l)) ^ 2.
Proof. intros N. rewrite !shift_squares. assert (0 < INR (length l)) by (apply lt_0_INR; destruct l; [congruence|cbn; lia]). field. lra. Qed.

Lemma rel_lower x d e b : Rabs d <= b -> b <= 1 -> 0 <= x -> Rabs e <= eta -> x * (1 - b) - eta <= x * (1 + d) + e.
Proof. intros H1 Hb X H2. apply Rabs_le_inv in H1, H2. assert (x * (1 - b) <= x * (1 + d)) by (apply Rmult_le_compat_l; lra). lra. Qed.
Lemma rel_upper x d e b : Rabs d <= b -> 0 <= x -> Rabs e <= eta -> x * (1 + d) + e <= x * (1 + b) + eta.
Proof. intros H1 X H2. apply Rabs_le_inv in H1, H2. assert (x * (1 + d) <= x * (1 + b)) by (apply Rmult_le_compat_l; lra). lra. Qed.

Lemma Rsum_squares l a : 0 <= Rsum (map (fun v => (v - a) ^ 2) l).
Proof. unfold Rsum. induction l as [|v l IH]; [cbn; lra|]. cbn [map fold_right]. pose proof (pow2_ge_0 (v - a)). lra. Qed.

Section Acc.
  Variables (total : list b64 -> b64) (D : nat -> nat) (fill : b64) (x : list b64) (m : option (list bool)).
  Hypothesis A : adds total D.
  Hypothesis W : well_formed x None m.
  Hypothesis Hn : (Z.of_nat (length x) <= 2 ^ 53)%Z.
  Hypothesis Hd : INR (D (length x)) * eps <= / 8.
  Hypothesis Hx : Forall (fun v => Rabs (val v) <= B 480) x.
  Hypothesis Ne : chosen m x <> [].
  Let c := contributions x None m.
  Let k := INR (length c).
  Let mu := f_mean total fill x None m.
  Let sq v := mul64 (sub64 v mu) (sub64 v mu).
  Let y := map sq x.
  Let t := (INR (D (length x)) + 1) * eps.
  Let mean := Rsum c / k.
  Let V := Rsum (map (fun v => (v - mean) ^ 2) c) / k.
  Let delta := t * (Rsize c / k) + eta.

  Lemma u_small : 0 < u <= / 1024. Proof. pose proof small_facts as (F1 & _). pose proof u0. lra. Qed.
  Lemma sq_low v : In v x -> (1 - u) ^ 3 * (val v - val mu) ^ 2 - eta <= val (sq v).
  Proof.
    intros Hv. destruct (sq_val total D fill x m A W Hn Hd Hx Ne v Hv) as (_ & _ & _). destruct (dev_val total D fill x m A W Hn Hd Hx Ne v Hv) as (F & _ & E2). destruct (mean_val total D fill x m A W Hn Hd Hx Ne) as [Fm _]. fold mu in F, E2, Fm.
    pose proof (mean_480 total D fill x m A W Hn Hd Hx Ne) as Mb. fold mu in Mb. pose proof W as (Fx & _). unfold finite in Fx. rewrite Forall_forall in Fx. specialize (Fx v Hv). pose proof Hx as Hx'. rewrite Forall_forall in Hx'. specialize (Hx' v Hv).
    assert (DB : Rabs (val v - val mu) <= B 482). { assert (B482 : B 482 = 4 * B 480) by (change 482%Z with (2 + 480)%Z; rewrite bpow_plus; reflexivity). pose proof (bpow_gt_0 radix2 480). eapply Rle_trans; [apply Rabs_triang|]. rewrite Rabs_Ropp. lra. }
    destruct (sub64_b v mu Fx Fm) as [_ Vd]; [eapply Rle_trans; [exact DB|apply bpow_le; lia]|]. destruct (minus_rel v mu) as (d & Hd' & E). rewrite E in Vd.
    set (a := val (sub64 v mu)) in *. assert (SQ : Rabs (a * a) <= B 964). { rewrite Rabs_mult. change 964%Z with (482 + 482)%Z. rewrite bpow_plus. apply Rmult_le_compat; try apply Rabs_pos; assumption. }
    destruct (mul64_b (sub64 v mu) (sub64 v mu) F F) as [_ Vs]; [eapply Rle_trans; [exact SQ|apply bpow_le; lia]|]. unfold sq. rewrite Vs. fold a. destruct (err64 (a * a)) as (d2 & e & H1 & H2 & _ & E3). rewrite E3.
    pose proof u_small as U. assert (N : 0 <= a * a) by apply Rle_0_sqr. eapply Rle_trans; [|apply rel_lower; [exact H1|lra|exact N|exact H2]].
    apply Rplus_le_compat_r. replace ((1 - u) ^ 3 * (val v - val mu) ^ 2) with ((1 - u) ^ 2 * (val v - val mu) ^ 2 * (1 - u)) by ring. apply Rmult_le_compat_r; [lra|]. rewrite Vd.
    replace ((val v - val mu) * (1 + d) * ((val v - val mu) * (1 + d))) with ((1 + d) ^ 2 * (val v - val mu) ^ 2) by ring. apply Rmult_le_compat_r; [apply pow2_ge_0|]. apply Rabs_le_inv in Hd'. apply pow_incr. lra.
  Qed.
  Lemma lens : length c = length (chosen m x) /\ 1 <= k.
  Proof. split; [apply contrib_length, W|]. exact (k1 x m W Ne). Qed.
  Lemma c_map : c = map val (chosen m x).
  Proof. unfold c, contributions. apply chosen_map. Qed.
  Lemma y_mean : let s := Rsum (contributions y None m) / k in (1 - u) ^ 3 * V - eta <= s <= (1 + u) ^ 3 * (V + delta ^ 2) + eta.
  Proof.
    intros s. destruct lens as [L K]. destruct (mean_val total D fill x m A W Hn Hd Hx Ne) as [_ E]. fold mu in E. cbv zeta in E. fold c k in E. fold mean in E. fold t in E. fold delta in E.
    assert (Ey : contributions y None m = map (fun v => val (sq v)) (chosen m x)) by (unfold contributions, y; rewrite map_map, chosen_map; reflexivity).
    assert (Sg : Rsum (map (fun v => (val v - val mu) ^ 2) (chosen m x)) = k * (V + (val mu - mean) ^ 2)).
    { replace (map (fun v => (val v - val mu) ^ 2) (chosen m x)) with (map (fun v => (v - val mu) ^ 2) c) by (rewrite c_map, map_map; reflexivity). rewrite squares_about by (intros H; rewrite H in L; apply Ne; destruct (chosen m x); [reflexivity|discriminate]). fold k. fold mean. unfold V. field. lra. }
    pose proof u_small as U. assert (Kd : forall a, k * a / k = a) by (intros a; field; lra). assert (Kp : 0 < / k) by (apply Rinv_0_lt_compat; lra).
    unfold s. rewrite Ey. split.
    - pose proof (Rsum_lower (fun v => val (sq v)) (fun v => (val v - val mu) ^ 2) (chosen m x) ((1 - u) ^ 3) eta (fun v Hv => sq_low v (chosen_In _ _ _ Hv))) as Lo. cbv beta in Lo. rewrite Sg, <- L in Lo. fold k in Lo.
      apply (Rmult_le_reg_r k); [lra|]. unfold Rdiv. rewrite Rmult_assoc, Rinv_l, Rmult_1_r by lra. eapply Rle_trans; [|exact Lo].
      assert (0 <= (1 - u) ^ 3 * k * (val mu - mean) ^ 2) by (apply Rmult_le_pos; [apply Rmult_le_pos; [apply pow_le|]; lra|apply pow2_ge_0]). lra.
    - assert (Hi : Rsum (map (fun v => val (sq v)) (chosen m x)) <= (1 + u) ^ 3 * Rsum (map (fun v => (val v - val mu) ^ 2) (chosen m x)) + INR (length (chosen m x)) * eta).
      { apply Rsum_upper. intros v Hv. apply (sq_val total D fill x m A W Hn Hd Hx Ne v (chosen_In _ _ _ Hv)). }
      rewrite Sg, <- L in Hi. fold k in Hi. apply (Rmult_le_reg_r k); [lra|]. unfold Rdiv. rewrite Rmult_assoc, Rinv_l, Rmult_1_r by lra. eapply Rle_trans; [exact Hi|].
      assert (Q : (val mu - mean) ^ 2 <= delta ^ 2). { rewrite <- (pow2_abs (val mu - mean)). apply pow_incr. split; [apply Rabs_pos|exact E]. }
      assert (0 <= (1 + u) ^ 3 * k) by (apply Rmult_le_pos; [apply pow_le; lra|lra]). assert ((1 + u) ^ 3 * k * (val mu - mean) ^ 2 <= (1 + u) ^ 3 * k * delta ^ 2) by (apply Rmult_le_compat_l; assumption). lra.
  Qed.
  Lemma V0 : 0 <= V.
  Proof. destruct lens as [L K]. unfold V. apply Rmult_le_pos; [|left; apply Rinv_0_lt_compat; lra]. apply Rsum_squares. Qed.
  Lemma std_accurate : Rabs (val (f_std total fill x None m) - sqrt V) <= (INR (D (length x)) + 4) * eps * sqrt V + 2 * delta + B (-534).
  Proof.
    destruct lens as [L K]. pose proof V0 as VP. pose proof u_small as U. pose proof eps_u as EU. assert (D0 : 0 <= INR (D (length x)) * eps) by (apply Rmult_le_pos; [apply pos_INR|unfold eps; apply bpow_ge_0]).
    assert (T0 : 0 <= t <= / 4) by (unfold t; rewrite Rmult_plus_distr_r, Rmult_1_l; rewrite EU in *; lra).
    assert (ET : 0 < eta) by apply bpow_gt_0. assert (DL : 0 <= delta) by (unfold delta; assert (0 <= t * (Rsize c / k)) by (apply Rmult_le_pos; [lra|apply Rmult_le_pos; [apply Rsize_pos|left; apply Rinv_0_lt_compat; lra]]); lra).
    destruct y_mean as [Lo Hi]. set (s := Rsum (contributions y None m) / k) in *.
    pose proof (wf_y total D fill x m A W Hn Hd Hx Ne) as Wy. change (well_formed y None m) in Wy.
    destruct (var_val total D fill x m A W Hn Hd Hx Ne (B 964)) as (F & P & _); [apply Forall_forall; intros v Hv; apply (sq_val total D fill x m A W Hn Hd Hx Ne); eapply chosen_In; exact Hv|lra|].
    change (map _ x) with y in F, P. rewrite (std_is total fill x m). change (map _ x) with y.
    assert (Ly : length y = length x) by (unfold y; apply map_length). assert (Lc : length (contributions y None m) = length c). { unfold c. rewrite (contrib_length _ _ Wy), (contrib_length _ _ W). unfold y. rewrite chosen_map, map_length. reflexivity. }
    pose proof (y_nonneg total D fill x m A W Hn Hd Hx Ne) as Yn. change (Forall (fun v => 0 <= v) (contributions y None m)) in Yn.
    pose proof (y_size total D fill x m A W Hn Hd Hx Ne (B 964)) as Ys. cbv zeta in Ys.
    assert (Ys' : Rsize (contributions y None m) <= k * B 964) by (apply Ys; apply Forall_forall; intros v Hv; apply (sq_val total D fill x m A W Hn Hd Hx Ne); eapply chosen_In; exact Hv). clear Ys.
    destruct (mean_plain total D fill y m A Wy) as [_ Ev]; [rewrite Ly; exact Hn|rewrite Ly; lra|intros E; rewrite E in Lc; unfold k in K; rewrite <- Lc in K; cbn in K; lra| |].
    { eapply Rle_trans; [exact Ys'|]. pose proof (k53 x m W Hn) as K2. change (k <= B 53) in K2. apply Rle_trans with (B 53 * B 964); [apply Rmult_le_compat_r; [apply bpow_ge_0|exact K2]|]. rewrite <- bpow_plus. apply bpow_le; lia. }
    rewrite Lc, Ly, (Rsum_nonneg _ Yn) in Ev. fold k in Ev. fold s in Ev. fold t in Ev. set (w := val (f_mean total fill y None m)) in *.
    assert (S0 : 0 <= s). { unfold s. apply Rmult_le_pos; [rewrite <- (Rsum_nonneg _ Yn); apply Rsize_pos|left; apply Rinv_0_lt_compat; lra]. }
    assert (Wlo : (1 - t) * s - eta <= w) by (apply Rabs_le_inv in Ev; lra). assert (Whi : w <= (1 + t) * s + eta) by (apply Rabs_le_inv in Ev; lra). clear Ev.
    destruct (sqrt64_val _ F P) as [_ Vs]. fold w in P, Vs. rewrite Vs. clear Vs.
    set (sg := sqrt V). assert (SG : 0 <= sg) by apply sqrt_pos. assert (SV : sg ^ 2 = V) by (unfold sg; replace (sqrt V ^ 2) with (sqrt V * sqrt V) by ring; apply sqrt_sqrt, VP).
    set (b := B (-536)). assert (R1 : b ^ 2 = 8 * eta) by (unfold b; replace (B (-536) ^ 2) with (B (-536) * B (-536)) by ring; rewrite <- bpow_plus; change (-536 + -536)%Z with (3 + -1075)%Z; rewrite bpow_plus; reflexivity).
    assert (B536 : 0 < b) by apply bpow_gt_0. assert (E4 : B (-534) = 4 * b) by (change (-534)%Z with (2 + -536)%Z; rewrite bpow_plus; reflexivity). assert (E5 : eta <= / 4 * b). { replace (/ 4) with (B (-2)) by reflexivity. unfold b. rewrite <- bpow_plus. apply bpow_le. lia. }
    replace ((INR (D (length x)) + 4) * eps) with (t + 6 * u) by (unfold t; rewrite EU; ring). clearbody s w delta V.
    assert (T1 : 0 <= 1 - t) by lra. assert (U1 : 0 <= (1 - u) ^ 3 <= 1) by (split; [apply pow_le; lra|]; apply Rle_trans with (1 ^ 3); [apply pow_incr; lra|lra]).
    assert (U2 : 1 - 3 * u <= (1 - u) ^ 3) by (assert (0 <= u ^ 2 * (3 - u)) by (apply Rmult_le_pos; [apply pow2_ge_0|lra]); replace ((1 - u) ^ 3) with (1 - 3 * u + u ^ 2 * (3 - u)) by ring; lra).
    assert (U3 : 1 <= (1 + u) ^ 3 <= 1 + 13 / 4 * u). { assert (0 <= u ^ 2) by apply pow2_ge_0. assert (u ^ 2 <= / 1024 * u) by (replace (u ^ 2) with (u * u) by ring; apply Rmult_le_compat_r; lra). assert (0 <= u * u ^ 2 <= u ^ 2) by (split; [apply Rmult_le_pos; lra|]; rewrite <- (Rmult_1_l (u ^ 2)) at 2; apply Rmult_le_compat_r; lra). replace ((1 + u) ^ 3) with (1 + 3 * u + 3 * u ^ 2 + u * u ^ 2) by ring. lra. }
    set (q := (1 - t) * (1 - u) ^ 3) in *. assert (Q : 0 <= q <= 1). { unfold q. split; [apply Rmult_le_pos; lra|]. rewrite <- (Rmult_1_l 1). apply Rmult_le_compat; lra. }
    assert (Q1 : 1 - t - 3 * u <= q). { unfold q. apply Rle_trans with ((1 - t) * (1 - 3 * u)); [|apply Rmult_le_compat_l; lra]. assert (0 <= t * u) by (apply Rmult_le_pos; lra). lra. }
    set (p := (1 + t) * (1 + u) ^ 3) in *. assert (P1 : 1 <= p). { unfold p. rewrite <- (Rmult_1_l 1). apply Rmult_le_compat; lra. }
    destruct (err64 (sqrt w)) as (d & e & H1 & H2 & _ & E3). rewrite E3. pose proof (sqrt_pos w) as SP.
    apply Rabs_le. split.
    - assert (LB : q * sg - b <= sqrt w).
      { destruct (Rle_or_lt (q * sg) b) as [N|N]; [lra|]. rewrite <- (sqrt_pow2 (q * sg - b)) by lra. apply sqrt_le_1_alt.
        assert (w + 8 * eta >= q * V). { assert ((1 - t) * ((1 - u) ^ 3 * V - eta) <= (1 - t) * s) by (apply Rmult_le_compat_l; lra). assert (0 <= t * eta) by (apply Rmult_le_pos; lra). unfold q. lra. }
        assert (q * q * V <= q * V) by (apply Rmult_le_compat_r; [exact VP|]; rewrite <- (Rmult_1_r q) at 3; apply Rmult_le_compat_l; lra). assert (b ^ 2 <= b * (q * sg)) by (replace (b ^ 2) with (b * b) by ring; apply Rmult_le_compat_l; lra).
        replace ((q * sg - b) ^ 2) with (q * q * sg ^ 2 - 2 * (b * (q * sg)) + b ^ 2) by ring. rewrite SV. lra. }
      pose proof (rel_lower (sqrt w) d e u H1 ltac:(lra) SP H2) as RL.
      assert ((q * sg - b) * (1 - u) <= sqrt w * (1 - u)) by (apply Rmult_le_compat_r; lra). assert ((1 - t - 3 * u) * sg <= q * sg) by (apply Rmult_le_compat_r; lra).
      assert (q * sg * u <= sg * u) by (apply Rmult_le_compat_r; [lra|]; rewrite <- (Rmult_1_l sg) at 2; apply Rmult_le_compat_r; lra). assert (0 <= b * u) by (apply Rmult_le_pos; lra). assert (0 <= sg * u) by (apply Rmult_le_pos; lra). lra.
    - assert (UB : sqrt w <= p * (sg + delta) + b).
      { assert (0 <= p * (sg + delta)) by (apply Rmult_le_pos; lra). rewrite <- (sqrt_pow2 (p * (sg + delta) + b)) by lra. apply sqrt_le_1_alt.
        assert ((1 + t) * s <= (1 + t) * ((1 + u) ^ 3 * (V + delta ^ 2) + eta)) by (apply Rmult_le_compat_l; lra). assert (t * eta <= / 4 * eta) by (apply Rmult_le_compat_r; lra).
        assert (Wp : w <= p * (V + delta ^ 2) + 3 * eta) by (unfold p; lra). assert (0 <= V + delta ^ 2) by (pose proof (pow2_ge_0 delta); lra).
        assert (p * (V + delta ^ 2) <= p * p * (V + delta ^ 2)) by (apply Rmult_le_compat_r; [assumption|]; rewrite <- (Rmult_1_r p) at 1; apply Rmult_le_compat_l; lra).
        assert (0 <= 2 * (sg * delta)) by (apply Rmult_le_pos; [lra|apply Rmult_le_pos; lra]). assert (0 <= p * p * (2 * (sg * delta))) by (apply Rmult_le_pos; [apply Rmult_le_pos; lra|assumption]). assert (0 <= 2 * (p * (sg + delta)) * b) by (apply Rmult_le_pos; lra).
        replace ((p * (sg + delta) + b) ^ 2) with (p * p * (sg ^ 2 + delta ^ 2) + p * p * (2 * (sg * delta)) + 2 * (p * (sg + delta)) * b + b ^ 2) by ring. rewrite SV. lra. }
      pose proof (rel_upper (sqrt w) d e u H1 SP H2) as RU. assert (sqrt w * (1 + u) <= (p * (sg + delta) + b) * (1 + u)) by (apply Rmult_le_compat_r; lra).
      assert (PU : p * (1 + u) <= 1 + t + 6 * u).
      { unfold p. assert (A4 : (1 + u) ^ 3 * (1 + u) <= 1 + 9 / 2 * u). { apply Rle_trans with ((1 + 13 / 4 * u) * (1 + u)); [apply Rmult_le_compat_r; lra|]. assert (u * u <= / 1024 * u) by (apply Rmult_le_compat_r; lra). lra. }
        rewrite Rmult_assoc. apply Rle_trans with ((1 + t) * (1 + 9 / 2 * u)); [apply Rmult_le_compat_l; lra|]. assert (t * u <= / 4 * u) by (apply Rmult_le_compat_r; lra). lra. }
      assert (p * (1 + u) * (sg + delta) <= (1 + t + 6 * u) * (sg + delta)) by (apply Rmult_le_compat_r; lra). assert (b * u <= / 4 * b) by (rewrite Rmult_comm; apply Rmult_le_compat_r; lra).
      assert ((t + 6 * u) * delta <= 1 * delta) by (apply Rmult_le_compat_r; lra). lra.
  Qed.
End Acc.
