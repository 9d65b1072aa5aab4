(** Proofs for C98, continued: the kernels and the mean. *)
From Coq Require Import ZArith Reals Lra Lia List Bool.
Require Import Flocq.Core.Core Flocq.IEEE754.BinarySingleNaN.
From Verif Require Import Base ProcFloat InterpFloatProofs MeshFloatModel MeshFloatProofs FredModel FredSpec FredProofs FredProofs2 NfltProofs FknnModel FknnSpec FknnProofs.
Import ListNotations. Local Open Scope list_scope. Local Open Scope R_scope.

(** A correctly rounded exp is one. *)
Definition of_R64 (r : R) : b64 := @binary_normalize 53 1024 p53 pe53 mode_NE (ZnearestE (scaled_mantissa radix2 (SpecFloat.fexp 53 1024) r)) (cexp radix2 (SpecFloat.fexp 53 1024) r) false.
Definition exp64 (x : b64) : b64 := match x with B754_nan => B754_nan | B754_infinity true => B754_zero false | B754_infinity false => B754_infinity false | _ => of_R64 (exp (val x)) end.
Lemma of_R64_val r : Rabs (rnd64 r) < bpow radix2 1024 -> fin (of_R64 r) = true /\ val (of_R64 r) = rnd64 r.
Proof.
  intros H. unfold of_R64. pose proof (@binary_normalize_correct 53 1024 p53 pe53 mode_NE (ZnearestE (scaled_mantissa radix2 (SpecFloat.fexp 53 1024) r)) (cexp radix2 (SpecFloat.fexp 53 1024) r) false) as C.
  cbn zeta in C. cbn [round_mode] in C. change (F2R (Float radix2 (ZnearestE (scaled_mantissa radix2 (SpecFloat.fexp 53 1024) r)) (cexp radix2 (SpecFloat.fexp 53 1024) r))) with (rnd64 r) in C.
  assert (E : rnd64 (rnd64 r) = rnd64 r) by (apply round_generic; [apply valid_rnd_N|apply generic_format_round; [apply valid64|apply valid_rnd_N]]).
  rewrite E, Rlt_bool_true in C by exact H. destruct C as (V & F & _). split; [exact F|exact V].
Qed.
Lemma one_rnd : rnd64 1 = 1.
Proof. pose proof (format_int 1 0 ltac:(lia) ltac:(lia)) as K. change (B 0) with 1 in K. rewrite Rmult_1_r in K. exact K. Qed.
Lemma exp_le_1 r : r <= 0 -> 0 < exp r <= 1.
Proof. intros H. split; [apply exp_pos|]. destruct (Req_dec r 0) as [->|N]; [rewrite exp_0; lra|]. left. rewrite <- exp_0. apply exp_increasing. lra. Qed.
Lemma exp64_like : exp_like exp64.
Proof.
  assert (G : forall x, fin x = true -> exp64 x = of_R64 (exp (val x))) by (intros [s|[]| |s m e h]; try discriminate; reflexivity).
  split; [|split; [|split; reflexivity]].
  - intros x F H. rewrite G by exact F. destruct (exp_le_1 _ H) as [P Q]. assert (R : 0 <= rnd64 (exp (val x)) <= 1) by (split; [apply rnd64_pos; lra|rewrite <- one_rnd; apply rnd64_le; exact Q]).
    destruct (of_R64_val (exp (val x))) as [F' V]; [rewrite Rabs_right by lra; apply Rle_lt_trans with (bpow radix2 0); [cbn; lra|apply bpow_lt; lia]|].
    split; [exact F'|]. rewrite V. split; [exact R|]. destruct (err64 (exp (val x))) as (d & e & Hd & He & _ & ->). replace (exp (val x) * (1 + d) + e - exp (val x)) with (d * exp (val x) + e) by ring.
    eapply Rle_trans; [apply Rabs_triang|]. rewrite Rabs_mult, (Rabs_right (exp (val x))) by lra. apply Rplus_le_compat; [|exact He]. apply Rmult_le_compat_r; [lra|].
    eapply Rle_trans; [exact Hd|]. apply bpow_le. lia.
  - intros x F Z. rewrite G by exact F. rewrite Z, exp_0. destruct (of_R64_val 1) as [_ V]; [rewrite one_rnd, Rabs_R1; apply (bpow_lt radix2 0 1024); lia|]. rewrite V. apply one_rnd.
Qed.
(** exp (5) >= 128. *)
Lemma exp5 : 128 <= exp 5.
Proof.
  assert (H : 65 / 64 <= exp (/ 64)) by (left; pose proof (exp_ineq1 (/ 64)); lra).
  assert (P : forall n, (65 / 64) ^ n <= exp (INR n * / 64)).
  { induction n as [|n IH]; [cbn; rewrite Rmult_0_l, exp_0; lra|]. rewrite S_INR. replace ((INR n + 1) * / 64) with (/ 64 + INR n * / 64) by ring. rewrite exp_plus. cbn [pow].
    apply Rmult_le_compat; try lra. apply pow_le. lra. }
  specialize (P 320%nat). replace (INR 320 * / 64) with 5 in P by (rewrite INR_IZR_INZ; cbn; lra). eapply Rle_trans; [|exact P].
  unfold Rdiv. rewrite Rpow_mult_distr, <- Rinv_pow by lra. apply Rmult_le_reg_r with (64 ^ 320); [apply pow_lt; lra|]. rewrite Rmult_assoc, Rinv_l, Rmult_1_r by (apply pow_nonzero; lra).
  rewrite !pow_IZR. rewrite <- mult_IZR. apply IZR_le. vm_compute. discriminate.
Qed.
Lemma exp_tiny r : r <= -799 -> exp r <= bpow radix2 (-1100).
Proof.
  intros H. assert (P : forall n, bpow radix2 (7 * Z.of_nat n) <= exp (5 * INR n)).
  { induction n as [|n IH]; [cbn; rewrite Rmult_0_r, exp_0; lra|]. rewrite S_INR, Nat2Z.inj_succ. replace (7 * Z.succ (Z.of_nat n))%Z with (7 + 7 * Z.of_nat n)%Z by lia. rewrite bpow_plus.
    replace (5 * (INR n + 1)) with (5 + 5 * INR n) by ring. rewrite exp_plus. apply Rmult_le_compat; [apply bpow_ge_0|apply bpow_ge_0|change (bpow radix2 7) with 128; exact exp5|exact IH]. }
  specialize (P 159%nat). replace (5 * INR 159) with 795 in P by (rewrite INR_IZR_INZ; cbn; lra). change (7 * Z.of_nat 159)%Z with 1113%Z in P.
  assert (E : exp r <= exp (- (795))) by (left; apply exp_increasing; lra). rewrite exp_Ropp in E. eapply Rle_trans; [exact E|].
  apply Rle_trans with (/ bpow radix2 1113); [apply Rinv_le; [apply bpow_gt_0|exact P]|]. rewrite <- bpow_opp. apply bpow_le. lia.
Qed.
Lemma below_subnormal x : fin x = true -> 0 <= val x < bpow radix2 (-1074) -> val x = 0.
Proof.
  intros F [P L]. destruct (Req_dec (val x) 0) as [E|N]; [exact E|exfalso]. pose proof (abs_B2R_ge_emin 53 1024 x) as G. 
  assert (S : is_finite_strict x = true) by (destruct x as [s|s| |s m e h]; try discriminate F; [exfalso; apply N; reflexivity|reflexivity]). specialize (G S). fold (val x) in G. rewrite Rabs_right in G by lra.
  change (SpecFloat.emin 53 1024) with (-1074)%Z in G. lra.
Qed.

(** The Gaussian kernel. *)
Lemma gauss_spec E sigma d : exp_like E -> fin sigma = true -> fin d = true -> bpow radix2 (-250) <= val sigma <= bpow radix2 250 -> 0 <= val d <= bpow radix2 250 ->
  let q := val d * val d / (2 * (val sigma * val sigma)) in
  fin (k_gauss E sigma d) = true /\ 0 <= val (k_gauss E sigma d) <= 1 /\
  (exists t, Rabs (t + q) <= bpow radix2 (-50) * q + bpow radix2 (-500) /\ Rabs (val (k_gauss E sigma d) - exp t) <= bpow radix2 (-52) * exp t + bpow radix2 (-1075)) /\
  (val d = 0 -> val (k_gauss E sigma d) = 1) /\ (40 * val sigma <= val d -> val (k_gauss E sigma d) = 0).
Proof.
  intros (E1 & E0 & _) Fs Fd (S1 & S2) (D1 & D2) q. set (s := val sigma) in *. set (x := val d) in *. pose proof (bpow_gt_0 radix2 (-250)) as P250.
  assert (XX : 0 <= x * x <= bpow radix2 500) by (split; [apply Rmult_le_pos; lra|]; change 500%Z with (250 + 250)%Z; rewrite bpow_plus; apply Rmult_le_compat; lra).
  assert (SS : bpow radix2 (-500) <= s * s <= bpow radix2 500).
  { split; [change (-500)%Z with (-250 + -250)%Z; rewrite bpow_plus; apply Rmult_le_compat; lra|change 500%Z with (250 + 250)%Z; rewrite bpow_plus; apply Rmult_le_compat; lra]. }
  destruct (mul64_b d d Fd Fd) as [Fdd Vdd]; [fold x; rewrite Rabs_right by lra; eapply Rle_trans; [apply XX|apply bpow_le; lia]|]. fold x in Vdd.
  destruct (mul64_b sigma sigma Fs Fs) as [Fss Vss]; [fold s; rewrite Rabs_right by (pose proof (bpow_gt_0 radix2 (-500)); lra); eapply Rle_trans; [apply SS|apply bpow_le; lia]|]. fold s in Vss.
  destruct half64_val as [Vh Fh]. set (dd := mul64 d d) in *. set (ss := mul64 sigma sigma) in *.
  destruct small_facts as ((u0 & u1) & _). assert (U : bpow radix2 (-53) <= / 1024) by (change (/ 1024) with (bpow radix2 (-10)); apply bpow_le; lia).
  pose proof (bpow_gt_0 radix2 (-500)) as P500. pose proof (bpow_gt_0 radix2 500) as P5.
  (* squares *)
  destruct (err64 (x * x)) as (d1 & e1 & H1 & G1 & _ & Q1). destruct (err64 (s * s)) as (d2 & e2 & H2 & _ & G2 & Q2). rewrite Q1 in Vdd. rewrite Q2 in Vss.
  rewrite G2 in Vss by (rewrite Rabs_right by lra; eapply Rle_trans; [|apply SS]; apply bpow_le; lia). rewrite Rplus_0_r in Vss.
  assert (T5 : bpow radix2 (-1075) <= / 1024 * bpow radix2 (-1000)) by (change (/ 1024) with (bpow radix2 (-10)); rewrite <- bpow_plus; apply bpow_le; lia).
  assert (T1 : bpow radix2 (-1000) <= bpow radix2 500) by (apply bpow_le; lia). pose proof (bpow_gt_0 radix2 (-1000)) as P1000. pose proof (bpow_gt_0 radix2 (-1075)) as P1075.
  apply Rabs_le_inv in H1, G1, H2.
  assert (Vdd' : val dd = x * x + (x * x * d1) + e1) by (rewrite Vdd; ring). assert (A1 : Rabs (x * x * d1) <= x * x * bpow radix2 (-53)) by (rewrite Rabs_mult, (Rabs_right (x * x)) by lra; apply Rmult_le_compat_l; [lra|apply Rabs_le; lra]).
  assert (A1' : x * x * bpow radix2 (-53) <= / 1024 * (x * x)) by (rewrite (Rmult_comm (/ 1024)); apply Rmult_le_compat_l; lra). apply Rabs_le_inv in A1.
  assert (DDb : Rabs (val dd) <= 2 * bpow radix2 500) by (apply Rabs_le; rewrite Vdd'; lra).
  assert (DD0 : 0 <= val dd) by (rewrite Vdd, <- Q1; apply rnd64_pos; lra).
  assert (Vss' : val ss = s * s * (1 + d2)) by exact Vss. assert (SSb : s * s * (1 - / 1024) <= val ss) by (rewrite Vss'; apply Rmult_le_compat_l; lra).
  (* minus half *)
  assert (Fn : fin (Bopp half64) = true) by (vm_compute; reflexivity). assert (Vn : val (Bopp half64) = - / 2) by (unfold val; rewrite B2R_Bopp; fold (val half64); rewrite Vh; reflexivity).
  destruct (mul64_b (Bopp half64) dd Fn Fdd) as [Fm Vm].
  { rewrite Vn, Rabs_mult, Rabs_Ropp, (Rabs_right (/ 2)) by lra. apply Rle_trans with (bpow radix2 500); [lra|apply bpow_le; lia]. }
  set (m := mul64 (Bopp half64) dd) in *. rewrite Vn in Vm. destruct (err64 (- / 2 * val dd)) as (d3 & e3 & H3 & G3 & _ & Q3). rewrite Q3 in Vm. apply Rabs_le_inv in H3, G3.
  assert (Mneg : val m <= 0). { rewrite Vm, <- Q3. rewrite <- rnd64_0. apply rnd64_le. lra. }
  assert (Vm' : val m = - / 2 * (x * x) + - / 2 * (x * x * d1 + e1) + - / 2 * val dd * d3 + e3) by (rewrite Vm, Vdd'; ring).
  assert (A3 : Rabs (val dd * d3) <= val dd * bpow radix2 (-53)) by (rewrite Rabs_mult, (Rabs_right (val dd)) by lra; apply Rmult_le_compat_l; [lra|apply Rabs_le; lra]). apply Rabs_le_inv in A3.
  assert (A3' : val dd * bpow radix2 (-53) <= (x * x * (1 + / 1024) + bpow radix2 (-1075)) * bpow radix2 (-53)) by (apply Rmult_le_compat_r; [lra|]; rewrite Vdd'; lra).
  assert (A3'' : bpow radix2 (-1075) * bpow radix2 (-53) <= bpow radix2 (-1075)) by (rewrite <- (Rmult_1_r (bpow radix2 (-1075))) at 2; apply Rmult_le_compat_l; lra).
  set (u := bpow radix2 (-53)) in *. set (tt := bpow radix2 (-1075)) in *.
  assert (EM : Rabs (val m + / 2 * (x * x)) <= 2 * u * (/ 2 * (x * x)) + 3 * tt + u * / 1024 * (x * x)).
  { rewrite Vm'. apply Rabs_le. lra. }
  (* quotient *)
  assert (SSp : 0 < val ss) by (eapply Rlt_le_trans; [|exact SSb]; apply Rmult_lt_0_compat; lra).
  assert (Mb : Rabs (val m) <= bpow radix2 501).
  { replace (val m) with ((val m + / 2 * (x * x)) - / 2 * (x * x)) by ring. eapply Rle_trans; [apply Rabs_triang|]. rewrite Rabs_Ropp, (Rabs_right (/ 2 * (x * x))) by lra.
    assert (2 * u * (/ 2 * (x * x)) <= 2 * / 1024 * (/ 2 * (x * x))) by (apply Rmult_le_compat_r; lra). assert (u * / 1024 * (x * x) <= / 1024 * / 1024 * (x * x)) by (apply Rmult_le_compat_r; lra).
    replace (bpow radix2 501) with (2 * bpow radix2 500) by (change 2 with (bpow radix2 1); rewrite <- bpow_plus; reflexivity). lra. }
  assert (Qb : Rabs (val m / val ss) <= bpow radix2 1023).
  { unfold Rdiv. rewrite Rabs_mult, (Rabs_right (/ val ss)) by (apply Rle_ge; left; apply Rinv_0_lt_compat; exact SSp). apply Rmult_le_reg_r with (val ss); [exact SSp|]. rewrite Rmult_assoc, Rinv_l, Rmult_1_r by lra.
    eapply Rle_trans; [exact Mb|]. apply Rle_trans with (bpow radix2 1023 * bpow radix2 (-501)); [rewrite <- bpow_plus; apply bpow_le; lia|]. apply Rmult_le_compat_l; [apply bpow_ge_0|].
    replace (bpow radix2 (-501)) with (bpow radix2 (-500) * / 2) by (change (/ 2) with (bpow radix2 (-1)); rewrite <- bpow_plus; reflexivity). lra. }
  destruct (div64_b m ss Fm) as [Ft Vt]; [lra|exact Qb|]. change (k_gauss E sigma d) with (E (div64 m ss)). set (t := div64 m ss) in *.
  assert (Qn : val m / val ss <= 0) by (apply Rmult_le_reg_r with (val ss); [exact SSp|]; unfold Rdiv; rewrite Rmult_assoc, Rinv_l by lra; lra).
  assert (Tn : val t <= 0) by (rewrite Vt, <- rnd64_0; apply rnd64_le; exact Qn).
  destruct (E1 t Ft Tn) as (FE & RE & AE). split; [exact FE|]. split; [exact RE|].
  assert (Q0 : 0 <= q) by (unfold q; apply Rmult_le_pos; [lra|left; apply Rinv_0_lt_compat; lra]).
  assert (QE : / 2 * (x * x) = q * (s * s)) by (unfold q; field; lra).
  assert (TQ : Rabs (val t + q) <= bpow radix2 (-50) * q + bpow radix2 (-500)).
  { destruct (err64 (val m / val ss)) as (d4 & e4 & H4 & G4 & _ & Q4). rewrite Q4 in Vt. fold u in H4. fold tt in G4. apply Rabs_le_inv in H4, G4.
    set (z := val m / val ss) in *. assert (Ez : z * val ss = val m) by (unfold z; field; lra).
    (* |z + q| *)
    assert (K : Rabs (z + q) * (s * s) <= (4 * u * q) * (s * s) + 4 * tt).
    { assert (Z1 : Rabs ((z + q) * val ss) <= (2 * u + 2 * u * / 1024) * (q * (s * s)) + 3 * tt + q * (s * s) * u).
      { replace ((z + q) * val ss) with ((val m + / 2 * (x * x)) + q * (val ss - s * s)) by (rewrite QE, Rmult_plus_distr_r, Ez; ring).
        eapply Rle_trans; [apply Rabs_triang|]. rewrite Rabs_mult, (Rabs_right q) by lra.
        assert (W : Rabs (val ss - s * s) <= s * s * u) by (rewrite Vss'; replace (s * s * (1 + d2) - s * s) with (s * s * d2) by ring; rewrite Rabs_mult, (Rabs_right (s * s)) by lra; apply Rmult_le_compat_l; [lra|apply Rabs_le; lra]).
        assert (W' : q * Rabs (val ss - s * s) <= q * (s * s * u)) by (apply Rmult_le_compat_l; lra).
        assert (XQ : x * x = 2 * (q * (s * s))) by lra. set (EE := Rabs (val m + / 2 * (x * x))) in *. rewrite XQ in EM. clearbody EE.
        set (Y := q * (s * s)) in *. replace (q * (s * s * u)) with (Y * u) in W' by (unfold Y; ring). set (RS := q * Rabs (val ss - s * s)) in *. clearbody RS. clearbody Y.
        replace (2 * u * (/ 2 * (2 * Y))) with (2 * (Y * u)) in EM by field. replace (u * / 1024 * (2 * Y)) with (2 * / 1024 * (Y * u)) in EM by ring.
        replace ((2 * u + 2 * u * / 1024) * Y) with ((2 + 2 * / 1024) * (Y * u)) by ring. set (YU := Y * u) in *. clearbody YU tt. lra. }
      rewrite Rabs_mult, (Rabs_right (val ss)) in Z1 by lra.
      assert (Z2 : Rabs (z + q) * (s * s * (1 - / 1024)) <= Rabs (z + q) * val ss) by (apply Rmult_le_compat_l; [apply Rabs_pos|exact SSb]).
      set (A := Rabs (z + q)) in *. replace (A * (s * s * (1 - / 1024))) with (A * (s * s) * (1 - / 1024)) in Z2 by ring. replace (q * (s * s) * u) with (u * (q * (s * s))) in Z1 by ring.
      replace ((2 * u + 2 * u * / 1024) * (q * (s * s))) with ((2 + 2 * / 1024) * (u * (q * (s * s)))) in Z1 by ring. replace (4 * u * q * (s * s)) with (4 * (u * (q * (s * s)))) by ring.
      assert (0 <= u * (q * (s * s))) by (apply Rmult_le_pos; [lra|apply Rmult_le_pos; lra]). set (Y := u * (q * (s * s))) in *. set (AS := A * (s * s)) in *. clearbody Y AS. lra. }
    assert (K' : Rabs (z + q) <= 4 * u * q + bpow radix2 (-502)).
    { apply Rmult_le_reg_r with (s * s); [lra|]. eapply Rle_trans; [exact K|]. rewrite Rmult_plus_distr_r. apply Rplus_le_compat_l. apply Rle_trans with (bpow radix2 (-502) * bpow radix2 (-500)); [|apply Rmult_le_compat_l; [apply bpow_ge_0|lra]].
      replace 4 with (bpow radix2 2) by (cbn; lra). unfold tt. rewrite <- !bpow_plus. apply bpow_le. lia. }
    rewrite Vt. replace (z * (1 + d4) + e4 + q) with ((z + q) + (z * d4 + e4)) by ring. eapply Rle_trans; [apply Rabs_triang|].
    assert (Za : Rabs z <= q + (4 * u * q + bpow radix2 (-502))) by (replace z with ((z + q) - q) by ring; eapply Rle_trans; [apply Rabs_triang|]; rewrite Rabs_Ropp, (Rabs_right q) by lra; lra).
    assert (Zd : Rabs (z * d4 + e4) <= u * (q + (4 * u * q + bpow radix2 (-502))) + tt).
    { eapply Rle_trans; [apply Rabs_triang|]. rewrite Rabs_mult. apply Rplus_le_compat; [|apply Rabs_le; lra]. rewrite Rmult_comm. apply Rmult_le_compat; [apply Rabs_pos|apply Rabs_pos|apply Rabs_le; lra|exact Za]. }
    assert (B502 : bpow radix2 (-500) = 4 * bpow radix2 (-502)) by (replace 4 with (bpow radix2 2) by (cbn; lra); rewrite <- bpow_plus; reflexivity).
    assert (B50 : bpow radix2 (-50) = 8 * u) by (unfold u; replace 8 with (bpow radix2 3) by (cbn; lra); rewrite <- bpow_plus; reflexivity).
    assert (tt <= bpow radix2 (-502)) by (apply bpow_le; lia). pose proof (bpow_gt_0 radix2 (-502)) as P502. set (w := bpow radix2 (-502)) in *. rewrite B502, B50.
    assert (Y1 : u * (4 * u * q) <= / 1024 * (4 * u * q)) by (apply Rmult_le_compat_r; [apply Rmult_le_pos; lra|lra]). assert (Y2 : u * w <= / 1024 * w) by (apply Rmult_le_compat_r; lra).
    assert (Y3 : 0 <= u * q) by (apply Rmult_le_pos; lra). replace (u * (q + (4 * u * q + w))) with (u * q + u * (4 * u * q) + u * w) in Zd by ring. replace (/ 1024 * (4 * u * q)) with (4 * / 1024 * (u * q)) in Y1 by ring.
    replace (4 * u * q) with (4 * (u * q)) in K' by ring. replace (8 * u * q) with (8 * (u * q)) by ring. lra. }
  split; [exists (val t); split; [exact TQ|exact AE]|]. split.
  - intros Z. apply E0; [exact Ft|]. rewrite Vt. assert (X0 : x * x = 0) by (rewrite Z; ring).
    assert (D0 : val dd = 0). { rewrite Vdd, <- Q1, X0. apply rnd64_0. } assert (M0 : val m = 0). { rewrite Vm, <- Q3, D0, Rmult_0_r. apply rnd64_0. } rewrite M0. unfold Rdiv. rewrite Rmult_0_l. apply rnd64_0.
  - intros L. assert (Q8 : 800 <= q).
    { unfold q. apply Rmult_le_reg_r with (2 * (s * s)); [lra|]. unfold Rdiv. rewrite Rmult_assoc, Rinv_l, Rmult_1_r by lra. apply Rle_trans with ((40 * s) * (40 * s)); [lra|apply Rmult_le_compat; lra]. }
    assert (B50 : bpow radix2 (-50) <= / 4096) by (change (/ 4096) with (bpow radix2 (-12)); apply bpow_le; lia). assert (B5 : bpow radix2 (-500) <= / 4096) by (change (/ 4096) with (bpow radix2 (-12)); apply bpow_le; lia).
    assert (bpow radix2 (-50) * q <= / 4096 * q) by (apply Rmult_le_compat_r; lra). apply Rabs_le_inv in TQ.
    assert (T8 : val t <= -799) by lra. pose proof (exp_tiny _ T8) as X. apply below_subnormal; [exact FE|]. split; [exact (proj1 RE)|]. apply Rabs_le_inv in AE. pose proof (exp_pos (val t)).
    assert (bpow radix2 (-52) * exp (val t) <= 1 * exp (val t)) by (apply Rmult_le_compat_r; [lra|]; apply (bpow_le radix2 (-52) 0); lia).
    assert (bpow radix2 (-1074) = 2 * bpow radix2 (-1075)) by (change 2 with (bpow radix2 1); rewrite <- bpow_plus; reflexivity). assert (bpow radix2 (-1100) <= bpow radix2 (-1078)) by (apply bpow_le; lia).
    assert (bpow radix2 (-1075) = 8 * bpow radix2 (-1078)) by (replace 8 with (bpow radix2 3) by (cbn; lra); rewrite <- bpow_plus; reflexivity). unfold tt in *. lra.
Qed.
