(** Proofs for C91. *)
From Coq Require Import ZArith Reals Lra Lia List Permutation.
Require Import Flocq.Core.Core Flocq.IEEE754.BinarySingleNaN.
From Verif Require Import Base ProcFloat InterpFloatProofs MeshFloatModel MeshFloatProofs BinFloatProofs FredModel FredSpec FredProofs FredProofs2 FredProofs3 FredProofs4 FquaModel FquaSpec.
Import ListNotations. Local Open Scope list_scope. Local Open Scope R_scope.

Notation FX := (FLT_exp (-1074) 53).
Lemma IZR_bpow k : (0 <= k)%Z -> IZR (2 ^ k) = B k.
Proof. intros H. apply (IZR_Zpower radix2). exact H. Qed.
Lemma ulp64 m e : (2 ^ 52 <= m < 2 ^ 53)%Z -> (-1074 <= e)%Z -> ulp radix2 FX (IZR m * B e) = B e.
Proof.
  intros Hm He. assert (P : 0 < IZR m) by (apply IZR_lt; lia). rewrite ulp_neq_0 by (apply Rgt_not_eq, Rmult_lt_0_compat; [exact P|apply bpow_gt_0]). f_equal. unfold cexp. rewrite mag_mult_bpow by lra.
  replace (mag radix2 (IZR m) : Z) with 53%Z; [unfold FLT_exp; lia|]. symmetry. apply mag_unique_pos. change (53 - 1)%Z with 52%Z. rewrite <- !IZR_bpow by lia. split; [apply IZR_le; lia|apply IZR_lt; lia].
Qed.
Lemma fmt m e : (Z.abs m <= 2 ^ 53)%Z -> (-1074 <= e)%Z -> generic_format radix2 FX (IZR m * B e).
Proof. intros Hm He. rewrite <- (format_int m e Hm He). rewrite fexp_FLT. apply generic_format_round; [rewrite <- fexp_FLT; apply valid64|apply valid_rnd_N]. Qed.
Lemma rnd_below m e v : (2 ^ 52 <= m < 2 ^ 53)%Z -> (-1074 <= e)%Z -> v < (IZR m + / 2) * B e -> rnd64 v <= IZR m * B e.
Proof.
  intros Hm He Hv. rewrite fexp_FLT. apply round_N_le_midp; [rewrite <- fexp_FLT; apply valid64|apply fmt; lia|]. rewrite succ_eq_pos by (apply Rmult_le_pos; [apply IZR_le; lia|apply bpow_ge_0]). rewrite ulp64 by assumption. lra.
Qed.
Lemma decompose d : generic_format radix2 FX d -> B (-1022) <= d -> exists m e, d = IZR m * B e /\ (2 ^ 52 <= m < 2 ^ 53)%Z /\ (-1074 <= e)%Z.
Proof.
  intros G Hd. pose proof (bpow_gt_0 radix2 (-1022)) as B0. assert (M : (-1021 <= mag radix2 d)%Z) by (change (-1021)%Z with (-1022 + 1)%Z; apply mag_ge_bpow; rewrite Rabs_right by lra; replace (-1022 + 1 - 1)%Z with (-1022)%Z by lia; exact Hd).
  set (e := (mag radix2 d - 53)%Z). assert (Ec : cexp radix2 FX d = e) by (unfold cexp, FLT_exp, e; lia).
  unfold generic_format in G. rewrite Ec in G. set (m := Ztrunc (scaled_mantissa radix2 FX d)) in G. exists m, e. split; [exact G|]. split; [|unfold e; lia].
  destruct (mag radix2 d) as (k & Hk). cbn [mag_val] in *. specialize (Hk ltac:(lra)). rewrite Rabs_right in Hk by lra. rewrite G in Hk. unfold F2R in Hk. cbn [Fnum Fexp] in Hk. fold e in Hk. destruct Hk as [K1 K2].
  assert (Be : 0 < B e) by apply bpow_gt_0. split.
  - apply le_IZR. rewrite IZR_bpow by lia. apply (Rmult_le_reg_r (B e)); [exact Be|]. rewrite <- bpow_plus. replace (52 + e)%Z with (k - 1)%Z by (unfold e; lia). exact K1.
  - apply lt_IZR. rewrite IZR_bpow by lia. apply (Rmult_lt_reg_r (B e)); [exact Be|]. rewrite <- bpow_plus. replace (53 + e)%Z with k by (unfold e; lia). exact K2.
Qed.
Lemma rnd_fmt x : generic_format radix2 FX (rnd64 x).
Proof. rewrite fexp_FLT. apply generic_format_round; [rewrite <- fexp_FLT; apply valid64|apply valid_rnd_N]. Qed.

(** The two halves of the interpolation never overlap: x is a difference of two doubles. *)
Lemma halves x k : x = IZR k * B (-1074) -> 0 <= x -> let d := rnd64 x in rnd64 (d * (/ 2 - B (-54))) + rnd64 (d / 2) <= x.
Proof.
  intros Ex X0 d. assert (D0 : 0 <= d) by (apply rnd64_pos, X0). assert (T54 : 0 < B (-54)) by apply bpow_gt_0. assert (U54 : B (-54) <= / 4) by (change (/ 4) with (B (-2)); apply bpow_le; lia).
  assert (TM : rnd64 (d * (/ 2 - B (-54))) <= rnd64 (d / 2)). { apply rnd64_le. unfold Rdiv. apply Rmult_le_compat_l; lra. }
  destruct (Rle_or_lt x (B (-1021))) as [Sm|Lg].
  - (* small: x is a double *)
    assert (K : (0 <= k <= 2 ^ 53)%Z). { pose proof (bpow_gt_0 radix2 (-1074)) as B0. split; [apply le_IZR|apply le_IZR; rewrite IZR_bpow by lia]; apply (Rmult_le_reg_r (B (-1074))); try exact B0; [rewrite Rmult_0_l, <- Ex; exact X0|]. rewrite <- bpow_plus, <- Ex. change (53 + -1074)%Z with (-1021)%Z. exact Sm. }
    assert (Dx : d = x) by (unfold d; rewrite Ex; apply format_int; lia). rewrite Dx in *. clear d Dx.
    destruct (Z.Even_or_Odd k) as [[j J]|[j J]].
    + assert (H : x / 2 = IZR j * B (-1074)) by (rewrite Ex, J, mult_IZR; field). assert (H2 : rnd64 (x / 2) = x / 2) by (rewrite H; apply format_int; lia). rewrite H2 in *. lra.
    + (* odd: the lower half rounds down *)
      set (h := B (-1074)) in *. assert (Hp : 0 < h) by apply bpow_gt_0.
      assert (E2 : x / 2 = (IZR j + / 2) * h) by (rewrite Ex, J, plus_IZR, mult_IZR; field).
      assert (UP : rnd64 (x / 2) <= IZR (j + 1) * h). { unfold h. rewrite <- (format_int (j + 1) (-1074)) by lia. fold h. apply rnd64_le. rewrite E2, plus_IZR. apply Rmult_le_compat_r; lra. }
      assert (LO : rnd64 (x * (/ 2 - B (-54))) <= IZR j * h).
      { rewrite fexp_FLT. apply round_N_le_midp; [rewrite <- fexp_FLT; apply valid64|apply fmt; lia|]. rewrite succ_eq_pos by (apply Rmult_le_pos; [apply IZR_le; lia|lra]).
        assert (UL : h <= ulp radix2 FX (IZR j * h)). { unfold h. assert (PG : Prec_gt_0 53) by reflexivity. rewrite <- (@ulp_FLT_0 radix2 (-1074) 53 PG). apply (@ulp_ge_ulp_0 radix2 FX (@FLT_exp_valid (-1074) 53 PG)). apply (@monotone_exp_not_FTZ FX); [exact (@FLT_exp_valid (-1074) 53 PG)|exact (FLT_exp_monotone (-1074) 53)]. }
        assert (Xp : 0 < x). { rewrite Ex. apply Rmult_lt_0_compat; [apply IZR_lt; lia|exact Hp]. } assert (0 < x * B (-54)) by (apply Rmult_lt_0_compat; assumption). replace (x * (/ 2 - B (-54))) with (x / 2 - x * B (-54)) by (unfold Rdiv; ring). rewrite E2. lra. }
      rewrite plus_IZR in UP. assert (X2 : x = (2 * IZR j + 1) * h) by (rewrite Ex, J, plus_IZR, mult_IZR; reflexivity). lra.
  - destruct (Rle_or_lt d x) as [Le|Lt].
    + (* rounded down *)
      assert (H : rnd64 (d / 2) = d / 2). { destruct (decompose d) as (m & e & E & Hm & He); [apply rnd_fmt|unfold d; rewrite <- (bpow64 (-1022)) by lia; apply rnd64_le; apply Rlt_le, (Rlt_trans _ (B (-1021))); [apply bpow_lt; lia|exact Lg]|].
        assert (He' : (-1074 < e)%Z). { apply Z.lt_nge. intros C. assert (B (-1021) <= d) by (unfold d; rewrite <- (bpow64 (-1021)) by lia; apply rnd64_le; lra). rewrite E in H. assert (IZR m * B e < B 53 * B (-1074)). { apply Rlt_le_trans with (B 53 * B e); [apply Rmult_lt_compat_r; [apply bpow_gt_0|rewrite <- IZR_bpow by lia; apply IZR_lt; lia]|apply Rmult_le_compat_l; [apply bpow_ge_0|apply bpow_le; lia]]. } rewrite <- bpow_plus in H0. change (53 + -1074)%Z with (-1021)%Z in H0. lra. }
        replace (d / 2) with (IZR m * B (e - 1)); [apply format_int; lia|]. rewrite E. unfold Zminus. rewrite bpow_plus. change (B (- (1))) with (/ 2). unfold Rdiv. ring. }
      rewrite H in *. lra.
    + (* rounded up *)
      assert (D21 : B (-1021) < d) by lra. destruct (decompose d) as (m & e & E & Hm & He); [apply rnd_fmt|apply Rlt_le, (Rlt_trans _ (B (-1021))); [apply bpow_lt; lia|exact D21]|].
      assert (He' : (-1073 <= e)%Z). { apply Z.le_ngt. intros C. replace e with (-1074)%Z in E by lia. assert (IZR m * B (-1074) <= B 53 * B (-1074)) by (apply Rmult_le_compat_r; [apply bpow_ge_0|rewrite <- IZR_bpow by lia; apply IZR_le; lia]). rewrite <- bpow_plus in H. change (53 + -1074)%Z with (-1021)%Z in H. lra. }
      assert (P2 : d / 2 = IZR m * B (e - 1)). { rewrite E. unfold Zminus. rewrite bpow_plus. change (B (- (1))) with (/ 2). unfold Rdiv. ring. }
      rewrite P2, (format_int m (e - 1)) by lia. assert (Be : 0 < B (e - 1)) by apply bpow_gt_0. assert (Be2 : B e = 2 * B (e - 1)) by (replace e with (1 + (e - 1))%Z at 1 by lia; rewrite bpow_plus; reflexivity).
      assert (Tv : d * (/ 2 - B (-54)) = (IZR m - IZR m * B (-53)) * B (e - 1)). { replace (d * (/ 2 - B (-54))) with (d / 2 * (1 - 2 * B (-54))) by (unfold Rdiv; field). rewrite P2. replace (2 * B (-54)) with (B (-53)) by (change (-53)%Z with (1 + -54)%Z; rewrite bpow_plus; reflexivity). ring. }
      rewrite Tv. clear Tv. destruct (Z.eq_dec m (2 ^ 52)) as [Em|Em].
      * assert (He2 : (-1072 <= e)%Z). { apply Z.le_ngt. intros C. replace e with (-1073)%Z in E by lia. rewrite Em, IZR_bpow, <- bpow_plus in E by lia. change (52 + -1073)%Z with (-1021)%Z in E. lra. }
        assert (B2 : B (e - 1) = 2 * B (e - 2)) by (replace (e - 1)%Z with (1 + (e - 2))%Z by lia; rewrite bpow_plus; reflexivity). assert (Bm : 0 < B (e - 2)) by apply bpow_gt_0.
        assert (T : (IZR m - IZR m * B (-53)) * B (e - 1) = IZR (2 ^ 53 - 1) * B (e - 2)). { rewrite Em, B2, minus_IZR, !IZR_bpow by lia. rewrite <- bpow_plus. change (52 + -53)%Z with (-1)%Z. change (B (-1)) with (/ 2). change 53%Z with (1 + 52)%Z at 1. rewrite bpow_plus. change (B 1) with 2. field. }
        rewrite T, (format_int (2 ^ 53 - 1) (e - 2)) by lia.
        assert (XB : (IZR (2 ^ 53 - 1) + / 2) * B (e - 1) <= x). { apply Rnot_lt_le. intros C. pose proof (rnd_below (2 ^ 53 - 1) (e - 1) x ltac:(lia) ltac:(lia) C) as Q. fold d in Q. rewrite E, Em, Be2 in Q. rewrite minus_IZR, !IZR_bpow in Q by lia. change 53%Z with (1 + 52)%Z in Q. rewrite bpow_plus in Q. change (B 1) with 2 in Q. lra. }
        assert (W : IZR (2 ^ 53 - 1) = 2 * IZR (2 ^ 52) - 1) by (rewrite minus_IZR; change (2 ^ 53)%Z with (2 * 2 ^ 52)%Z; rewrite mult_IZR; reflexivity). rewrite Em, W, B2 in *. lra.
      * assert (Mf : / 2 < IZR m * B (-53)). { change (/ 2) with (B (-1)). apply Rlt_le_trans with (IZR (2 ^ 52 + 1) * B (-53)); [|apply Rmult_le_compat_r; [apply bpow_ge_0|apply IZR_le; lia]]. rewrite plus_IZR, IZR_bpow by lia. rewrite Rmult_plus_distr_r, <- bpow_plus. change (52 + -53)%Z with (-1)%Z. pose proof (bpow_gt_0 radix2 (-53)). lra. }
        assert (LO : rnd64 ((IZR m - IZR m * B (-53)) * B (e - 1)) <= IZR (m - 1) * B (e - 1)). { apply rnd_below; [lia|lia|]. rewrite minus_IZR. apply Rmult_lt_compat_r; lra. }
        assert (XB : (IZR (m - 1) + / 2) * B e <= x). { apply Rnot_lt_le. intros C. pose proof (rnd_below (m - 1) e x ltac:(lia) He C) as Q. fold d in Q. rewrite E, minus_IZR in Q. assert (0 < B e) by apply bpow_gt_0. lra. }
        rewrite minus_IZR in *. rewrite Be2 in XB. lra.
Qed.

Lemma val_grid x : exists k, val x = IZR k * B (-1074).
Proof.
  pose proof (format64 x) as G. rewrite fexp_FLT in G. apply FLT_format_generic in G; [|reflexivity]. destruct G as [[m e] E1 _ E3]. cbn [Fexp] in E3. exists (m * 2 ^ (e - -1074))%Z. rewrite E1. unfold F2R. cbn [Fnum Fexp].
  rewrite mult_IZR, IZR_bpow by lia. rewrite Rmult_assoc, <- bpow_plus. f_equal. f_equal. lia.
Qed.
Lemma diff_grid a b : exists k, val b - val a = IZR k * B (-1074).
Proof. destruct (val_grid a) as [i Hi], (val_grid b) as [j Hj]. exists (j - i)%Z. rewrite minus_IZR, Hi, Hj. ring. Qed.
Lemma below_half t : val t < / 2 -> val t <= / 2 - B (-54).
Proof.
  intros H. assert (PG : Prec_gt_0 53) by reflexivity. pose proof (format64 t) as G. rewrite fexp_FLT in G.
  assert (P : val t <= pred radix2 FX (B (-1))). { apply (@pred_ge_gt radix2 FX (@FLT_exp_valid (-1074) 53 PG)); [exact G|apply (generic_format_bpow radix2 FX); cbn; lia|exact H]. }
  rewrite pred_bpow in P. exact P.
Qed.
Lemma one_minus t : fin t = true -> / 2 <= val t <= 1 -> fin (sub64 (of_Z64 1) t) = true /\ val (sub64 (of_Z64 1) t) = 1 - val t.
Proof.
  intros F H. destruct val_1 as [V1 F1]. assert (D : dyadic (val t)) by (apply upper_half_dyadic; [apply format64|exact H]).
  destruct (sub64_b (of_Z64 1) t F1 F) as [A C]. { rewrite V1, Rabs_right by lra. apply Rle_trans with (B 0); [cbn; lra|apply bpow_le; lia]. } split; [exact A|]. rewrite C, V1. apply dyadic_exact, dyadic_compl, D.
Qed.

(** The interpolation, as a function of the values. *)
Definition Lv (a b t : R) : R := let d := rnd64 (b - a) in if Rle_bool (/ 2) t then rnd64 (b - rnd64 (d * (1 - t))) else rnd64 (a + rnd64 (d * t)).
Lemma Bleb_val x y : fin x = true -> fin y = true -> Bleb x y = Rle_bool (val x) (val y).
Proof. intros. apply Bleb_correct; assumption. Qed.
Section lerp.
Variables a b : b64.
Hypothesis Fa : fin a = true. Hypothesis Fb : fin b = true.
Hypothesis Ma : Rabs (val a) <= B 1022. Hypothesis Mb : Rabs (val b) <= B 1022.
Hypothesis AB : val a <= val b.
Let x := val b - val a.
Let d := rnd64 x.
Lemma x_range : 0 <= x <= B 1023.
Proof. unfold x. apply Rabs_le_inv in Ma, Mb. assert (B 1023 = 2 * B 1022) by (change 1023%Z with (1 + 1022)%Z; rewrite bpow_plus; reflexivity). split; lra. Qed.
Lemma d_ok : fin (sub64 b a) = true /\ val (sub64 b a) = d /\ 0 <= d <= B 1023.
Proof.
  pose proof x_range as X. destruct (sub64_b b a Fb Fa) as [F V]. { fold x. rewrite Rabs_right by lra. lra. } split; [exact F|]. split; [exact V|]. split; [apply rnd64_pos; lra|]. pose proof (rnd64_bound x 1023 ltac:(lia)) as Q. rewrite Rabs_right in Q by lra. specialize (Q (proj2 X)). apply Rabs_le_inv in Q. unfold d. lra.
Qed.
Lemma lower_ok t : 0 <= t < / 2 -> t <= / 2 - B (-54) -> 0 <= rnd64 (d * t) /\ rnd64 (d * t) + rnd64 (d / 2) <= x.
Proof.
  intros T T'. destruct d_ok as (_ & _ & D). destruct (diff_grid a b) as [k K]. pose proof (halves x k K (proj1 x_range)) as H. cbn beta zeta in H. fold d in H. split; [apply rnd64_pos, Rmult_le_pos; lra|].
  assert (rnd64 (d * t) <= rnd64 (d * (/ 2 - B (-54)))) by (apply rnd64_le, Rmult_le_compat_l; lra). lra.
Qed.
Lemma upper_ok t : / 2 <= t <= 1 -> 0 <= rnd64 (d * (1 - t)) <= rnd64 (d / 2).
Proof. intros T. destruct d_ok as (_ & _ & D). split; [apply rnd64_pos, Rmult_le_pos; lra|]. unfold Rdiv. apply rnd64_le, Rmult_le_compat_l; lra. Qed.
Lemma half_ok : rnd64 (d / 2) <= x.
Proof. assert (T : 0 <= 0 < / 2) by lra. assert (T' : 0 <= / 2 - B (-54)) by (assert (B (-54) <= / 4) by (change (/ 4) with (B (-2)); apply bpow_le; lia); lra). destruct (lower_ok 0 T T') as [H1 H2]. lra. Qed.
Lemma half_nn : 0 <= rnd64 (d / 2).
Proof. destruct d_ok as (_ & _ & D). apply rnd64_pos. lra. Qed.
Lemma between u : val a <= u <= val b -> val a <= rnd64 u <= val b.
Proof. intros [H1 H2]. rewrite <- (rnd64_val a), <- (rnd64_val b). split; apply rnd64_le; assumption. Qed.
Lemma in_range_abs u : val a <= u <= val b -> Rabs u <= B 1023.
Proof. intros [H1 H2]. apply Rabs_le_inv in Ma, Mb. assert (B 1022 <= B 1023) by (apply bpow_le; lia). apply Rabs_le. lra. Qed.
Lemma lerp_ok t : fin t = true -> 0 <= val t <= 1 -> fin (f_lerp a b t) = true /\ val (f_lerp a b t) = Lv (val a) (val b) (val t) /\ val a <= val (f_lerp a b t) <= val b.
Proof.
  intros Ft T. destruct d_ok as (Fd & Vd & D). destruct half64_val as [Vh Fh]. unfold f_lerp, Lv. cbn zeta. fold x. fold d. rewrite (Bleb_val half64 t Fh Ft), Vh. case Rle_bool_spec; intros Ht.
  - destruct (one_minus t Ft) as [Fo Vo]; [lra|]. pose proof (upper_ok (val t) ltac:(lra)) as U. pose proof half_ok as HO.
    destruct (mul64_b (sub64 b a) (sub64 (of_Z64 1) t) Fd Fo) as [Fm Vm]. { rewrite Vd, Vo, Rabs_right by (apply Rle_ge, Rmult_le_pos; lra). rewrite <- (Rmult_1_r (B 1023)). apply Rmult_le_compat; lra. }
    rewrite Vd, Vo in Vm. assert (R : val a <= val b - rnd64 (d * (1 - val t)) <= val b) by (unfold x in HO; lra).
    destruct (sub64_b b _ Fb Fm) as [Fs Vs]. { rewrite Vm. apply in_range_abs, R. } rewrite Vm in Vs. split; [exact Fs|]. split; [exact Vs|]. rewrite Vs. apply between, R.
  - pose proof (below_half t Ht) as T'. destruct (lower_ok (val t) ltac:(lra) T') as [L1 L2]. pose proof half_nn as HN.
    destruct (mul64_b (sub64 b a) t Fd Ft) as [Fm Vm]. { rewrite Vd, Rabs_right by (apply Rle_ge, Rmult_le_pos; lra). rewrite <- (Rmult_1_r (B 1023)). apply Rmult_le_compat; lra. }
    rewrite Vd in Vm. assert (R : val a <= val a + rnd64 (d * val t) <= val b) by (unfold x in L2; lra).
    destruct (add64_b a _ Fa Fm) as [Fs Vs]. { rewrite Vm. apply in_range_abs, R. } rewrite Vm in Vs. split; [exact Fs|]. split; [exact Vs|]. rewrite Vs. apply between, R.
Qed.
Lemma lerp_mono t t' : fin t = true -> fin t' = true -> 0 <= val t <= val t' -> val t' <= 1 -> val (f_lerp a b t) <= val (f_lerp a b t').
Proof.
  intros Ft Ft' T T1. destruct (lerp_ok t Ft ltac:(lra)) as (_ & V & _). destruct (lerp_ok t' Ft' ltac:(lra)) as (_ & V' & _). rewrite V, V'. destruct d_ok as (_ & _ & D). unfold Lv. cbn zeta. fold x. fold d.
  case Rle_bool_spec; intros H; case Rle_bool_spec; intros H'; try lra.
  - apply rnd64_le. assert (rnd64 (d * (1 - val t')) <= rnd64 (d * (1 - val t))) by (apply rnd64_le, Rmult_le_compat_l; lra). lra.
  - apply rnd64_le. destruct (lower_ok (val t) ltac:(lra) (below_half t H)) as [_ L]. pose proof (upper_ok (val t') ltac:(lra)) as U. unfold x in L. lra.
  - apply rnd64_le. assert (rnd64 (d * val t) <= rnd64 (d * val t')) by (apply rnd64_le, Rmult_le_compat_l; lra). lra.
Qed.
Lemma lerp_0 t : fin t = true -> val t = 0 -> val (f_lerp a b t) = val a.
Proof. intros Ft T. destruct (lerp_ok t Ft ltac:(lra)) as (_ & V & _). rewrite V, T. unfold Lv. cbn zeta. case Rle_bool_spec; intros H; [lra|]. rewrite Rmult_0_r, rnd64_0, Rplus_0_r. apply rnd64_val. Qed.
Lemma lerp_1 t : fin t = true -> val t = 1 -> val (f_lerp a b t) = val b.
Proof. intros Ft T. destruct (lerp_ok t Ft ltac:(lra)) as (_ & V & _). rewrite V, T. unfold Lv. cbn zeta. case Rle_bool_spec; intros H; [|lra]. replace (1 - 1) with 0 by ring. rewrite Rmult_0_r, rnd64_0, Rminus_0_r. apply rnd64_val. Qed.
End lerp.
