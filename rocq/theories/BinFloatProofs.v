(** Proofs for C84. *)
From Coq Require Import ZArith Reals Lra Lia.
Require Import Flocq.Core.Core Flocq.IEEE754.BinarySingleNaN.
From Verif Require Import Base ProcFloat InterpFloatProofs MeshFloatModel MeshFloatProofs BinModel BinFloatModel BinFloatSpec.
Local Open Scope list_scope. Local Open Scope R_scope.

Lemma floor_int64_val x : fin x = true -> (- 2 ^ 63 <= Zfloor (val x) < 2 ^ 63)%Z -> floor_int64 x = Zfloor (val x).
Proof.
  intros F H. rewrite <- (ffloor_val x F) in *. destruct x as [s|s| |s m e h]; try discriminate; [reflexivity|].
  cbn [ffloor floor_int64] in *. cbv zeta in *. set (f := if (0 <=? e)%Z then _ else _) in *. destruct H as [H1 H2]. apply Z.leb_le in H1. apply Z.ltb_lt in H2. rewrite H1, H2. reflexivity.
Qed.
Lemma floor_int64_out x : fin x = false \/ (2 ^ 63 <= Zfloor (val x))%Z \/ (Zfloor (val x) < - 2 ^ 63)%Z -> floor_int64 x = (- 2 ^ 63)%Z.
Proof.
  destruct (fin x) eqn:F.
  - intros [H|H]; [discriminate|]. rewrite <- (ffloor_val x F) in *. destruct x as [s|s| |s m e h]; try discriminate; [cbn in H; lia|].
    cbn [ffloor floor_int64] in *. cbv zeta in *. set (f := if (0 <=? e)%Z then _ else _) in *.
    destruct (Z.leb_spec (- 2 ^ 63) f); [|reflexivity]. destruct (Z.ltb_spec f (2 ^ 63)); [lia|reflexivity].
  - intros _. destruct x; try discriminate; reflexivity.
Qed.
Lemma Zfloor_le_iff x i : (i <= Zfloor x)%Z <-> IZR i <= x.
Proof.
  split; intros H.
  - apply Rle_trans with (IZR (Zfloor x)); [apply IZR_le, H|apply Zfloor_lb].
  - apply Zfloor_lub, H.
Qed.
Lemma Zfloor_lt_iff x i : (Zfloor x < i)%Z <-> x < IZR i.
Proof. pose proof (Zfloor_le_iff x i). split; intros A; [apply Rnot_le_lt; intros Q; apply H in Q; lia|apply Z.nle_gt; intros Q; apply H in Q; lra]. Qed.

Lemma B52 : B 49 = 562949953421312. Proof. reflexivity. Qed.
Lemma minus_rel x y : exists d, Rabs d <= B (-53) /\ rnd64 (val x - val y) = (val x - val y) * (1 + d).
Proof.
  destruct (plus_rel x (Bopp y)) as (d & Hd & E). exists d. split; [exact Hd|]. unfold val in *. rewrite B2R_Bopp in E. exact E.
Qed.
Lemma step_facts s : fits s -> exists d1 d2, Rabs d1 <= B (-53) /\ Rabs d2 <= B (-53) /\ fin (f_step s) = true /\
  val (f_step s) = (val (fb_e s) - val (fb_b s)) * (1 + d1) / IZR (fb_n s) * (1 + d2) /\ B (-1000) <= val (f_step s) <= B 902 /\ val (f_step s) <= val (f_span s) /\
  fin (f_span s) = true /\ val (f_span s) = (val (fb_e s) - val (fb_b s)) * (1 + d1) /\ val (f_step s) = rnd64 (val (f_span s) / IZR (fb_n s)).
Proof.
  intros ((Hn & Hn') & Fb & Fe & Hw & Hb & He). destruct (of_Z64_exact (fb_n s) ltac:(lia)) as [Vn Fn].
  assert (Pn : 1 <= IZR (fb_n s)) by (apply (IZR_le 1); lia).
  assert (Pn' : IZR (fb_n s) <= B 49) by (rewrite B52; apply IZR_le; lia).
  destruct (minus_rel (fb_e s) (fb_b s)) as (d1 & Hd1 & E1). apply Rabs_le_inv in Hb, He.
  assert (B901 : B 901 = 2 * B 900) by (change 901%Z with (1 + 900)%Z; rewrite bpow_plus; reflexivity).
  destruct (sub64_b (fb_e s) (fb_b s) Fe Fb) as [Fs Vs].
  { apply Rabs_le. assert (B 901 <= B 1023) by (apply bpow_le; lia). lra. }
  fold (f_span s) in Fs, Vs. pose proof (u_pos (-900)) as P9.
  assert (S9 : B (-900) <= val (f_span s) <= B 901).
  { rewrite Vs. split; [rewrite <- (bpow64 (-900)) by lia|rewrite <- (bpow64 901) by lia]; apply rnd64_le; lra. }
  assert (Qb : B (-949) <= val (f_span s) / IZR (fb_n s) <= val (f_span s)).
  { split.
    - apply Rmult_le_reg_r with (IZR (fb_n s)); [lra|]. unfold Rdiv. rewrite Rmult_assoc, Rinv_l, Rmult_1_r by lra.
      apply Rle_trans with (B (-949) * B 49); [apply Rmult_le_compat_l; [apply bpow_ge_0|exact Pn']|]. rewrite <- bpow_plus. exact (proj1 S9).
    - apply Rmult_le_reg_r with (IZR (fb_n s)); [lra|]. unfold Rdiv. rewrite Rmult_assoc, Rinv_l, Rmult_1_r by lra.
      rewrite <- (Rmult_1_r (val (f_span s))) at 1. apply Rmult_le_compat_l; lra. }
  pose proof (u_pos (-949)) as P949.
  destruct (div64_b (f_span s) (of_Z64 (fb_n s)) Fs) as [Fst Vst].
  { rewrite Vn. lra. }
  { rewrite Vn, Rabs_right by lra. apply Rle_trans with (B 901); [lra|]. apply bpow_le. lia. }
  rewrite Vn in Vst. fold (f_step s) in Fst, Vst.
  destruct (rel_err (val (f_span s) / IZR (fb_n s))) as (d2 & Hd2 & E2).
  { right. rewrite Rabs_right by lra. apply Rle_trans with (B (-949)); [apply bpow_le; lia|lra]. }
  exists d1, d2. rewrite Vst. rewrite Vs, E1 in E2. rewrite Vs, E1 in *. split; [exact Hd1|]. split; [exact Hd2|]. split; [exact Fst|]. split; [exact E2|].
  assert (R1 : B (-949) <= rnd64 ((val (fb_e s) - val (fb_b s)) * (1 + d1) / IZR (fb_n s))) by (rewrite <- (bpow64 (-949)) by lia; apply rnd64_le; lra).
  assert (R2 : rnd64 ((val (fb_e s) - val (fb_b s)) * (1 + d1) / IZR (fb_n s)) <= (val (fb_e s) - val (fb_b s)) * (1 + d1)).
  { apply Rle_trans with (rnd64 (val (f_span s))); [apply rnd64_le; rewrite Vs; lra|rewrite rnd64_val, Vs; lra]. }
  split; [split|].
  - apply Rle_trans with (B (-949)); [apply bpow_le; lia|exact R1].
  - apply Rle_trans with (B 901); [lra|apply bpow_le; lia].
  - split; [exact R2|]. split; [exact Fs|]. split; reflexivity.
Qed.
Lemma step_pos s : fits s -> 0 < val (f_step s).
Proof. intros H. destruct (step_facts s H) as (d1 & d2 & _ & _ & _ & _ & S & _). pose proof (u_pos (-1000)). lra. Qed.
(** The quotient that is floored. *)
Definition quot (s : fbins) (x : b64) : R := rnd64 (rnd64 (val x - val (fb_b s)) / val (f_step s)).
Lemma quot_ok s x : fits s -> fin x = true -> Rabs (val x - val (fb_b s)) <= B 1020 -> Rabs (quot s x) <= B 62 ->
  Rabs (rnd64 (val x - val (fb_b s)) / val (f_step s)) <= B 1023 ->
  fin (div64 (sub64 x (fb_b s)) (f_step s)) = true /\ val (div64 (sub64 x (fb_b s)) (f_step s)) = quot s x /\ floor_int64 (div64 (sub64 x (fb_b s)) (f_step s)) = Zfloor (quot s x).
Proof.
  intros H Fx Hx Hq Hq2. pose proof (step_pos s H) as SP. destruct H as (Hn & Fb & _).
  destruct (sub64_b x (fb_b s) Fx Fb) as [Fs Vs]; [eapply Rle_trans; [exact Hx|]; apply bpow_le; lia|].
  destruct (div64_b (sub64 x (fb_b s)) (f_step s) Fs) as [Fd Vd]; [lra|rewrite Vs; exact Hq2|]. rewrite Vs in Vd. fold (quot s x) in Vd.
  split; [exact Fd|]. split; [exact Vd|]. rewrite floor_int64_val; [rewrite Vd; reflexivity|exact Fd|]. rewrite Vd. apply Rabs_le_inv in Hq.
  change (B 62) with (IZR (2 ^ 62)) in Hq. split.
  - apply Zfloor_le_iff. apply Rle_trans with (- IZR (2 ^ 62)); [rewrite <- opp_IZR; apply IZR_le; lia|lra].
  - apply Zfloor_lt_iff. apply Rle_lt_trans with (IZR (2 ^ 62)); [lra|apply IZR_lt; lia].
Qed.
Lemma reach_quot s x : fits s -> in_reach s x -> Rabs (rnd64 (val x - val (fb_b s)) / val (f_step s)) <= B 61 /\ Rabs (quot s x) <= B 61 /\
  f_locate s x = zclip (-1) (fb_n s) (Zfloor (quot s x)).
Proof.
  intros H [Fx Hx]. pose proof (step_pos s H) as SP. destruct (minus_rel x (fb_b s)) as (d & Hd & E).
  pose proof small_facts as (_ & _ & _). destruct small_facts as ((U0 & U1) & _).
  assert (A : Rabs (rnd64 (val x - val (fb_b s)) / val (f_step s)) <= B 61).
  { rewrite E. unfold Rdiv. rewrite !Rabs_mult, (Rabs_inv (val (f_step s))), (Rabs_right (val (f_step s))) by lra.
    apply Rmult_le_reg_r with (val (f_step s)); [exact SP|]. rewrite !Rmult_assoc, Rinv_l, Rmult_1_r by lra.
    assert (Rabs (1 + d) <= 2) by (apply Rabs_le_inv in Hd; apply Rabs_le; lra). replace (B 61) with (B 60 * 2) by (change 61%Z with (60 + 1)%Z; rewrite bpow_plus; reflexivity).
    apply Rle_trans with (B 60 * val (f_step s) * 2); [apply Rmult_le_compat; try apply Rabs_pos; assumption|lra]. }
  assert (Q : Rabs (quot s x) <= B 61) by (apply rnd64_bound; [lia|exact A]).
  split; [exact A|]. split; [exact Q|]. unfold f_locate. destruct (quot_ok s x H Fx) as (_ & _ & L).
  - eapply Rle_trans; [exact Hx|]. destruct (step_facts s H) as (d1 & d2 & _ & _ & _ & _ & (_ & S) & _).
    apply Rle_trans with (B 60 * B 902); [apply Rmult_le_compat_l; [apply bpow_ge_0|exact S]|]. rewrite <- bpow_plus. apply bpow_le. lia.
  - eapply Rle_trans; [exact Q|]. apply bpow_le; lia.
  - eapply Rle_trans; [exact A|]. apply bpow_le; lia.
  - rewrite L. reflexivity.
Qed.

Lemma zclip_ge i n j : (-1 <= i <= n)%Z -> (i <= zclip (-1) n j)%Z <-> (i <= j \/ i = -1)%Z.
Proof. unfold zclip. lia. Qed.
Lemma locate_ge s x i : fits s -> in_reach s x -> (0 <= i <= fb_n s)%Z -> (i <= f_locate s x)%Z <-> IZR i <= quot s x.
Proof.
  intros H R Hi. destruct (reach_quot s x H R) as (_ & _ & ->). rewrite zclip_ge by lia. rewrite Zfloor_le_iff. split; [intros [A|A]; [exact A|lia]|auto].
Qed.
Lemma quot_mono s x y : fits s -> val x <= val y -> quot s x <= quot s y.
Proof.
  intros H L. pose proof (step_pos s H) as SP. unfold quot. apply rnd64_le. apply div_le_compat; [exact SP|]. apply rnd64_le. lra.
Qed.
Lemma locate_range s x : (0 < fb_n s)%Z -> (-1 <= f_locate s x <= fb_n s)%Z.
Proof. intros H. unfold f_locate, zclip. lia. Qed.
Lemma locate_mono s x y : fits s -> in_reach s x -> in_reach s y -> val x <= val y -> (f_locate s x <= f_locate s y)%Z.
Proof.
  intros H Rx Ry L. destruct (reach_quot s x H Rx) as (_ & _ & ->). destruct (reach_quot s y H Ry) as (_ & _ & ->).
  pose proof (quot_mono s x y H L) as Q. pose proof (Zfloor_le _ _ Q). unfold zclip. lia.
Qed.
Lemma locate_inside s x : fits s -> in_reach s x -> val (fb_b s) <= val x -> (0 <= f_locate s x)%Z.
Proof.
  intros H R L. apply locate_ge; [exact H|exact R|destruct H as (H & _); lia|].
  pose proof (step_pos s H) as SP. change (IZR 0) with 0. unfold quot. rewrite <- rnd64_0. apply rnd64_le. apply Rle_mult_inv_pos; [|exact SP].
  rewrite <- rnd64_0. apply rnd64_le. lra.
Qed.
(** Relative margins around the exact edges. *)
Lemma edge_above s x i : fits s -> in_reach s x -> (1 <= i <= fb_n s)%Z ->
  IZR i * ((val (fb_e s) - val (fb_b s)) / IZR (fb_n s)) * (1 + B (-50)) <= val x - val (fb_b s) -> (i <= f_locate s x)%Z.
Proof.
  intros H R Hi L. apply locate_ge; [exact H|exact R|lia|]. pose proof H as H'. destruct H' as ((Hn & Hn') & _ & _ & Hw & _). pose proof (u_pos (-900)) as P9.
  destruct (step_facts s H) as (d1 & d2 & Hd1 & Hd2 & _ & VS & _). pose proof (step_pos s H) as SP.
  destruct (minus_rel x (fb_b s)) as (d & Hd & E). unfold quot. rewrite E. destruct small_facts as ((U0 & U1) & _ & _ & _ & U50 & _).
  replace (IZR i) with (rnd64 (IZR i)); [apply rnd64_le|].
  2:{ pose proof (format_int i 0 ltac:(lia) ltac:(lia)) as FI. cbn [bpow] in FI. rewrite Rmult_1_r in FI. exact FI. }
  set (w := (val (fb_e s) - val (fb_b s)) / IZR (fb_n s)) in *. assert (Pn : 1 <= IZR (fb_n s)) by (apply (IZR_le 1); lia). assert (Pi : 1 <= IZR i) by (apply (IZR_le 1); lia).
  assert (W : 0 < w) by (apply Rdiv_lt_0_compat; lra).
  assert (VS' : val (f_step s) = w * ((1 + d1) * (1 + d2))) by (rewrite VS; unfold w; field; lra).
  apply Rabs_le_inv in Hd, Hd1, Hd2. set (u := B (-53)) in *.
  apply Rmult_le_reg_r with (val (f_step s)); [exact SP|]. unfold Rdiv. rewrite Rmult_assoc, Rinv_l, Rmult_1_r by lra. rewrite VS'.
  apply Rle_trans with (IZR i * w * ((1 + u) * (1 + u))).
  { rewrite Rmult_assoc. apply Rmult_le_compat_l; [lra|]. apply Rmult_le_compat_l; [lra|]. apply Rmult_le_compat; lra. }
  apply Rle_trans with ((IZR i * w * (1 + B (-50))) * (1 - u)).
  { assert (0 < IZR i * w) by (apply Rmult_lt_0_compat; lra). rewrite (Rmult_assoc (IZR i * w)). apply Rmult_le_compat_l; [lra|]. rewrite U50. nra. }
  assert (0 < IZR i * w) by (apply Rmult_lt_0_compat; lra).
  apply Rmult_le_compat; [|lra|exact L|lra]. apply Rmult_le_pos; [lra|]. rewrite U50. lra.
Qed.
Lemma edge_below s x i : fits s -> in_reach s x -> (1 <= i <= fb_n s)%Z ->
  val x - val (fb_b s) < IZR i * ((val (fb_e s) - val (fb_b s)) / IZR (fb_n s)) * (1 - B (-50)) -> (f_locate s x < i)%Z.
Proof.
  intros H R Hi L. apply Z.nle_gt. intros G. apply (locate_ge s x i H R ltac:(lia)) in G. revert G. apply Rlt_not_le.
  pose proof H as H'. destruct H' as ((Hn & Hn') & _ & _ & Hw & _). pose proof (u_pos (-900)) as P9.
  destruct (step_facts s H) as (d1 & d2 & Hd1 & Hd2 & _ & VS & _). pose proof (step_pos s H) as SP.
  destruct (minus_rel x (fb_b s)) as (d & Hd & E). unfold quot. rewrite E. destruct small_facts as ((U0 & U1) & (U2 & U3) & _ & _ & U50 & _).
  set (w := (val (fb_e s) - val (fb_b s)) / IZR (fb_n s)) in *. assert (Pn : 1 <= IZR (fb_n s)) by (apply (IZR_le 1); lia). assert (Pi : 1 <= IZR i) by (apply (IZR_le 1); lia).
  assert (W : 0 < w) by (apply Rdiv_lt_0_compat; lra).
  assert (VS' : val (f_step s) = w * ((1 + d1) * (1 + d2))) by (rewrite VS; unfold w; field; lra).
  apply Rabs_le_inv in Hd, Hd1, Hd2. set (u := B (-53)) in *. assert (IW : 0 < IZR i * w) by (apply Rmult_lt_0_compat; lra).
  assert (Q : (val x - val (fb_b s)) * (1 + d) / val (f_step s) <= IZR i * (1 - 4 * u)).
  { apply Rmult_le_reg_r with (val (f_step s)); [exact SP|]. unfold Rdiv. rewrite Rmult_assoc, Rinv_l, Rmult_1_r by lra.
    apply Rle_trans with (IZR i * w * (1 - B (-50)) * (1 + u)).
    - destruct (Rle_or_lt 0 (val x - val (fb_b s))) as [N|N].
      + apply Rmult_le_compat; lra.
      + apply Rle_trans with 0; [|apply Rmult_le_pos; [apply Rmult_le_pos; [lra|rewrite U50; lra]|lra]]. assert (0 < 1 + d) by lra. nra.
    - rewrite VS'. apply Rle_trans with (IZR i * w * ((1 - 4 * u) * ((1 - u) * (1 - u)))).
      + rewrite (Rmult_assoc (IZR i * w)). apply Rmult_le_compat_l; [lra|]. rewrite U50. nra.
      + replace (IZR i * (1 - 4 * u) * (w * ((1 + d1) * (1 + d2)))) with (IZR i * w * ((1 - 4 * u) * ((1 + d1) * (1 + d2)))) by ring.
        apply Rmult_le_compat_l; [lra|]. apply Rmult_le_compat_l; [lra|]. apply Rmult_le_compat; lra. }
  apply Rle_lt_trans with (rnd64 (IZR i * (1 - 4 * u))); [apply rnd64_le, Q|].
  destruct (err64 (IZR i * (1 - 4 * u))) as (d' & e' & Hd' & He' & _ & ->). apply Rabs_le_inv in Hd', He'. fold u in Hd'.
  assert (IZR i * (1 - 4 * u) * (1 + d') <= IZR i * (1 - 2 * u)).
  { rewrite Rmult_assoc. apply Rmult_le_compat_l; [lra|]. nra. }
  assert (e' < IZR i * (2 * u)). { apply Rle_lt_trans with (u * / 1024); [lra|]. nra. }
  lra.
Qed.
Lemma below_range s x : fits s -> in_reach s x -> val x < val (fb_b s) ->
  f_locate s x = (-1)%Z \/ (f_locate s x = 0%Z /\ val (fb_b s) - val x <= B (-1074) * val (f_step s)).
Proof.
  intros H R L. pose proof (step_pos s H) as SP. destruct (reach_quot s x H R) as (_ & _ & EL). pose proof (locate_range s x ltac:(destruct H as (H & _); lia)) as RG.
  destruct (minus_rel x (fb_b s)) as (d & Hd & E). destruct small_facts as ((U0 & U1) & _). apply Rabs_le_inv in Hd.
  assert (Q0 : quot s x <= 0).
  { unfold quot. rewrite <- rnd64_0. apply rnd64_le. rewrite E. assert (0 < / val (f_step s)) by (apply Rinv_0_lt_compat, SP).
    assert ((val x - val (fb_b s)) * (1 + d) <= 0) by nra. unfold Rdiv. nra. }
  destruct (Rlt_or_le (quot s x) 0) as [N|N].
  - left. rewrite EL. assert (Zfloor (quot s x) < 0)%Z by (apply Zfloor_lt_iff; exact N). destruct H as ((H & _) & _). unfold zclip. lia.
  - right. assert (Z0 : quot s x = 0) by lra. split.
    + rewrite EL, Z0. change 0 with (IZR 0). rewrite Zfloor_IZR. destruct H as ((H & _) & _). unfold zclip. lia.
    + apply Rnot_lt_le. intros C. unfold quot in Z0. set (q := rnd64 (val x - val (fb_b s)) / val (f_step s)) in *.
      assert (Hq : q <= - B (-1074) * (1 - B (-53))).
      { unfold q. rewrite E. apply Rmult_le_reg_r with (val (f_step s)); [exact SP|]. unfold Rdiv. rewrite Rmult_assoc, Rinv_l, Rmult_1_r by lra. pose proof (u_pos (-1074)). 
        apply Rle_trans with ((val x - val (fb_b s)) * (1 - B (-53))).
        - apply Rmult_le_compat_neg_l; lra.
        - replace (- B (-1074) * (1 - B (-53)) * val (f_step s)) with (- (B (-1074) * val (f_step s)) * (1 - B (-53))) by ring. apply Rmult_le_compat_r; lra. }
      destruct (err64 q) as (d' & e' & Hd' & He' & _ & Eq). rewrite Eq in Z0. apply Rabs_le_inv in Hd', He'.
      assert (B75 : B (-1074) = 2 * B (-1075)) by (change (-1074)%Z with (1 + -1075)%Z; rewrite bpow_plus; reflexivity). rewrite B75 in Hq. pose proof (u_pos (-1075)) as P.
      assert (q <= - (3 / 2) * B (-1075)) by nra. assert (q * (1 + d') <= - (5 / 4) * B (-1075)) by nra. lra.
Qed.
(** ** far away *)
Lemma locate_far s x : (0 < fb_n s)%Z -> fin (div64 (sub64 x (fb_b s)) (f_step s)) = false -> f_locate s x = (-1)%Z.
Proof. intros H F. unfold f_locate. rewrite floor_int64_out by (left; exact F). unfold zclip. lia. Qed.
Lemma locate_huge s x : fits s -> fin x = true -> B 64 * val (f_step s) <= val x - val (fb_b s) -> f_locate s x = (-1)%Z.
Proof.
  intros H Fx L. assert (Hn : (0 < fb_n s)%Z) by apply H. pose proof (step_pos s H) as SP. pose proof H as H'. destruct H' as (_ & Fb & _).
  destruct (fin (div64 (sub64 x (fb_b s)) (f_step s))) eqn:F; [|apply locate_far; assumption].
  pose proof (@Bminus_correct 53 1024 p53 pe53 mode_NE x (fb_b s) Fx Fb) as C. cbn [round_mode] in C. fold (val x) (val (fb_b s)) in C. fold (sub64 x (fb_b s)) in C.
  pose proof (@Bdiv_correct 53 1024 p53 pe53 mode_NE (sub64 x (fb_b s)) (f_step s) ltac:(fold (val (f_step s)); lra)) as D. cbn [round_mode] in D. fold (div64 (sub64 x (fb_b s)) (f_step s)) in D.
  assert (FF : forall v : b64, B2SF v = SpecFloat.S754_infinity (Bsign x) \/ is_nan v = true \/ (exists sg, B2SF v = SpecFloat.S754_infinity sg) -> fin v = false).
  { intros v [E|[E|[sg E]]]; destruct v; try discriminate; reflexivity. }
  destruct (Rlt_bool_spec (Rabs (rnd64 (val x - val (fb_b s)))) (bpow radix2 1024)) as [A|A].
  - destruct C as (V & Fs & _). fold (val (sub64 x (fb_b s))) in V, D. fold (val (f_step s)) in D.
    destruct (Rlt_bool_spec (Rabs (rnd64 (val (sub64 x (fb_b s)) / val (f_step s)))) (bpow radix2 1024)) as [A'|A'].
    + destruct D as (VD & _ & _). fold (val (div64 (sub64 x (fb_b s)) (f_step s))) in VD. unfold f_locate. rewrite floor_int64_out; [unfold zclip; lia|]. right. left.
      apply Zfloor_le_iff. rewrite VD. change (IZR (2 ^ 63)) with (B 63). rewrite <- (bpow64 63) by lia. apply rnd64_le. rewrite V.
      apply Rmult_le_reg_r with (val (f_step s)); [exact SP|]. unfold Rdiv. rewrite Rmult_assoc, Rinv_l, Rmult_1_r by lra.
      destruct (minus_rel x (fb_b s)) as (d & Hd & E). rewrite E. apply Rabs_le_inv in Hd. destruct small_facts as ((U0 & U1) & _).
      assert (B64' : B 64 = 2 * B 63) by (change 64%Z with (1 + 63)%Z; rewrite bpow_plus; reflexivity). rewrite B64' in L. pose proof (u_pos 63).
      assert (0 < B 63 * val (f_step s)) by (apply Rmult_lt_0_compat; assumption). nra.
    + exfalso. assert (F' : fin (div64 (sub64 x (fb_b s)) (f_step s)) = false); [|congruence]. apply FF. right. right. rewrite D. unfold binary_overflow. cbn. eexists. reflexivity.
  - exfalso. assert (F' : fin (div64 (sub64 x (fb_b s)) (f_step s)) = false); [|congruence].
    destruct C as (C & _). unfold binary_overflow in C. cbn [overflow_to_inf] in C. destruct (sub64 x (fb_b s)) as [| | |]; try discriminate.
    assert (Fst : fin (f_step s) = true) by (destruct (step_facts s H) as (? & ? & _ & _ & F0 & _); exact F0). destruct (f_step s) as [| | |]; try discriminate; reflexivity.
Qed.
(** ** the edges *)
Lemma edge_first s : fits s -> val (f_edge s 0) = val (fb_b s) /\ fin (f_edge s 0) = true.
Proof.
  intros H. pose proof (step_facts s H) as (d1 & d2 & _ & _ & Fst & _). destruct H as ((Hn & _) & Fb & _). unfold f_edge.
  destruct (Z.eqb_spec 0 (fb_n s)) as [E|_]; [lia|]. destruct (of_Z64_exact 0 ltac:(lia)) as [V0 F0].
  destruct (mul64_b (of_Z64 0) (f_step s) F0 Fst) as [Fm Vm]; [rewrite V0, Rmult_0_l, Rabs_R0; apply bpow_ge_0|].
  rewrite V0, Rmult_0_l, rnd64_0 in Vm.
  destruct (add64_ok _ (fb_b s) (fb_b s) Fm Fb Fb) as [Fa Va]; [rewrite Vm, Rplus_0_l, rnd64_val; apply Rle_refl|].
  split; [|exact Fa]. rewrite Va, Vm, Rplus_0_l. apply rnd64_val.
Qed.
Lemma edge_last s : f_edge s (fb_n s) = fb_e s.
Proof. unfold f_edge. rewrite Z.eqb_refl. reflexivity. Qed.
Lemma edge_inner s k : fits s -> (0 <= k < fb_n s)%Z -> let p := rnd64 (IZR k * val (f_step s)) in
  fin (f_edge s k) = true /\ val (f_edge s k) = rnd64 (p + val (fb_b s)) /\ 0 <= p <= val (fb_e s) - val (fb_b s) /\
  exists d, Rabs d <= 4 * B (-53) /\ p = (exact_edge s k - val (fb_b s)) * (1 + d).
Proof.
  intros H Hk p. pose proof H as ((Hn & Hn') & Fb & Fe & Hw & Hb & He). destruct (step_facts s H) as (d1 & d2 & Hd1 & Hd2 & Fst & VS & (S1 & S2) & _).
  destruct (of_Z64_exact k ltac:(lia)) as [Vk Fk]. pose proof (step_pos s H) as SP. assert (Pn : 1 <= IZR (fb_n s)) by (apply (IZR_le 1); lia).
  assert (Pk : 0 <= IZR k) by (apply (IZR_le 0); lia). assert (Pk' : IZR k <= IZR (fb_n s) - 1) by (rewrite <- minus_IZR; apply IZR_le; lia).
  assert (Pn' : IZR (fb_n s) <= B 49) by (rewrite B52; apply IZR_le; lia). pose proof (u_pos (-900)) as P9.
  destruct small_facts as ((U0 & U1) & _). set (u := B (-53)) in *. set (W := val (fb_e s) - val (fb_b s)) in *.
  assert (NS : IZR (fb_n s) * val (f_step s) = W * ((1 + d1) * (1 + d2))) by (rewrite VS; field; lra).
  apply Rabs_le_inv in Hd1, Hd2.
  assert (D12 : 1 - 2 * u <= (1 + d1) * (1 + d2) <= 1 + 2 * u + u * u) by (split; nra).
  destruct (rel_err (IZR k * val (f_step s))) as (d3 & Hd3 & E3).
  { destruct (Z.eq_dec k 0) as [->|Nk]; [left; apply Rmult_0_l|right]. assert (1 <= IZR k) by (apply (IZR_le 1); lia).
    rewrite Rabs_right by (apply Rle_ge, Rmult_le_pos; lra). apply Rle_trans with (B (-1000)); [apply bpow_le; lia|]. nra. }
  fold p in E3. apply Rabs_le_inv in Hd3. fold u in Hd3.
  assert (EX : exact_edge s k - val (fb_b s) = IZR k * (W / IZR (fb_n s))) by (unfold exact_edge; fold W; ring).
  assert (PE : p = (exact_edge s k - val (fb_b s)) * ((1 + d1) * (1 + d2) * (1 + d3))).
  { rewrite E3, EX. replace (val (f_step s)) with (W * ((1 + d1) * (1 + d2)) / IZR (fb_n s)) by (rewrite <- NS; field; lra). field. lra. }
  assert (D3 : - (4 * u) <= (1 + d1) * (1 + d2) * (1 + d3) - 1 <= 4 * u).
  { assert (u * u <= u * / 1024) by (apply Rmult_le_compat_l; lra). set (D := (1 + d1) * (1 + d2)) in *. clearbody D. nra. }
  assert (Pp : 0 <= p) by (unfold p; rewrite <- rnd64_0; apply rnd64_le; apply Rmult_le_pos; lra).
  assert (Pw : p <= W).
  { rewrite PE, EX. set (D := (1 + d1) * (1 + d2) * (1 + d3)) in *. clearbody D.
    assert (KW : IZR k * (W / IZR (fb_n s)) <= W * (1 - / IZR (fb_n s))).
    { replace (IZR k * (W / IZR (fb_n s))) with (W * (IZR k * / IZR (fb_n s))) by (field; lra). apply Rmult_le_compat_l; [lra|].
      apply Rmult_le_reg_r with (IZR (fb_n s)); [lra|]. rewrite Rmult_assoc, Rinv_l, Rmult_1_r by lra. rewrite Rmult_minus_distr_r, Rinv_l by lra. lra. }
    assert (NI : 16 * u <= / IZR (fb_n s)).
    { replace (16 * u) with (/ B 49); [apply Rinv_le; lra|]. rewrite <- bpow_opp. unfold u. change (16 * B (-53)) with (B 4 * B (-53)). rewrite <- bpow_plus. reflexivity. }
    apply Rle_trans with (W * (1 - / IZR (fb_n s)) * D).
    - apply Rmult_le_compat_r; lra.
    - rewrite <- (Rmult_1_r W) at 2. rewrite Rmult_assoc. apply Rmult_le_compat_l; [lra|]. nra. }
  destruct (mul64_b (of_Z64 k) (f_step s) Fk Fst) as [Fm Vm].
  { rewrite Vk, Rabs_right by (apply Rle_ge, Rmult_le_pos; lra). apply Rle_trans with (B 49 * B 902); [apply Rmult_le_compat; lra|]. rewrite <- bpow_plus. apply bpow_le. lia. }
  rewrite Vk in Vm. fold p in Vm. apply Rabs_le_inv in Hb, He.
  destruct (add64_b (mul64 (of_Z64 k) (f_step s)) (fb_b s) Fm Fb) as [Fa Va].
  { rewrite Vm. apply Rabs_le. assert (B 900 <= B 1023) by (apply bpow_le; lia). unfold W in Pw. lra. }
  rewrite Vm in Va. unfold f_edge. destruct (Z.eqb_spec k (fb_n s)) as [E|_]; [lia|]. split; [exact Fa|]. split; [exact Va|]. split; [split; [exact Pp|exact Pw]|].
  exists ((1 + d1) * (1 + d2) * (1 + d3) - 1). split; [apply Rabs_le; exact D3|]. rewrite PE. ring.
Qed.
Lemma edge_fin s k : fits s -> (0 <= k <= fb_n s)%Z -> fin (f_edge s k) = true.
Proof.
  intros H Hk. destruct (Z.eq_dec k (fb_n s)) as [->|N]; [rewrite edge_last; apply H|]. apply edge_inner; [exact H|lia].
Qed.
Lemma edge_sorted s j k : fits s -> (0 <= j <= k)%Z -> (k <= fb_n s)%Z -> val (f_edge s j) <= val (f_edge s k).
Proof.
  intros H Hj Hk. destruct (Z.eq_dec j k) as [->|Nj]; [apply Rle_refl|]. destruct (edge_inner s j H ltac:(lia)) as (_ & Vj & (Pj & Pj') & _).
  pose proof (step_pos s H) as SP.
  destruct (Z.eq_dec k (fb_n s)) as [->|N].
  - rewrite edge_last, Vj. rewrite <- (rnd64_val (fb_e s)). apply rnd64_le. lra.
  - destruct (edge_inner s k H ltac:(lia)) as (_ & Vk & _ & _). rewrite Vj, Vk. apply rnd64_le. apply Rplus_le_compat_r. apply rnd64_le. apply Rmult_le_compat_r; [lra|]. apply IZR_le. lia.
Qed.
Lemma edge_close s k : fits s -> (0 <= k <= fb_n s)%Z -> Rabs (val (f_edge s k) - exact_edge s k) <= B (-50) * (Rabs (val (fb_b s)) + Rabs (val (fb_e s))).
Proof.
  intros H Hk. pose proof (Rabs_pos (val (fb_b s))) as Ab. pose proof (Rabs_pos (val (fb_e s))) as Ae. pose proof (u_pos (-50)) as P50.
  assert (Pn : 1 <= IZR (fb_n s)) by (apply (IZR_le 1); destruct H as (H & _); lia).
  destruct (Z.eq_dec k (fb_n s)) as [->|N].
  - rewrite edge_last. unfold exact_edge. replace (val (fb_e s) - _) with 0 by (field; lra). rewrite Rabs_R0. apply Rmult_le_pos; lra.
  - destruct (edge_inner s k H ltac:(lia)) as (_ & V & (P1 & P2) & d & Hd & E). rewrite V. set (p := rnd64 (IZR k * val (f_step s))) in *.
    assert (SUM : exists d', Rabs d' <= B (-53) /\ rnd64 (p + val (fb_b s)) = (p + val (fb_b s)) * (1 + d')).
    { destruct H as (Hn & Fb & Fe & Hw & Hb & He). destruct (step_facts s ltac:(repeat split; try assumption; apply Hn)) as (d1 & d2 & _ & _ & Fst & _ & (S1 & S2) & _).
      destruct (of_Z64_exact k ltac:(lia)) as [Vk Fk]. destruct (mul64_b (of_Z64 k) (f_step s) Fk Fst) as [Fm Vm].
      { rewrite Vk, Rabs_mult. apply Rle_trans with (B 49 * B 902); [|rewrite <- bpow_plus; apply bpow_le; lia]. apply Rmult_le_compat; try apply Rabs_pos.
        - rewrite <- abs_IZR. rewrite B52. apply IZR_le. lia.
        - pose proof (u_pos (-1000)). rewrite Rabs_right by lra. exact S2. }
      rewrite Vk in Vm. fold p in Vm. rewrite <- Vm. apply plus_rel. }
    destruct SUM as (d' & Hd' & ->). set (X := exact_edge s k) in *. destruct small_facts as ((U0 & U1) & _ & _ & _ & U50 & _). set (u := B (-53)) in *.
    assert (XW : 0 <= X - val (fb_b s) <= Rabs (val (fb_b s)) + Rabs (val (fb_e s))).
    { assert (0 <= IZR k * ((val (fb_e s) - val (fb_b s)) / IZR (fb_n s)) <= val (fb_e s) - val (fb_b s)).
      { destruct H as (Hn & _ & _ & Hw & _). pose proof (u_pos (-900)). assert (0 <= IZR k) by (apply (IZR_le 0); lia). assert (IZR k <= IZR (fb_n s)) by (apply IZR_le; lia).
        replace (IZR k * ((val (fb_e s) - val (fb_b s)) / IZR (fb_n s))) with ((val (fb_e s) - val (fb_b s)) * (IZR k / IZR (fb_n s))) by (field; lra).
        assert (0 <= IZR k / IZR (fb_n s) <= 1). { split; [apply Rle_mult_inv_pos; lra|]. apply Rmult_le_reg_r with (IZR (fb_n s)); [lra|]. unfold Rdiv. rewrite Rmult_assoc, Rinv_l; lra. }
        split; [apply Rmult_le_pos; lra|]. rewrite <- (Rmult_1_r (val (fb_e s) - val (fb_b s))) at 2. apply Rmult_le_compat_l; lra. }
      unfold X, exact_edge. pose proof (Rle_abs (val (fb_e s))). pose proof (Rle_abs (- val (fb_b s))) as Q. rewrite Rabs_Ropp in Q. lra. }
    replace ((p + val (fb_b s)) * (1 + d') - X) with ((X - val (fb_b s)) * d + (p + val (fb_b s)) * d') by (rewrite E; ring).
    assert (PB : Rabs (p + val (fb_b s)) <= (Rabs (val (fb_b s)) + Rabs (val (fb_e s)))).
    { apply Rabs_le. pose proof (Rle_abs (val (fb_e s))). pose proof (Rle_abs (- val (fb_b s))) as Q. rewrite Rabs_Ropp in Q. pose proof (Rle_abs (val (fb_b s))). lra. }
    eapply Rle_trans; [apply Rabs_triang|]. rewrite !Rabs_mult. rewrite (Rabs_right (X - val (fb_b s))) by lra. set (T := Rabs (val (fb_b s)) + Rabs (val (fb_e s))) in *. rewrite U50.
    apply Rle_trans with (T * (4 * u) + T * u); [|nra]. apply Rplus_le_compat; apply Rmult_le_compat; try apply Rabs_pos; lra.
Qed.

Lemma exact_edge_0 s : exact_edge s 0 = val (fb_b s).
Proof. unfold exact_edge. ring. Qed.
Lemma within_one s x : fits s -> in_reach s x -> let j := zclip (-1) (fb_n s) (Zfloor ((val x - val (fb_b s)) / ((val (fb_e s) - val (fb_b s)) / IZR (fb_n s)))) in
  (j - 1 <= f_locate s x <= j + 1)%Z.
Proof.
  intros H R j. pose proof H as ((Hn & Hn') & _ & _ & Hw & _). pose proof (u_pos (-900)) as P9. assert (Pn : 1 <= IZR (fb_n s)) by (apply (IZR_le 1); lia).
  pose proof (locate_range s x Hn) as RG. set (w := (val (fb_e s) - val (fb_b s)) / IZR (fb_n s)) in *. assert (W : 0 < w) by (apply Rdiv_lt_0_compat; lra).
  set (t := (val x - val (fb_b s)) / w) in *. assert (T : val x - val (fb_b s) = t * w) by (unfold t; field; lra).
  assert (C : B (-50) = / 2 * / B 49). { rewrite <- bpow_opp. change (/ 2) with (B (-1)). rewrite <- bpow_plus. reflexivity. }
  assert (NC : forall i, (0 <= i <= fb_n s)%Z -> 0 <= IZR i * B (-50) <= / 2).
  { intros i Hi. pose proof (u_pos (-50)). assert (0 <= IZR i) by (apply (IZR_le 0); lia). split; [apply Rmult_le_pos; lra|]. assert (IZR i <= B 49) by (rewrite B52; apply IZR_le; lia).
    apply Rle_trans with (B 49 * B (-50)); [apply Rmult_le_compat_r; lra|]. rewrite <- bpow_plus. change (B (49 + -50)) with (/ 2). lra. }
  destruct (Rlt_or_le (val x) (val (fb_b s))) as [Lx|Lx].
  - assert (t < 0). { apply Rmult_lt_reg_r with w; [exact W|]. rewrite <- T. lra. }
    assert (Zfloor t < 0)%Z by (apply Zfloor_lt_iff; exact H0). destruct (below_range s x H R Lx) as [E|[E _]]; rewrite E; unfold j, zclip; lia.
  - pose proof (locate_inside s x H R Lx) as L0. assert (T0 : 0 <= t) by (apply Rmult_le_reg_r with w; [exact W|]; rewrite <- T; lra).
    assert (F0 : (0 <= Zfloor t)%Z) by (apply Zfloor_le_iff; exact T0). assert (J : j = Z.min (Zfloor t) (fb_n s)) by (unfold j, zclip; lia).
    assert (FL : forall i, (i <= Zfloor t)%Z <-> IZR i <= t) by (intros; apply Zfloor_le_iff).
    split.
    + destruct (Z.le_gt_cases j 1) as [G|G]; [lia|]. apply edge_above; [exact H|exact R|lia|]. fold w. rewrite T. replace (IZR (j - 1) * w * (1 + B (-50))) with (IZR (j - 1) * (1 + B (-50)) * w) by ring.
      apply Rmult_le_compat_r; [lra|]. pose proof (NC (j - 1)%Z ltac:(lia)). assert (IZR j <= t) by (apply FL; lia). rewrite minus_IZR in *. lra.
    + destruct (Z.le_gt_cases (fb_n s) (j + 1)) as [G|G]; [lia|]. assert (f_locate s x < j + 2)%Z; [|lia]. apply edge_below; [exact H|exact R|lia|]. fold w. rewrite T.
      replace (IZR (j + 2) * w * (1 - B (-50))) with (IZR (j + 2) * (1 - B (-50)) * w) by ring. apply Rmult_lt_compat_r; [exact W|].
      pose proof (NC (j + 2)%Z ltac:(lia)). assert (t < IZR (j + 1)) by (apply Zfloor_lt_iff; lia). rewrite plus_IZR in *. lra.
Qed.
(** A located sample lies in its bin up to the margins. *)
Lemma in_bin s x : fits s -> in_reach s x -> let T := Rabs (val (fb_b s)) + Rabs (val (fb_e s)) in let l := f_locate_bound s x in
  (0 <= l < fb_n s)%Z /\ (l = 0%Z \/ val (f_edge s l) - B (-48) * T <= val x) /\ ((l + 1)%Z = fb_n s \/ val x <= val (f_edge s (l + 1)) + B (-48) * T).
Proof.
  intros H R T l. pose proof H as ((Hn & Hn') & _ & _ & Hw & _). pose proof (u_pos (-900)) as P9. assert (Pn : 1 <= IZR (fb_n s)) by (apply (IZR_le 1); lia).
  set (w := (val (fb_e s) - val (fb_b s)) / IZR (fb_n s)). assert (W : 0 < w) by (apply Rdiv_lt_0_compat; lra).
  assert (LR : (0 <= l < fb_n s)%Z) by (unfold l, f_locate_bound, zclip; lia). split; [exact LR|].
  assert (TP : val (fb_e s) - val (fb_b s) <= T /\ 0 <= T).
  { unfold T. pose proof (Rle_abs (val (fb_e s))). pose proof (Rle_abs (- val (fb_b s))) as Q. rewrite Rabs_Ropp in Q. split; [lra|]. pose proof (Rabs_pos (val (fb_b s))). pose proof (Rabs_pos (val (fb_e s))). lra. }
  assert (IW : forall i, (0 <= i <= fb_n s)%Z -> 0 <= IZR i * w <= T).
  { intros i Hi. assert (0 <= IZR i <= IZR (fb_n s)) by (split; [apply (IZR_le 0)|apply IZR_le]; lia). split; [apply Rmult_le_pos; lra|].
    apply Rle_trans with (IZR (fb_n s) * w); [apply Rmult_le_compat_r; lra|]. unfold w. replace (IZR (fb_n s) * _) with (val (fb_e s) - val (fb_b s)) by (field; lra). lra. }
  destruct small_facts as ((U0 & U1) & _ & _ & _ & U50 & U48). pose proof (u_pos (-50)) as P50. assert (B48 : B (-48) = 4 * B (-50)) by lra.
  assert (LB : (l <= f_locate s x \/ l = 0)%Z) by (unfold l, f_locate_bound, zclip; lia). assert (UB : (f_locate s x <= l \/ l + 1 = fb_n s)%Z) by (unfold l, f_locate_bound, zclip; lia).
  split.
  - destruct (Z.eq_dec l 0) as [E|N]; [left; exact E|right]. pose proof (edge_close s l H ltac:(lia)) as EC. apply Rabs_le_inv in EC. fold T in EC. unfold exact_edge in EC. fold w in EC.
    pose proof (IW l ltac:(lia)) as I. apply Rnot_lt_le. intros C. assert (f_locate s x < l)%Z; [|lia]. apply edge_below; [exact H|exact R|lia|]. fold w.
    assert (IZR l * w * B (-50) <= T * B (-50)) by (apply Rmult_le_compat_r; lra). assert (0 <= T * B (-50)) by (apply Rmult_le_pos; lra). rewrite B48 in C. lra.
  - destruct (Z.eq_dec (l + 1) (fb_n s)) as [E|N]; [left; exact E|right]. pose proof (edge_close s (l + 1) H ltac:(lia)) as EC. apply Rabs_le_inv in EC. fold T in EC. unfold exact_edge in EC. fold w in EC.
    pose proof (IW (l + 1)%Z ltac:(lia)) as I. apply Rnot_lt_le. intros C. assert (l + 1 <= f_locate s x)%Z; [|lia]. apply edge_above; [exact H|exact R|lia|]. fold w.
    assert (IZR (l + 1) * w * B (-50) <= T * B (-50)) by (apply Rmult_le_compat_r; lra). assert (0 <= T * B (-50)) by (apply Rmult_le_pos; lra). rewrite B48 in C. lra.
Qed.
Lemma nearest_two s x : fits s -> in_reach s x -> let l := f_locate_bound s x in let r := f_locate_nearest s x in
  (r = l /\ val x - val (f_edge s l) < val (f_edge s (l + 1)) - val x) \/
  (r = (l + 1)%Z /\ Rabs (val x - val (f_edge s (l + 1))) <= (1 + B (-51)) * Rabs (val x - val (f_edge s l)) /\ val (f_edge s l) <= val x).
Proof.
  intros H R l r. destruct (in_bin s x H R) as (LR & _). fold l in LR. pose proof R as [Fx Hx]. pose proof H as (Hn & Fb & Fe & Hw & Hb & He).
  pose proof (edge_fin s l H ltac:(lia)) as Fl. pose proof (edge_fin s (l + 1) H ltac:(lia)) as Fr. pose proof (edge_sorted s l (l + 1) H ltac:(lia) ltac:(lia)) as LS.
  assert (EB : forall k, (0 <= k <= fb_n s)%Z -> Rabs (val (f_edge s k)) <= B 900).
  { intros k Hk. pose proof (edge_sorted s 0 k H ltac:(lia) ltac:(lia)) as A. pose proof (edge_sorted s k (fb_n s) H ltac:(lia) ltac:(lia)) as C. rewrite (proj1 (edge_first s H)) in A. rewrite edge_last in C.
    apply Rabs_le_inv in Hb, He. apply Rabs_le. lra. }
  destruct (step_facts s H) as (d1 & d2 & _ & _ & _ & _ & (_ & S2) & _).
  assert (XB : Rabs (val x - val (fb_b s)) <= B 962). { eapply Rle_trans; [exact Hx|]. change (B 962) with (B (60 + 902)). rewrite bpow_plus. apply Rmult_le_compat_l; [apply bpow_ge_0|exact S2]. }
  assert (BB : B 962 + B 900 + B 900 <= B 1023).
  { assert (B 900 <= B 962) by (apply bpow_le; lia). assert (4 * B 962 = B 964) by (change 964%Z with (2 + 962)%Z; rewrite bpow_plus; reflexivity). assert (B 964 <= B 1023) by (apply bpow_le; lia). pose proof (u_pos 962). lra. }
  assert (XE : forall k, (0 <= k <= fb_n s)%Z -> Rabs (val x - val (f_edge s k)) <= B 1023).
  { intros k Hk. replace (val x - val (f_edge s k)) with ((val x - val (fb_b s)) + (val (fb_b s) + - val (f_edge s k))) by ring. eapply Rle_trans; [apply Rabs_triang|].
    pose proof (Rabs_triang (val (fb_b s)) (- val (f_edge s k))) as TT. rewrite Rabs_Ropp in TT. pose proof (EB k Hk). lra. }
  destruct (sub64_b x (f_edge s l) Fx Fl (XE l ltac:(lia))) as [F1 V1]. destruct (sub64_b (f_edge s (l + 1)) x Fr Fx) as [F2 V2]; [rewrite Rabs_minus_sym; apply XE; lia|].
  unfold r, f_locate_nearest. fold l. cbv zeta. rewrite (Bltb_correct 53 1024 _ _ F1 F2). fold (val (sub64 x (f_edge s l))) (val (sub64 (f_edge s (l + 1)) x)). rewrite V1, V2.
  destruct (Rlt_bool_spec (rnd64 (val x - val (f_edge s l))) (rnd64 (val (f_edge s (l + 1)) - val x))) as [Q|Q].
  - left. split; [reflexivity|]. apply Rnot_le_lt. intros C. apply rnd64_le in C. lra.
  - right. split; [reflexivity|]. destruct (minus_rel x (f_edge s l)) as (da & Hda & Ea). destruct (minus_rel (f_edge s (l + 1)) x) as (db & Hdb & Eb). rewrite Ea, Eb in Q.
    apply Rabs_le_inv in Hda, Hdb. destruct small_facts as ((U0 & U1) & _ & U51 & _). set (u := B (-53)) in *. set (a := val x - val (f_edge s l)) in *. set (b := val (f_edge s (l + 1)) - val x) in *.
    assert (SB : 0 <= a + b) by (unfold a, b; lra). assert (A0 : 0 <= a).
    { apply Rnot_lt_le. intros C. assert (0 < b) by lra. assert (a * (1 + da) < 0) by nra. assert (0 < b * (1 + db)) by (apply Rmult_lt_0_compat; lra). lra. }
    split; [|unfold a in A0; lra]. replace (val x - val (f_edge s (l + 1))) with (- b) by (unfold b; ring). rewrite Rabs_Ropp, (Rabs_right a) by lra.
    apply Rabs_le. split; [|].
    + pose proof (u_pos (-51)). nra.
    + destruct (Rle_or_lt b 0) as [B0|B0]; [pose proof (u_pos (-51)); nra|]. rewrite U51.
      assert (b * (1 - u) <= a * (1 + u)). { apply Rle_trans with (b * (1 + db)); [apply Rmult_le_compat_l; lra|]. apply Rle_trans with (a * (1 + da)); [lra|]. apply Rmult_le_compat_l; lra. }
      apply Rmult_le_reg_r with (1 - u); [lra|]. apply Rle_trans with (a * (1 + u)); [lra|]. rewrite (Rmult_comm (1 + 4 * u)), Rmult_assoc. apply Rmult_le_compat_l; [lra|]. nra.
Qed.
Lemma nearest_all s x j : fits s -> in_reach s x -> (0 <= j <= fb_n s)%Z -> let r := f_locate_nearest s x in (0 <= r <= fb_n s)%Z /\
  Rabs (val x - val (f_edge s r)) <= (1 + B (-51)) * Rabs (val x - val (f_edge s j)) + B (-46) * (Rabs (val (fb_b s)) + Rabs (val (fb_e s))).
Proof.
  intros H R Hj r. destruct (in_bin s x H R) as (LR & LO & HI). destruct (nearest_two s x H R) as [(E & C)|(E & C & C')]; fold r in E; rewrite E; set (l := f_locate_bound s x) in *; set (T := Rabs (val (fb_b s)) + Rabs (val (fb_e s))) in *.
  all: split; [lia|].
  all: pose proof (u_pos (-51)) as P51; pose proof (u_pos (-48)) as P48; assert (T0 : 0 <= T) by (unfold T; pose proof (Rabs_pos (val (fb_b s))); pose proof (Rabs_pos (val (fb_e s))); lra);
    assert (E46 : B (-46) = 4 * B (-48)) by (change (-46)%Z with (2 + -48)%Z; rewrite bpow_plus; reflexivity);
    assert (TT : 0 <= B (-48) * T) by (apply Rmult_le_pos; lra); rewrite E46; set (eta := B (-48) * T) in *;
    replace (4 * B (-48) * T) with (4 * eta) by (unfold eta; ring).
  all: pose proof (edge_sorted s l (l + 1) H ltac:(lia) ltac:(lia)) as LS.
  - (* left *)
    assert (X1 : Rabs (val x - val (f_edge s l)) <= Rabs (val x - val (f_edge s j)) + 2 * eta).
    { destruct (Z.eq_dec j l) as [->|N]; [lra|]. destruct (Z.le_gt_cases j l) as [G|G].
      - destruct LO as [LO|LO]; [lia|]. pose proof (edge_sorted s j l H ltac:(lia) ltac:(lia)). unfold Rabs. destruct (Rcase_abs (val x - val (f_edge s l))), (Rcase_abs (val x - val (f_edge s j))); lra.
      - pose proof (edge_sorted s (l + 1) j H ltac:(lia) ltac:(lia)). unfold Rabs. destruct (Rcase_abs (val x - val (f_edge s l))), (Rcase_abs (val x - val (f_edge s j))); lra. }
    pose proof (Rabs_pos (val x - val (f_edge s j))). nra.
  - assert (X1 : Rabs (val x - val (f_edge s (l + 1))) <= (1 + B (-51)) * Rabs (val x - val (f_edge s j)) + 2 * eta).
    { pose proof (Rabs_pos (val x - val (f_edge s j))) as AP. destruct (Z.eq_dec j (l + 1)) as [->|N]; [nra|]. destruct (Z.le_gt_cases j l) as [G|G].
      - pose proof (edge_sorted s j l H ltac:(lia) ltac:(lia)) as SJ. rewrite (Rabs_right (val x - val (f_edge s l))) in C by lra.
        rewrite (Rabs_right (val x - val (f_edge s j))) by lra. nra.
      - destruct HI as [HI|HI]; [lia|]. pose proof (edge_sorted s (l + 1) j H ltac:(lia) ltac:(lia)) as SJ.
        assert (Rabs (val x - val (f_edge s (l + 1))) <= Rabs (val x - val (f_edge s j)) + 2 * eta) by (unfold Rabs; destruct (Rcase_abs (val x - val (f_edge s (l + 1)))), (Rcase_abs (val x - val (f_edge s j))); lra).
        nra. }
    lra.
Qed.
