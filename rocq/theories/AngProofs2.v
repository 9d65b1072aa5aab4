(** Proofs for C93: the nearest image. *)
From Coq Require Import ZArith Reals Lra Lia List Bool.
Require Import Flocq.Core.Core Flocq.IEEE754.BinarySingleNaN.
From Verif Require Import Base ProcModel ProcProofs2 ProcFloat InterpFloatProofs MeshFloatModel MeshFloatProofs BinFloatProofs FredModel FredProofs FquaProofs FquaProofs2 GfltProofs2 GfltProofs3 GfltProofs4.
Import ListNotations. Local Open Scope list_scope. Local Open Scope R_scope.

Lemma half_exact x : B (-1021) <= val x -> rnd64 (val x / 2) = val x / 2.
Proof.
  intros L. pose proof (format64 x) as G. rewrite fexp_FLT in G. apply format_FLT. apply generic_format_FLT.
  destruct (decompose (val x) G) as (m & e & E & M & Ee). { eapply Rle_trans; [|exact L]. apply bpow_le. lia. }
  exists (Float radix2 m (e - 1)); cbn [Fnum Fexp].
  - rewrite E. unfold F2R. cbn [Fnum Fexp]. unfold Zminus. rewrite bpow_plus. change (B (- (1))) with (/ 2). field.
  - change (radix_val radix2 ^ 53)%Z with (2 ^ 53)%Z. lia.
  - destruct (Z.le_gt_cases (-1074) (e - 1)) as [K|K]; [lia|]. exfalso. assert (e = -1074)%Z by lia. subst e. rewrite E in L. apply Rle_not_lt in L. apply L.
    replace (B (-1021)) with (B 53 * B (-1074)) by (rewrite <- bpow_plus; reflexivity). apply Rmult_lt_compat_r; [apply bpow_gt_0|]. change (B 53) with (IZR (2 ^ 53)). apply IZR_lt. lia.
Qed.
Section image.
Variables l r v : b64.
Hypothesis Fl : fin l = true.
Hypothesis Fr : fin r = true.
Hypothesis Fv : fin v = true.
Hypothesis Bl : B (-900) <= val l <= B 900.
Hypothesis Br : Rabs (val r) <= B 900.
Hypothesis Bv : Rabs (val v) <= B 900.
Lemma half_ok : fin (a_half arith64 l) = true /\ val (a_half arith64 l) = val l / 2.
Proof.
  cbn [a_half arith64]. destruct half64_val as [VH FH]. fold half64. pose proof (u_pos (-900)). assert (P : Rabs (val half64 * val l) <= B 900) by (rewrite VH, Rabs_right; lra).
  destruct (mul64_b half64 l FH Fl) as [F V]; [eapply Rle_trans; [exact P|]; apply bpow_le; lia|]. split; [exact F|]. rewrite V, VH.
  replace (/ 2 * val l) with (val l / 2) by (unfold Rdiv; ring). apply half_exact. eapply Rle_trans; [|apply Bl]. apply bpow_le. lia.
Qed.
Lemma opp_half : fin (Bopp (a_half arith64 l)) = true /\ val (Bopp (a_half arith64 l)) = - (val l / 2).
Proof. destruct half_ok as [F V]. split; [unfold fin; rewrite is_finite_Bopp; exact F|]. unfold val in *. rewrite B2R_Bopp, V. reflexivity. Qed.
Lemma dx_ok : fin (sub64 v r) = true /\ val (sub64 v r) = rnd64 (val v - val r).
Proof. apply sub64_b; [exact Fv|exact Fr|]. unfold Rminus. eapply Rle_trans; [apply Rabs_triang|]. rewrite Rabs_Ropp. pose proof (E901 900 901 eq_refl). pose proof (bpow_le radix2 901 1023 ltac:(lia)). lra. Qed.
Lemma up_ok : fin (add64 v l) = true /\ val (add64 v l) = rnd64 (val v + val l).
Proof. pose proof (u_pos (-900)). apply add64_b; [exact Fv|exact Fl|]. eapply Rle_trans; [apply Rabs_triang|]. rewrite (Rabs_right (val l)) by lra. pose proof (E901 900 901 eq_refl). pose proof (bpow_le radix2 901 1023 ltac:(lia)). lra. Qed.
Lemma down_ok : fin (sub64 v l) = true /\ val (sub64 v l) = rnd64 (val v - val l).
Proof. pose proof (u_pos (-900)). apply sub64_b; [exact Fv|exact Fl|]. unfold Rminus. eapply Rle_trans; [apply Rabs_triang|]. rewrite Rabs_Ropp, (Rabs_right (val l)) by lra. pose proof (E901 900 901 eq_refl). pose proof (bpow_le radix2 901 1023 ltac:(lia)). lra. Qed.
(** The three cases. *)
Lemma shift_cases : let t := val v - val r in let h := val l / 2 in
  (rnd64 t < - h /\ shift_to1 arith64 l r v = add64 v l) \/ (h <= rnd64 t /\ shift_to1 arith64 l r v = sub64 v l) \/ (- h <= rnd64 t < h /\ shift_to1 arith64 l r v = v).
Proof.
  intros t h. unfold shift_to1. cbn [a_sub a_lt a_le a_add a_opp arith64]. destruct dx_ok as [FD VD]. destruct half_ok as [FH VH]. destruct opp_half as [FO VO]. cbn [a_half arith64] in *.
  set (H := mul64 (div64 (of_Z64 1) (of_Z64 2)) l) in *. pose proof (u_pos (-900)) as U.
  rewrite (Bltb_correct 53 1024 (sub64 v r) (Bopp H) FD FO), (Bleb_correct 53 1024 H (sub64 v r) FH FD).
  change (B2R (sub64 v r)) with (val (sub64 v r)). change (B2R (Bopp H)) with (val (Bopp H)). change (B2R H) with (val H). rewrite VD, VO, VH. fold t h.
  assert (0 < h) by (unfold h; lra). destruct (Rlt_bool_spec (rnd64 t) (- h)) as [C|C], (Rle_bool_spec h (rnd64 t)) as [C'|C']; [lra|left; auto|right; left; auto|right; right; auto].
Qed.
Lemma rnd_half_up t : val l / 2 <= t -> val l / 2 <= rnd64 t.
Proof. intros H. destruct half_ok as [_ V]. rewrite <- V in *. rewrite <- (rnd64_val (a_half arith64 l)). apply rnd64_le. exact H. Qed.
Lemma rnd_half_down t : - (val l / 2) <= t -> - (val l / 2) <= rnd64 t.
Proof. intros H. destruct opp_half as [_ V]. rewrite <- V in *. rewrite <- (rnd64_val (Bopp (a_half arith64 l))). apply rnd64_le. exact H. Qed.
Lemma shift_near : let o := shift_to1 arith64 l r v in fin o = true /\
  (exists k, (k = -1 \/ k = 0 \/ k = 1)%Z /\ (k = 0%Z -> o = v) /\ Rabs (val o - (val v + IZR k * val l)) <= B (-53) * (Rabs (val v) + val l) /\
     (Rabs (val v - val r) <= 3 / 2 * val l -> Rabs (val v + IZR k * val l - val r) <= val l / 2 * (1 + B (-52)))).
Proof.
  intros o. pose proof (u_pos (-900)) as U. pose proof small_facts as ((U0 & U1) & _ & _ & E52 & _). rewrite E52.
  destruct (minus_rel v r) as (e & He & ER). set (t := val v - val r) in *. set (h := val l / 2). assert (h0 : 0 < h) by (unfold h; lra). set (uu := B (-53)) in *.
  assert (he := Rabs_le_inv _ _ He). assert (uh : 0 < uu * h) by (apply Rmult_lt_0_compat; lra).
  destruct shift_cases as [[C E]|[[C E]|[C E]]]; fold t h in C; unfold o; rewrite E.
  - destruct up_ok as [F V]. split; [exact F|]. exists 1%Z. split; [auto|]. split; [lia|]. split.
    + rewrite V. destruct (plus_rel v l) as (d & Hd & ->). replace (IZR 1) with 1 by reflexivity. replace (_ - _) with ((val v + val l) * d) by ring. rewrite Rabs_mult, Rmult_comm. apply Rmult_le_compat; try apply Rabs_pos; [exact Hd|].
      eapply Rle_trans; [apply Rabs_triang|]. rewrite (Rabs_right (val l)) by lra. lra.
    + intros T. apply Rabs_le_inv in T. assert (t < - h). { destruct (Rlt_or_le t (- h)) as [|K]; [assumption|]. pose proof (rnd_half_down t K). fold h in H. lra. }
      apply Rabs_le. replace (val v + 1 * val l - val r) with (t + 2 * h) by (unfold t, h; field). unfold h in *. lra.
  - destruct down_ok as [F V]. split; [exact F|]. exists (-1)%Z. split; [auto|]. split; [lia|]. split.
    + rewrite V. destruct (minus_rel v l) as (d & Hd & ->). replace (_ - _) with ((val v - val l) * d) by ring. rewrite Rabs_mult, Rmult_comm. apply Rmult_le_compat; try apply Rabs_pos; [exact Hd|].
      unfold Rminus. eapply Rle_trans; [apply Rabs_triang|]. rewrite Rabs_Ropp, (Rabs_right (val l)) by lra. lra.
    + intros T. apply Rabs_le_inv in T. rewrite ER in C. assert (h * (1 - 2 * uu) <= t).
      { destruct (Rle_or_lt (h * (1 - 2 * uu)) t) as [|K]; [assumption|]. exfalso. assert (t * (1 + e) < h); [|lra]. destruct (Rle_or_lt t 0) as [Z|Z].
        - assert (0 <= - t * (1 + e)) by (apply Rmult_le_pos; lra). lra.
        - apply Rle_lt_trans with (t * (1 + uu)); [apply Rmult_le_compat_l; lra|]. apply Rlt_le_trans with (h * (1 - 2 * uu) * (1 + uu)); [apply Rmult_lt_compat_r; lra|].
          replace (h * (1 - 2 * uu) * (1 + uu)) with (h - h * uu - 2 * (uu * (uu * h))) by ring. assert (0 <= uu * (uu * h)) by (apply Rmult_le_pos; lra). lra. }
      apply Rabs_le. replace (val v + -1 * val l - val r) with (t - 2 * h) by (unfold t, h; field). unfold h in *. lra.
  - split; [exact Fv|]. exists 0%Z. split; [auto|]. split; [reflexivity|]. pose proof (Rabs_pos (val v)) as PV. split.
    + replace (val v - (val v + IZR 0 * val l)) with 0 by (replace (IZR 0) with 0 by reflexivity; ring). rewrite Rabs_R0. apply Rmult_le_pos; lra.
    + intros T. clear T. replace (val v + IZR 0 * val l - val r) with t by (unfold t; replace (IZR 0) with 0 by reflexivity; ring). assert (t < h). { destruct (Rlt_or_le t h) as [|K]; [assumption|]. pose proof (rnd_half_up t K). fold h in H. lra. }
      rewrite ER in C. assert (- (h * (1 + 2 * uu)) <= t).
      { destruct (Rle_or_lt (- (h * (1 + 2 * uu))) t) as [|K]; [assumption|]. exfalso. assert (t * (1 + e) < - h); [|lra].
        apply Ropp_lt_cancel. rewrite Ropp_involutive. replace (- (t * (1 + e))) with (- t * (1 + e)) by ring.
        apply Rlt_le_trans with (h * (1 + 2 * uu) * (1 - uu)).
        - replace (h * (1 + 2 * uu) * (1 - uu)) with (h + h * uu - 2 * (uu * (uu * h))) by ring. assert (uu * (uu * h) <= / 1024 * (uu * h)) by (apply Rmult_le_compat_r; lra). lra.
        - apply Rle_trans with (- t * (1 - uu)); [apply Rmult_le_compat_r; lra|]. apply Rmult_le_compat_l; [|lra]. assert (0 < h * (1 + 2 * uu)) by (apply Rmult_lt_0_compat; lra). lra. }
      apply Rabs_le. lra.
Qed.
Lemma shift_nearest : Rabs (val v - val r) <= 3 / 2 * val l -> let o := shift_to1 arith64 l r v in
  Rabs (val o - val r) <= val l / 2 + B (-52) * (Rabs (val v) + val l) /\ forall j, Rabs (val o - val r) <= Rabs (val v + IZR j * val l - val r) + B (-51) * (Rabs (val v) + val l).
Proof.
  intros T o. destruct shift_near as (_ & k & _ & _ & E & N). fold o in E. specialize (N T). pose proof small_facts as ((U0 & U1) & _ & E51 & E52 & _). rewrite E52 in *. rewrite E51. set (uu := B (-53)) in *.
  pose proof (u_pos (-900)) as U. pose proof (Rabs_pos (val v)) as PV. set (y := val v + IZR k * val l - val r) in *.
  assert (ul : 0 < uu * val l) by (apply Rmult_lt_0_compat; lra). assert (uv : 0 <= uu * Rabs (val v)) by (apply Rmult_le_pos; lra).
  assert (O : Rabs (val o - val r) <= Rabs y + (uu * Rabs (val v) + uu * val l)).
  { replace (val o - val r) with (y + (val o - (val v + IZR k * val l))) by (unfold y; ring). eapply Rle_trans; [apply Rabs_triang|]. lra. }
  split; [lra|]. intros j. destruct (Z.eq_dec j k) as [->|NJ]; [fold y; lra|].
  assert (Q : val l - Rabs y <= Rabs (val v + IZR j * val l - val r)).
  { replace (val v + IZR j * val l - val r) with (IZR (j - k) * val l - (- y)) by (rewrite minus_IZR; unfold y; ring). eapply Rle_trans; [|apply Rabs_triang_inv]. rewrite Rabs_Ropp. apply Rplus_le_compat_r.
    rewrite Rabs_mult, (Rabs_right (val l)), <- abs_IZR by lra. rewrite <- (Rmult_1_l (val l)) at 1. apply Rmult_le_compat_r; [lra|]. apply (IZR_le 1). lia. }
  lra.
Qed.
Lemma shift_stays : Rabs (val v - val r) < val l / 2 * (1 - B (-52)) -> shift_to1 arith64 l r v = v.
Proof.
  intros T. pose proof (u_pos (-900)) as U. pose proof small_facts as ((U0 & U1) & _ & _ & E52 & _). rewrite E52 in T. destruct (minus_rel v r) as (e & He & ER). set (uu := B (-53)) in *.
  assert (R1 : Rabs (rnd64 (val v - val r)) < val l / 2).
  { rewrite ER, Rabs_mult. apply Rle_lt_trans with (Rabs (val v - val r) * (1 + uu)).
    - apply Rmult_le_compat_l; [apply Rabs_pos|]. apply Rabs_le_inv in He. apply Rabs_le. lra.
    - apply Rlt_le_trans with (val l / 2 * (1 - 2 * uu) * (1 + uu)); [apply Rmult_lt_compat_r; lra|]. replace (val l / 2 * (1 - 2 * uu) * (1 + uu)) with (val l / 2 - val l / 2 * uu - 2 * (val l / 2 * (uu * uu))) by ring.
      assert (0 <= val l / 2 * uu) by (apply Rmult_le_pos; lra). assert (0 <= val l / 2 * (uu * uu)) by (apply Rmult_le_pos; [lra|apply Rmult_le_pos; lra]). lra. }
  apply Rabs_def2 in R1. destruct shift_cases as [[C E]|[[C E]|[C E]]]; [lra|lra|exact E].
Qed.
End image.
