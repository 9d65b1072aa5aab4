(** Proofs for C97. *)
From Coq Require Import ZArith Reals Lra Lia List Bool.
Require Import Flocq.Core.Core Flocq.IEEE754.BinarySingleNaN Flocq.Prop.Relative.
From Verif Require Import Base MeshModel ProcFloat MeshFloatModel MeshFloatSpec MeshFloatProofs TidModel TidSpec.
Import ListNotations. Local Open Scope list_scope. Local Open Scope R_scope.

Lemma valid32 : Valid_exp (SpecFloat.fexp 24 128). Proof. exact (fexp_correct 24 128 p24). Qed.
#[global] Existing Instance valid32.
Lemma fexp32 : SpecFloat.fexp 24 128 = FLT_exp (-149) 24. Proof. reflexivity. Qed.
Lemma rnd32_le x y : x <= y -> rnd32 x <= rnd32 y.
Proof. apply round_le; [apply valid32|apply valid_rnd_N]. Qed.
Lemma rnd32_0 : rnd32 0 = 0.
Proof. apply round_0. apply valid_rnd_N. Qed.
Lemma rnd32_pow e : (-149 <= e)%Z -> rnd32 (bpow radix2 e) = bpow radix2 e.
Proof. intros H. apply round_generic; [apply valid_rnd_N|]. rewrite fexp32. apply generic_format_FLT_bpow; [exact p24|exact H]. Qed.

Lemma conv s m e : F2R (Float radix2 (cond_Zopp s (Zpos m)) e) <> 0.
Proof. apply F2R_neq_0. cbn. destruct s; discriminate. Qed.
Lemma to32_fin x : fin x = true -> (Rabs (rnd32 (val x)) < bpow radix2 128 /\ fin32 (to32 x) = true /\ val32 (to32 x) = rnd32 (val x)) \/
  (bpow radix2 128 <= Rabs (rnd32 (val x)) /\ to32 x = B754_infinity (Rlt_bool (val x) 0)).
Proof.
  destruct x as [s|s| |s m e h]; try discriminate; intros _.
  - left. cbn [to32]. change (val (B754_zero s)) with 0. rewrite rnd32_0, Rabs_R0. split; [apply bpow_gt_0|]. split; reflexivity.
  - cbn [to32]. pose proof (@binary_normalize_correct 24 128 p24 pe24 mode_NE (cond_Zopp s (Zpos m)) e s) as C. cbn zeta in C. cbn [round_mode] in C.
    change (F2R (Float radix2 (cond_Zopp s (Zpos m)) e)) with (val (B754_finite s m e h)) in C.
    destruct (Rlt_bool_spec (Rabs (rnd32 (val (B754_finite s m e h)))) (bpow radix2 128)) as [L|L].
    + left. split; [exact L|]. split; [exact (proj1 (proj2 C))|exact (proj1 C)].
    + right. split; [exact L|]. apply B2SF_inj. rewrite C. reflexivity.
Qed.
Lemma to32_spec x : fin x = true -> Rabs (val x) <= bpow radix2 127 -> fin32 (to32 x) = true /\ val32 (to32 x) = rnd32 (val x).
Proof.
  intros F H. destruct (to32_fin x F) as [(_ & ? & ?)|(L & _)]; [split; assumption|exfalso].
  assert (A : Rabs (rnd32 (val x)) <= bpow radix2 127).
  { apply Rabs_le_inv in H. apply Rabs_le. rewrite <- (rnd32_pow 127) by lia. split; [|apply rnd32_le; lra].
    rewrite <- round_NE_opp. apply rnd32_le. lra. }
  assert (bpow radix2 127 < bpow radix2 128) by (apply bpow_lt; lia). lra.
Qed.
Lemma to64_spec x : fin32 x = true -> fin (to64 x) = true /\ val (to64 x) = val32 x.
Proof.
  destruct x as [s|s| |s m e h]; try discriminate; intros _; [split; reflexivity|].
  cbn [to64]. pose proof (@binary_normalize_correct 53 1024 p53 pe53 mode_NE (cond_Zopp s (Zpos m)) e s) as C. cbn zeta in C. cbn [round_mode] in C.
  change (F2R (Float radix2 (cond_Zopp s (Zpos m)) e)) with (val32 (B754_finite s m e h)) in C.
  pose proof (@abs_B2R_lt_emax 24 128 (B754_finite s m e h)) as L. change (B2R (B754_finite s m e h)) with (val32 (B754_finite s m e h)) in L.
  pose proof (@generic_format_B2R 24 128 (B754_finite s m e h)) as G. change (B2R (B754_finite s m e h)) with (val32 (B754_finite s m e h)) in G.
  set (v := val32 (B754_finite s m e h)) in *. assert (E : rnd64 v = v).
  { apply round_generic; [apply valid_rnd_N|]. revert G. apply generic_inclusion_mag. intros _. change (SpecFloat.fexp 24 128) with (FLT_exp (-149) 24). change (SpecFloat.fexp 53 1024) with (FLT_exp (-1074) 53). unfold FLT_exp. lia. }
  rewrite E in C. rewrite Rlt_bool_true in C; [split; tauto|]. eapply Rlt_trans; [exact L|]. apply bpow_lt. lia.
Qed.

(** Order. *)
Lemma le_inf (x : b32) : is_nan x = false -> Bleb x (B754_infinity false) = true.
Proof. destruct x as [[]|[]| |[] m e h]; try discriminate; reflexivity. Qed.
Lemma minf_le (x : b32) : is_nan x = false -> Bleb (B754_infinity true) x = true.
Proof. destruct x as [[]|[]| |[] m e h]; try discriminate; reflexivity. Qed.
Lemma fin_nonnan32 (x : b32) : fin32 x = true -> is_nan x = false.
Proof. destruct x; try discriminate; reflexivity. Qed.
Lemma to32_nan x : is_nan (to32 x) = is_nan x.
Proof.
  destruct x as [s|s| |s m e h]; try reflexivity. destruct (to32_fin (B754_finite s m e h) eq_refl) as [(_ & F & _)|(_ & E)]; [|rewrite E; reflexivity].
  rewrite (fin_nonnan32 _ F). reflexivity.
Qed.
Lemma to32_mono (x y : b64) : Bleb x y = true -> Bleb (to32 x) (to32 y) = true.
Proof.
  intros H. assert (Nx : is_nan x = false) by (destruct x; [reflexivity|reflexivity|discriminate H|reflexivity]).
  assert (Ny : is_nan y = false) by (destruct y; [reflexivity|reflexivity|destruct x as [[]|[]| |[] ? ? ?]; discriminate H|reflexivity]).
  destruct (fin x) eqn:Fx; [destruct (fin y) eqn:Fy|].
  - rewrite (Bleb_correct 53 1024 x y Fx Fy) in H. fold (val x) (val y) in H. destruct (Rle_bool_spec (val x) (val y)) as [L|L]; [|discriminate].
    pose proof (rnd32_le _ _ L) as R. destruct (to32_fin x Fx) as [(Bx & F1 & V1)|(Ox & E1)]; destruct (to32_fin y Fy) as [(By & F2 & V2)|(Oy & E2)].
    + rewrite (Bleb_correct 24 128 _ _ F1 F2). fold (val32 (to32 x)) (val32 (to32 y)). rewrite V1, V2. apply Rle_bool_true. exact R.
    + rewrite E2. rewrite Rlt_bool_false; [apply le_inf, fin_nonnan32; exact F1|]. apply Rnot_lt_le. intros N.
      assert (rnd32 (val y) <= 0) by (rewrite <- rnd32_0; apply rnd32_le; lra). rewrite (Rabs_left1 (rnd32 (val y))) in Oy by lra. apply Rabs_def2 in Bx. lra.
    + rewrite E1. rewrite Rlt_bool_true; [apply minf_le, fin_nonnan32; exact F2|]. apply Rnot_le_lt. intros N.
      assert (0 <= rnd32 (val x)) by (rewrite <- rnd32_0; apply rnd32_le; lra). rewrite (Rabs_right (rnd32 (val x))) in Ox by lra. apply Rabs_def2 in By. lra.
    + rewrite E1, E2. destruct (Rlt_bool_spec (val x) 0) as [N1|N1]; destruct (Rlt_bool_spec (val y) 0) as [N2|N2]; try reflexivity. exfalso. lra.
  - destruct y as [s|[]| |s m e h]; try discriminate.
    + exfalso. destruct x as [[]|[]| |[] ? ? ?]; try discriminate.
    + cbn [to32]. apply le_inf. rewrite to32_nan. exact Nx.
  - destruct x as [s|[]| |s m e h]; try discriminate.
    + cbn [to32]. apply minf_le. rewrite to32_nan. exact Ny.
    + destruct y as [[]|[]| |[] ? ? ?]; try discriminate; reflexivity.
Qed.
Lemma total64 (x y : b64) : is_nan x = false -> is_nan y = false -> Bltb x y = false -> Bleb y x = true.
Proof.
  intros Nx Ny H. destruct (fin x) eqn:Fx; [destruct (fin y) eqn:Fy|].
  - rewrite (Bltb_correct 53 1024 x y Fx Fy) in H. rewrite (Bleb_correct 53 1024 y x Fy Fx). destruct (Rlt_bool_spec (B2R x) (B2R y)); [discriminate|]. apply Rle_bool_true. assumption.
  - destruct y as [s|[]| |s m e h]; try discriminate; destruct x as [[]|[]| |[] ? ? ?]; try discriminate; reflexivity.
  - destruct x as [s|[]| |s m e h]; try discriminate; destruct y as [[]|[]| |[] ? ? ?]; try discriminate; reflexivity.
Qed.
Lemma le_not_lt32 (x y : b32) : Bleb y x = true -> Bltb x y = false.
Proof.
  intros H. destruct (fin32 x) eqn:Fx; [destruct (fin32 y) eqn:Fy|].
  - rewrite (Bltb_correct 24 128 x y Fx Fy). rewrite (Bleb_correct 24 128 y x Fy Fx) in H. destruct (Rle_bool_spec (B2R y) (B2R x)); [|discriminate]. apply Rlt_bool_false. assumption.
  - destruct y as [s|[]| |s m e h]; try discriminate; destruct x as [[]|[]| |[] ? ? ?]; try discriminate; reflexivity.
  - destruct x as [s|[]| |s m e h]; try discriminate; destruct y as [[]|[]| |[] ? ? ?]; try discriminate; reflexivity.
Qed.
Lemma nan_ltb (x y : b32) : is_nan x = true \/ is_nan y = true -> Bltb x y = false.
Proof. intros [H|H]; [destruct x; try discriminate; reflexivity|]. destruct y; try discriminate. destruct x as [[]|[]| |[] ? ? ?]; reflexivity. Qed.
Lemma to32_lt (x y : b64) : Bltb (to32 x) (to32 y) = true -> Bltb x y = true.
Proof.
  intros H. destruct (Bltb x y) eqn:E; [reflexivity|]. destruct (is_nan x) eqn:Nx; [rewrite nan_ltb in H; [discriminate|left; rewrite to32_nan; exact Nx]|].
  destruct (is_nan y) eqn:Ny; [rewrite nan_ltb in H; [discriminate|right; rewrite to32_nan; exact Ny]|].
  pose proof (to32_mono _ _ (total64 x y Nx Ny E)) as L. rewrite (le_not_lt32 _ _ L) in H. discriminate.
Qed.
