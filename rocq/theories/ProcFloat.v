(** PeriodicBox.shift_in (frame.py:49-60) under IEEE-754 binary64 arithmetic, round to nearest even, as formalised by
    Flocq: the model of ProcModel.v instantiated with [arith64]. *)
From Coq Require Import ZArith Reals Lra.
Require Import Flocq.Core.Core Flocq.IEEE754.BinarySingleNaN Flocq.Prop.Sterbenz.
From Verif Require Import Base ProcModel ProcProofs2.
Local Open Scope list_scope.

Definition b64 := binary_float 53 1024.
Definition p53 : Prec_gt_0 53 := eq_refl.
Definition pe53 : Prec_lt_emax 53 1024 := eq_refl.
Definition add64 : b64 -> b64 -> b64 := @Bplus 53 1024 p53 pe53 mode_NE.
Definition sub64 : b64 -> b64 -> b64 := @Bminus 53 1024 p53 pe53 mode_NE.
Definition mul64 : b64 -> b64 -> b64 := @Bmult 53 1024 p53 pe53 mode_NE.
Definition div64 : b64 -> b64 -> b64 := @Bdiv 53 1024 p53 pe53 mode_NE.
(** [z] as a float. *)
Definition of_Z64 (z : Z) : b64 := @binary_normalize 53 1024 p53 pe53 mode_NE z 0 false.
Definition arith64 : arith b64 :=
  {| a_zero := B754_zero false; a_add := add64; a_sub := sub64; a_half := mul64 (div64 (of_Z64 1) (of_Z64 2)); a_opp := Bopp; a_lt := Bltb; a_le := Bleb |}.
Definition val (x : b64) : R := B2R x.
Definition fin (x : b64) : bool := is_finite x.
Notation rnd64 := (round radix2 (SpecFloat.fexp 53 1024) ZnearestE).
Local Open Scope R_scope.
Lemma valid64 : Valid_exp (SpecFloat.fexp 53 1024). Proof. exact (fexp_correct 53 1024 p53). Qed.
#[global] Existing Instance valid64.
Lemma mono64 : Monotone_exp (SpecFloat.fexp 53 1024). Proof. exact (fexp_monotone 53 1024). Qed.
#[global] Existing Instance mono64.
Lemma rnd64_val x : rnd64 (val x) = val x.
Proof. apply round_generic; [apply valid_rnd_N|]. apply generic_format_B2R. Qed.
Lemma rnd64_0 : rnd64 0 = 0.
Proof. apply round_0. apply valid_rnd_N. Qed.
Lemma rnd64_le x y : x <= y -> rnd64 x <= rnd64 y.
Proof. apply round_le; [apply valid64|apply valid_rnd_N]. Qed.
Lemma add64_ok x y b : fin x = true -> fin y = true -> fin b = true -> Rabs (rnd64 (val x + val y)) <= Rabs (val b) ->
  fin (add64 x y) = true /\ val (add64 x y) = rnd64 (val x + val y).
Proof.
  intros Fx Fy Fb H. pose proof (@Bplus_correct 53 1024 p53 pe53 mode_NE x y Fx Fy) as C. cbn [round_mode] in C.
  rewrite Rlt_bool_true in C; [tauto|]. eapply Rle_lt_trans; [exact H|]. apply abs_B2R_lt_emax.
Qed.
Lemma sub64_ok x y b : fin x = true -> fin y = true -> fin b = true -> Rabs (rnd64 (val x - val y)) <= Rabs (val b) ->
  fin (sub64 x y) = true /\ val (sub64 x y) = rnd64 (val x - val y).
Proof.
  intros Fx Fy Fb H. pose proof (@Bminus_correct 53 1024 p53 pe53 mode_NE x y Fx Fy) as C. cbn [round_mode] in C.
  rewrite Rlt_bool_true in C; [tauto|]. eapply Rle_lt_trans; [exact H|]. apply abs_B2R_lt_emax.
Qed.
Lemma shift_in1_float l v : fin l = true -> fin v = true -> 0 < val l -> - val l <= val v < 2 * val l ->
  let r := shift_in1 arith64 l v in fin r = true /\ 0 <= val r < val l /\
    (0 <= val v -> val r = if Rlt_bool (val v) (val l) then val v else val v - val l).
Proof.
  intros Fl Fv Hl [H1 H2]. unfold shift_in1. cbn [arith64 a_lt a_le a_zero a_add a_sub].
  assert (Sub : forall x, fin x = true -> val l <= val x < 2 * val l -> fin (sub64 x l) = true /\ 0 <= val (sub64 x l) < val l /\ val (sub64 x l) = val x - val l).
  { intros x Fx [L1 L2].
    assert (E : rnd64 (val x - val l) = val x - val l).
    { apply round_generic; [apply valid_rnd_N|]. apply sterbenz; try apply generic_format_B2R; [apply valid64|apply mono64|]. fold (val x) (val l). lra. }
    destruct (sub64_ok x l l Fx Fl Fl) as [F V]; [rewrite E, !Rabs_right; lra|]. rewrite V, E. split; [exact F|]. split; lra. }
  rewrite (Bltb_correct 53 1024 v (B754_zero false) Fv eq_refl). change (B2R (B754_zero false)) with 0. fold (val v).
  destruct (Rlt_bool_spec (val v) 0) as [N|N].
  - assert (B : 0 <= rnd64 (val v + val l) <= val l).
    { split; [rewrite <- rnd64_0; apply rnd64_le; lra|]. apply Rle_trans with (rnd64 (val l)); [apply rnd64_le; lra|rewrite rnd64_val; lra]. }
    destruct (add64_ok v l l Fv Fl Fl) as [F V]; [rewrite !Rabs_right; lra|].
    rewrite (Bleb_correct 53 1024 l (add64 v l) Fl F). fold (val l) (val (add64 v l)).
    destruct (Rle_bool_spec (val l) (val (add64 v l))) as [M|M].
    + destruct (Sub (add64 v l) F) as (S1 & S2 & S3); [rewrite V in *; lra|]. split; [exact S1|]. split; [exact S2|]. intros; lra.
    + split; [exact F|]. split; [rewrite V in *; lra|]. intros; lra.
  - rewrite (Bleb_correct 53 1024 l v Fl Fv). fold (val l) (val v). destruct (Rle_bool_spec (val l) (val v)) as [M|M].
    + destruct (Sub v Fv) as (S1 & S2 & S3); [lra|]. split; [exact S1|]. split; [exact S2|]. intros _. rewrite Rlt_bool_false by lra. exact S3.
    + split; [exact Fv|]. split; [lra|]. intros _. rewrite Rlt_bool_true by lra. reflexivity.
Qed.
(** A float as a SpecFloat value (for comparing literals). *)
Definition B2SF64 (x : b64) : SpecFloat.spec_float := B2SF x.
