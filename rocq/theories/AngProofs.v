(** Proofs for C93. *)
From Coq Require Import ZArith Reals Lra Lia List Bool.
Require Import Flocq.Core.Core Flocq.IEEE754.BinarySingleNaN.
From Verif Require Import Base Str ProcModel ProcProofs2 ProcFloat InterpFloatProofs MeshFloatModel MeshFloatProofs BinFloatProofs FredModel FredProofs FquaProofs FquaProofs2 GfltProofs2 GfltProofs3 GfltProofs4 AngModel AngSpec.
Import ListNotations. Local Open Scope list_scope. Local Open Scope R_scope.

Lemma sixty : val (of_Z64 60) = 60 /\ val (of_Z64 3600) = 3600 /\ val (of_Z64 15) = 15 /\ fin (of_Z64 15) = true.
Proof. destruct (of_Z64_exact 60 ltac:(lia)), (of_Z64_exact 3600 ltac:(lia)), (of_Z64_exact 15 ltac:(lia)). auto. Qed.
Section one.
Variables d m s : b64.
Hypothesis Hd : fin d = true /\ Rabs (val d) <= B 900.
Hypothesis Hm : fin m = true /\ Rabs (val m) <= B 900.
Hypothesis Hs : fin s = true /\ Rabs (val s) <= B 900.
Lemma quotient x k : 1 <= k -> Rabs x <= B 900 -> Rabs (x / k) <= B 900.
Proof.
  intros K H. unfold Rdiv. rewrite Rabs_mult, (Rabs_right (/ k)) by (apply Rle_ge, Rlt_le, Rinv_0_lt_compat; lra). rewrite <- (Rmult_1_r (B 900)).
  apply Rmult_le_compat; [apply Rabs_pos|apply Rlt_le, Rinv_0_lt_compat; lra|exact H|]. rewrite <- Rinv_1. apply Rinv_le_contravar; lra.
Qed.
Lemma up_to j k x : (j <= k)%Z -> Rabs x <= B j -> Rabs x <= B k.
Proof. intros L H. eapply Rle_trans; [exact H|]. apply bpow_le, L. Qed.
Lemma combine_val : fin (f_combine d m s) = true /\ Rabs (val (f_combine d m s)) <= B 902 /\
  exists A C, fin A = true /\ fin C = true /\ val A = rnd64 (val m / 60) /\ val C = rnd64 (val s / 3600) /\ fin (add64 d A) = true /\ val (add64 d A) = rnd64 (val d + val A) /\ val (f_combine d m s) = rnd64 (val (add64 d A) + val C).
Proof.
  destruct sixty as (V6 & V36 & _). destruct Hd as [Fd Bd], Hm as [Fm Bm], Hs as [Fs Bs].
  assert (Q1 := quotient (val m) 60 ltac:(lra) Bm). assert (Q2 := quotient (val s) 3600 ltac:(lra) Bs).
  destruct (div64_b m (of_Z64 60) Fm) as [FA VA]; [rewrite V6; lra|rewrite V6; apply (up_to 900); [lia|exact Q1]|]. rewrite V6 in VA.
  destruct (div64_b s (of_Z64 3600) Fs) as [FC VC]; [rewrite V36; lra|rewrite V36; apply (up_to 900); [lia|exact Q2]|]. rewrite V36 in VC.
  assert (R1 := rnd64_bound _ 900 ltac:(lia) Q1). assert (R2 := rnd64_bound _ 900 ltac:(lia) Q2). rewrite <- VA in R1. rewrite <- VC in R2.
  set (A := div64 m (of_Z64 60)) in *. set (C := div64 s (of_Z64 3600)) in *. pose proof (E901 900 901 eq_refl) as T1. pose proof (E901 901 902 eq_refl) as T2. pose proof (u_pos 900).
  assert (S1 : Rabs (val d + val A) <= B 901) by (eapply Rle_trans; [apply Rabs_triang|]; lra).
  destruct (add64_b d A Fd FA) as [F1 V1]; [apply (up_to 901); [lia|exact S1]|]. assert (R3 := rnd64_bound _ 901 ltac:(lia) S1). rewrite <- V1 in R3.
  assert (S2 : Rabs (val (add64 d A) + val C) <= B 902) by (eapply Rle_trans; [apply Rabs_triang|]; lra).
  destruct (add64_b (add64 d A) C F1 FC) as [F2 V2]; [apply (up_to 902); [lia|exact S2]|]. assert (R4 := rnd64_bound _ 902 ltac:(lia) S2). rewrite <- V2 in R4.
  split; [exact F2|]. split; [exact R4|]. exists A, C. repeat split; assumption.
Qed.
Lemma combine_err : Rabs (val (f_combine d m s) - angle (val d) (val m) (val s)) <= B (-51) * angle_size (val d) (val m) (val s) + B (-1073).
Proof.
  destruct combine_val as (_ & _ & A & C & FA & FC & VA & VC & F1 & V1 & V2). destruct Hd as [Fd _].
  destruct (err64 (val m / 60)) as (e1 & h1 & E1 & H1 & _ & R1). destruct (err64 (val s / 3600)) as (e2 & h2 & E2 & H2 & _ & R2). rewrite R1 in VA. rewrite R2 in VC.
  destruct (plus_rel d A) as (e3 & E3 & R3). rewrite R3 in V1. destruct (plus_rel (add64 d A) C) as (e4 & E4 & R4). rewrite R4 in V2.
  rewrite V2. clear R1 R2 R3 R4 V2. pose proof small_facts as ((U0 & U1) & (N0 & N1) & E51 & _). rewrite E51.
  replace (B (-1073)) with (4 * B (-1075)) by (change 4 with (B 2); rewrite <- bpow_plus; reflexivity).
  unfold angle, angle_size. replace (Rabs (val m) / 60) with (Rabs (val m / 60)) by (unfold Rdiv; rewrite Rabs_mult, (Rabs_right (/ 60)) by lra; reflexivity).
  replace (Rabs (val s) / 3600) with (Rabs (val s / 3600)) by (unfold Rdiv; rewrite Rabs_mult, (Rabs_right (/ 3600)) by lra; reflexivity).
  set (a := val m / 60) in *. set (b := val s / 3600) in *. set (dd := val d) in *. set (uu := B (-53)) in *. set (h := B (-1075)) in *.
  pose proof (Rabs_pos dd) as P1. pose proof (Rabs_pos a) as P2. pose proof (Rabs_pos b) as P3.
  set (x := Rabs dd) in *. set (y := Rabs a) in *. set (z := Rabs b) in *.
  assert (ux : 0 <= uu * x <= / 1024 * x) by (split; [apply Rmult_le_pos; lra|apply Rmult_le_compat_r; lra]).
  assert (uy : 0 <= uu * y <= / 1024 * y) by (split; [apply Rmult_le_pos; lra|apply Rmult_le_compat_r; lra]).
  assert (uz : 0 <= uu * z <= / 1024 * z) by (split; [apply Rmult_le_pos; lra|apply Rmult_le_compat_r; lra]).
  (* first quotient *)
  assert (QA : Rabs (val A - a) <= uu * y + h).
  { rewrite VA. replace (a * (1 + e1) + h1 - a) with (a * e1 + h1) by ring. eapply Rle_trans; [apply Rabs_triang|]. rewrite Rabs_mult. assert (Rabs a * Rabs e1 <= y * uu) by (apply Rmult_le_compat; try apply Rabs_pos; [unfold y; lra|exact E1]). lra. }
  assert (QC : Rabs (val C - b) <= uu * z + h).
  { rewrite VC. replace (b * (1 + e2) + h2 - b) with (b * e2 + h2) by ring. eapply Rle_trans; [apply Rabs_triang|]. rewrite Rabs_mult. assert (Rabs b * Rabs e2 <= z * uu) by (apply Rmult_le_compat; try apply Rabs_pos; [unfold z; lra|exact E2]). lra. }
  clear VA VC. set (q := val (add64 d A)) in *.
  assert (LA : Rabs (dd + val A) <= x + y + uu * y + h).
  { replace (dd + val A) with (dd + a + (val A - a)) by ring. eapply Rle_trans; [apply Rabs_triang|]. pose proof (Rabs_triang dd a). fold x y in H. lra. }
  assert (uh : 0 <= uu * h <= / 1024 * h) by (split; [apply Rmult_le_pos; lra|apply Rmult_le_compat_r; lra]).
  assert (uuy : uu * (uu * y) <= / 1024 * (uu * y)) by (apply Rmult_le_compat_r; lra).
  assert (uux : uu * (uu * x) <= / 1024 * (uu * x)) by (apply Rmult_le_compat_r; lra).
  assert (uuz : uu * (uu * z) <= / 1024 * (uu * z)) by (apply Rmult_le_compat_r; lra).
  assert (QS : Rabs (q - (dd + a)) <= uu * x + (2 + / 1024) * (uu * y) + (1 + / 1024) * h).
  { rewrite V1. replace ((dd + val A) * (1 + e3) - (dd + a)) with ((val A - a) + (dd + val A) * e3) by ring. eapply Rle_trans; [apply Rabs_triang|].
    rewrite (Rabs_mult (dd + val A)). assert (Rabs (dd + val A) * Rabs e3 <= (x + y + uu * y + h) * uu) by (apply Rmult_le_compat; try apply Rabs_pos; assumption). lra. }
  clear V1. set (S := uu * x + (2 + / 1024) * (uu * y) + (1 + / 1024) * h) in *.
  assert (LS : Rabs (q + val C) <= x + y + z + S + (uu * z + h)).
  { replace (q + val C) with ((dd + a + b) + (q - (dd + a)) + (val C - b)) by ring. eapply Rle_trans; [apply Rabs_triang|]. eapply Rle_trans; [apply Rplus_le_compat_r, Rabs_triang|].
    assert (Rabs (dd + a + b) <= x + y + z) by (eapply Rle_trans; [apply Rabs_triang|]; pose proof (Rabs_triang dd a) as T; fold x y in T; unfold z; lra). lra. }
  replace ((q + val C) * (1 + e4) - (dd + a + b)) with ((q - (dd + a)) + (val C - b) + (q + val C) * e4) by ring.
  eapply Rle_trans; [apply Rabs_triang|]. eapply Rle_trans; [apply Rplus_le_compat_r, Rabs_triang|]. rewrite (Rabs_mult (q + val C)).
  assert (Z : Rabs (q + val C) * Rabs e4 <= (x + y + z + S + (uu * z + h)) * uu) by (apply Rmult_le_compat; try apply Rabs_pos; assumption).
  assert (uS : uu * S <= / 1024 * (uu * x) + (2 + / 1024) * (/ 1024 * (uu * y)) + (1 + / 1024) * (/ 1024 * h)) by (unfold S; lra).
  unfold S in *. lra.
Qed.
Lemma hms_val : fin (mul64 (f_combine d m s) (of_Z64 15)) = true /\ val (mul64 (f_combine d m s) (of_Z64 15)) = rnd64 (val (f_combine d m s) * 15).
Proof.
  destruct combine_val as (F & Bd & _). destruct sixty as (_ & _ & V15 & F15). destruct (mul64_b (f_combine d m s) (of_Z64 15) F F15) as [F1 V1].
  - rewrite V15, Rabs_mult, (Rabs_right 15) by lra. apply Rle_trans with (B 902 * B 4); [apply Rmult_le_compat; [apply Rabs_pos|lra|exact Bd|change (B 4) with 16; lra]|]. rewrite <- bpow_plus. apply bpow_le. lia.
  - rewrite V15 in V1. auto.
Qed.
Lemma hms_err : Rabs (val (mul64 (f_combine d m s) (of_Z64 15)) - 15 * angle (val d) (val m) (val s)) <= 15 * (B (-50) * angle_size (val d) (val m) (val s) + B (-1072)).
Proof.
  destruct hms_val as [_ V]. rewrite V. pose proof combine_err as E. set (c := f_combine d m s) in *. destruct (int_rel 15 c) as (e & He & R). change (INR 15) with (1+1+1+1+1+1+1+1+1+1+1+1+1+1+1) in R.
  replace (val c * 15) with ((1+1+1+1+1+1+1+1+1+1+1+1+1+1+1) * val c) by ring. rewrite R. clear R.
  set (X := angle _ _ _) in *. set (T := angle_size _ _ _) in *. assert (XT : Rabs X <= T).
  { unfold X, T, angle, angle_size. eapply Rle_trans; [apply Rabs_triang|]. eapply Rle_trans; [apply Rplus_le_compat_r, Rabs_triang|]. unfold Rdiv. rewrite !Rabs_mult, (Rabs_right (/ 60)), (Rabs_right (/ 3600)) by lra. lra. }
  pose proof small_facts as ((U0 & U1) & _ & E51 & _ & E50 & _). rewrite E51 in E. rewrite E50. replace (B (-1072)) with (2 * B (-1073)) by (symmetry; apply E901; reflexivity). pose proof (u_pos (-1073)).
  pose proof (Rabs_pos X). set (uu := B (-53)) in *. set (h := B (-1073)) in *. assert (uT : 0 <= uu * T <= / 1024 * T) by (split; [apply Rmult_le_pos; lra|apply Rmult_le_compat_r; lra]).
  assert (LC : Rabs (val c) <= T + (4 * uu * T + h)).
  { replace (val c) with (X + (val c - X)) by ring. eapply Rle_trans; [apply Rabs_triang|]. lra. }
  replace ((1+1+1+1+1+1+1+1+1+1+1+1+1+1+1) * val c * (1 + e) - 15 * X) with (15 * ((val c - X) + val c * e)) by ring. rewrite Rabs_mult, (Rabs_right 15) by lra. apply Rmult_le_compat_l; [lra|].
  eapply Rle_trans; [apply Rabs_triang|]. rewrite (Rabs_mult (val c) e). assert (Rabs (val c) * Rabs e <= (T + (4 * uu * T + h)) * uu) by (apply Rmult_le_compat; try apply Rabs_pos; assumption).
  assert (uu * (uu * T) <= / 1024 * (uu * T)) by (apply Rmult_le_compat_r; lra). assert (uu * h <= / 1024 * h) by (apply Rmult_le_compat_r; lra). lra.
Qed.
End one.
Lemma combine_mono d m s d' m' s' : (fin d = true /\ Rabs (val d) <= B 900) -> (fin m = true /\ Rabs (val m) <= B 900) -> (fin s = true /\ Rabs (val s) <= B 900) ->
  (fin d' = true /\ Rabs (val d') <= B 900) -> (fin m' = true /\ Rabs (val m') <= B 900) -> (fin s' = true /\ Rabs (val s') <= B 900) ->
  val d <= val d' -> val m <= val m' -> val s <= val s' -> val (f_combine d m s) <= val (f_combine d' m' s').
Proof.
  intros Hd Hm Hs Hd' Hm' Hs' L1 L2 L3. destruct (combine_val d m s Hd Hm Hs) as (_ & _ & A & C & _ & _ & VA & VC & _ & V1 & ->).
  destruct (combine_val d' m' s' Hd' Hm' Hs') as (_ & _ & A' & C' & _ & _ & VA' & VC' & _ & V1' & ->).
  apply rnd64_le. rewrite V1, V1', VC, VC'. apply Rplus_le_compat; apply rnd64_le; [|lra]. rewrite VA, VA'. apply Rplus_le_compat; [exact L1|]. apply rnd64_le. lra.
Qed.
Lemma hms_mono d m s d' m' s' : (fin d = true /\ Rabs (val d) <= B 900) -> (fin m = true /\ Rabs (val m) <= B 900) -> (fin s = true /\ Rabs (val s) <= B 900) ->
  (fin d' = true /\ Rabs (val d') <= B 900) -> (fin m' = true /\ Rabs (val m') <= B 900) -> (fin s' = true /\ Rabs (val s') <= B 900) ->
  val d <= val d' -> val m <= val m' -> val s <= val s' -> val (mul64 (f_combine d m s) (of_Z64 15)) <= val (mul64 (f_combine d' m' s') (of_Z64 15)).
Proof.
  intros Hd Hm Hs Hd' Hm' Hs' L1 L2 L3. destruct (hms_val d m s Hd Hm Hs) as [_ ->]. destruct (hms_val d' m' s' Hd' Hm' Hs') as [_ ->].
  apply rnd64_le. apply Rmult_le_compat_r; [lra|]. apply combine_mono; assumption.
Qed.
Lemma named pyfloat a d m s : names pyfloat a d m s -> f_fields pyfloat a = Ok (d, m, s) /\ (fin d = true /\ Rabs (val d) <= B 900) /\ (fin m = true /\ Rabs (val m) <= B 900) /\ (fin s = true /\ Rabs (val s) <= B 900).
Proof.
  intros [H F]. split; [|split; [|split]; apply F; cbn; auto]. destruct H as [-> |(td & tm & ts & -> & N1 & N2 & N3 & P1 & P2 & P3)]; [reflexivity|].
  unfold f_fields. assert (SP : split_on ":"%char (td ++ ":" ++ tm ++ ":" ++ ts)%string = [td; tm; ts]).
  { change (":" ++ tm ++ ":" ++ ts)%string with (String ":"%char (tm ++ String ":"%char ts)). rewrite split_on_app, split_on_app, !split_on_nochar by assumption. reflexivity. }
  rewrite SP. cbn [mapM]. rewrite P1, P2, P3. reflexivity.
Qed.
