(** Proofs for C92: middles and locate. *)
From Coq Require Import ZArith Reals Lra Lia List Bool.
Require Import Flocq.Core.Core Flocq.IEEE754.BinarySingleNaN.
From Verif Require Import Base ProcFloat InterpFloatProofs MeshFloatModel MeshFloatProofs BinFloatProofs FredModel FredSpec FredProofs FredProofs2 FredProofs3 FredProofs4 FquaModel FquaSpec FquaProofs FquaProofs2 GfltModel GfltSpec GfltProofs.
Import ListNotations. Local Open Scope list_scope. Local Open Scope R_scope.

Lemma rnd_twice x : fin x = true -> Rabs (val x) <= B 1022 -> rnd64 (2 * val x) = 2 * val x.
Proof.
  intros F H. destruct (val_grid x) as [k E]. pose proof (format64 x) as G. rewrite fexp_FLT in G. apply format_FLT.
  destruct (Req_dec (val x) 0) as [Z|N]; [rewrite Z, Rmult_0_r; apply generic_format_0|].
  replace (2 * val x) with (val x * B 1) by (change (B 1) with 2; ring).
  apply FLT_format_generic in G; [|exact p53]. destruct G as [[m e] E1 M1 M2]. cbn [Fnum Fexp] in *. apply generic_format_FLT. exists (Float radix2 m (e + 1)); cbn [Fnum Fexp]; [|exact M1|lia].
  rewrite E1. unfold F2R. cbn [Fnum Fexp]. rewrite bpow_plus. ring.
Qed.
Definition mid (a b : b64) : b64 := mul64 half64 (add64 a b).
Lemma mid_facts a b : fin a = true -> fin b = true -> Rabs (val a) <= B 1022 -> Rabs (val b) <= B 1022 ->
  fin (mid a b) = true /\ val (mid a b) = rnd64 (rnd64 (val a + val b) / 2) /\ Rabs (val (mid a b) - (val a + val b) / 2) <= B (-53) * Rabs ((val a + val b) / 2) + B (-1075).
Proof.
  intros Fa Fb Ha Hb. destruct half64_val as [VH FH]. assert (E23 : B 1023 = 2 * B 1022) by (change 1023%Z with (1 + 1022)%Z; rewrite bpow_plus; reflexivity).
  pose proof (u_pos 1022). assert (S : Rabs (val a + val b) <= B 1023) by (eapply Rle_trans; [apply Rabs_triang|]; lra).
  destruct (add64_b a b Fa Fb S) as [F1 V1]. assert (R1 : Rabs (rnd64 (val a + val b)) <= B 1023) by (apply rnd64_bound; [lia|exact S]).
  assert (P : Rabs (val half64 * val (add64 a b)) <= B 1023).
  { rewrite VH, V1, Rabs_mult, Rabs_right by lra. pose proof (Rabs_pos (rnd64 (val a + val b))). lra. }
  destruct (mul64_b half64 (add64 a b) FH F1 P) as [F2 V2]. unfold mid. split; [exact F2|].
  assert (V : val (mul64 half64 (add64 a b)) = rnd64 (rnd64 (val a + val b) / 2)) by (rewrite V2, VH, V1; f_equal; field).
  split; [exact V|]. rewrite V.
  (* halving commutes with rounding unless underflow *)
  destruct (Rle_or_lt (B (-1021)) (Rabs (rnd64 (val a + val b)))) as [L|L].
  - assert (X : rnd64 (rnd64 (val a + val b) / 2) = rnd64 (val a + val b) / 2).
    { rewrite <- V1. set (w := add64 a b) in *. rewrite <- V1 in L. pose proof (format64 w) as G. rewrite fexp_FLT in G. apply format_FLT. apply generic_format_FLT.
      destruct (Rle_or_lt 0 (val w)) as [P0|P0].
      - rewrite Rabs_right in L by lra. destruct (decompose (val w) G) as (m & e & E & M & Ee). { eapply Rle_trans; [|exact L]. apply bpow_le. lia. }
        exists (Float radix2 m (e - 1)); cbn [Fnum Fexp].
        + rewrite E. unfold F2R. cbn [Fnum Fexp]. unfold Zminus. rewrite bpow_plus. change (B (- (1))) with (/ 2). field.
        + change (radix_val radix2 ^ 53)%Z with (2 ^ 53)%Z. lia.
        + destruct (Z.le_gt_cases (-1074) (e - 1)) as [K|K]; [lia|]. exfalso. assert (e = -1074)%Z by lia. subst e. rewrite E in L. apply Rle_not_lt in L. apply L.
          replace (B (-1021)) with (B 53 * B (-1074)) by (rewrite <- bpow_plus; reflexivity). apply Rmult_lt_compat_r; [apply bpow_gt_0|]. change (B 53) with (IZR (2 ^ 53)). apply IZR_lt. lia.
      - rewrite Rabs_left in L by lra. destruct (decompose (- val w)) as (m & e & E & M & Ee). { apply generic_format_opp. exact G. } { eapply Rle_trans; [|exact L]. apply bpow_le. lia. }
        exists (Float radix2 (- m) (e - 1)); cbn [Fnum Fexp].
        + replace (val w) with (- (- val w)) by ring. rewrite E. unfold F2R. cbn [Fnum Fexp]. rewrite opp_IZR. unfold Zminus. rewrite bpow_plus. change (B (- (1))) with (/ 2). field.
        + change (radix_val radix2 ^ 53)%Z with (2 ^ 53)%Z. lia.
        + destruct (Z.le_gt_cases (-1074) (e - 1)) as [K|K]; [lia|]. exfalso. assert (e = -1074)%Z by lia. subst e. rewrite E in L. apply Rle_not_lt in L. apply L.
          replace (B (-1021)) with (B 53 * B (-1074)) by (rewrite <- bpow_plus; reflexivity). apply Rmult_lt_compat_r; [apply bpow_gt_0|]. change (B 53) with (IZR (2 ^ 53)). apply IZR_lt. lia. }
    rewrite X. destruct (plus_rel a b) as (d & Hd & ->). replace (_ - _) with ((val a + val b) / 2 * d) by field. rewrite Rabs_mult, Rmult_comm.
    pose proof (u_pos (-1075)). pose proof (Rmult_le_compat_r (Rabs ((val a + val b) / 2)) _ _ (Rabs_pos _) Hd). lra.
  - (* below 2^-1021 sums are exact *)
    assert (X : rnd64 (val a + val b) = val a + val b).
    { destruct (val_grid a) as [ka Ea]. destruct (val_grid b) as [kb Eb].
      assert (Q : val a + val b = IZR (ka + kb) * B (-1074)) by (rewrite plus_IZR, Ea, Eb; ring). rewrite Q. apply format_int; [|lia].
      apply Znot_gt_le. intros C. apply Rlt_not_le in L. apply L.
      assert (M : B (-1021) <= Rabs (val a + val b)).
      { rewrite Q, Rabs_mult, (Rabs_right (B (-1074))), <- abs_IZR by (pose proof (u_pos (-1074)); lra). replace (B (-1021)) with (IZR (2 ^ 53) * B (-1074)) by (change (IZR (2 ^ 53)) with (B 53); rewrite <- bpow_plus; reflexivity).
        apply Rmult_le_compat_r; [apply bpow_ge_0|]. apply IZR_le. lia. }
      apply Rabs_ge. assert (M' : val a + val b <= - B (-1021) \/ B (-1021) <= val a + val b) by (unfold Rabs in M; destruct (Rcase_abs (val a + val b)); [left|right]; lra). clear M. destruct M' as [M|M]; [left|right].
      - replace (- B (-1021)) with (rnd64 (- B (-1021))); [apply rnd64_le; lra|]. rewrite <- (Rmult_1_l (B (-1021))). replace (- (1 * B (-1021))) with (IZR (-1) * B (-1021)) by ring. apply format_int; lia.
      - replace (B (-1021)) with (rnd64 (B (-1021))); [apply rnd64_le; lra|]. rewrite <- (Rmult_1_l (B (-1021))). apply (format_int 1); lia. }
    rewrite X. apply err_abs.
Qed.
Lemma mid_between a b : fin a = true -> fin b = true -> Rabs (val a) <= B 1022 -> Rabs (val b) <= B 1022 -> val a <= val b -> val a <= val (mid a b) <= val b.
Proof.
  intros Fa Fb Ha Hb L. destruct (mid_facts a b Fa Fb Ha Hb) as (_ & -> & _).
  pose proof (rnd64_le (2 * val a) (val a + val b) ltac:(lra)) as L1. pose proof (rnd64_le (val a + val b) (2 * val b) ltac:(lra)) as L2.
  rewrite (rnd_twice a) in L1 by assumption. rewrite (rnd_twice b) in L2 by assumption.
  set (w := rnd64 (val a + val b)) in *. pose proof (rnd64_le (val a) (w / 2) ltac:(lra)) as K1. pose proof (rnd64_le (w / 2) (val b) ltac:(lra)) as K2. rewrite rnd64_val in K1, K2. split; assumption.
Qed.
Lemma mid_mono a b a' b' : fin a = true -> fin b = true -> fin a' = true -> fin b' = true -> Rabs (val a) <= B 1022 -> Rabs (val b) <= B 1022 -> Rabs (val a') <= B 1022 -> Rabs (val b') <= B 1022 ->
  val a <= val a' -> val b <= val b' -> val (mid a b) <= val (mid a' b').
Proof.
  intros. destruct (mid_facts a b) as (_ & -> & _); try assumption. destruct (mid_facts a' b') as (_ & -> & _); try assumption.
  apply rnd64_le. apply Rmult_le_compat_r; [lra|]. apply rnd64_le. lra.
Qed.
Lemma middles_nth l i : nth_error (f_middles l) i = match nth_error l i, nth_error l (S i) with Some a, Some b => Some (mid a b) | _, _ => None end.
Proof.
  unfold f_middles. rewrite nth_error_map. revert i. induction l as [|x l IH]; intros i; [destruct i; reflexivity|].
  destruct l as [|y l]; [destruct i; cbn; [reflexivity|destruct i; reflexivity]|].
  destruct i as [|i]; [reflexivity|]. exact (IH i).
Qed.
Lemma middles_len l : length (f_middles l) = (length l - 1)%nat.
Proof. unfold f_middles. rewrite map_length, combine_length. destruct l; cbn [tl length]; lia. Qed.
Lemma middles_some l i m : nth_error (f_middles l) i = Some m -> exists a b, nth_error l i = Some a /\ nth_error l (S i) = Some b /\ m = mid a b.
Proof. rewrite middles_nth. destruct (nth_error l i) as [a|]; [|discriminate]. destruct (nth_error l (S i)) as [b|]; [|discriminate]. intros [= <-]. eauto. Qed.
Lemma at_most_nth k l i a : at_most k l -> nth_error l i = Some a -> fin a = true /\ Rabs (val a) <= B k.
Proof. intros H E. apply nth_error_In in E. unfold at_most in H. rewrite Forall_forall in H. exact (H a E). Qed.
Lemma middles_ascending l : ascending l -> at_most 1022 l -> ascending (f_middles l).
Proof.
  intros [_ A] M. split.
  - apply Forall_forall. intros v I. apply In_nth_error in I. destruct I as [i I]. apply middles_some in I. destruct I as (a & b & I1 & I2 & ->).
    destruct (at_most_nth _ _ _ _ M I1), (at_most_nth _ _ _ _ M I2). apply mid_facts; assumption.
  - intros i j a b L I J. apply middles_some in I, J. destruct I as (a1 & b1 & I1 & I2 & ->), J as (a2 & b2 & J1 & J2 & ->).
    destruct (at_most_nth _ _ _ _ M I1), (at_most_nth _ _ _ _ M I2), (at_most_nth _ _ _ _ M J1), (at_most_nth _ _ _ _ M J2).
    apply mid_mono; try assumption; [apply (A i j)|apply (A (S i) (S j))]; try assumption; lia.
Qed.
(** locate counts the locations not above x; on ascending locations those are the first ones. *)
Lemma count_prefix {A} (f : A -> bool) l : (forall i j a b, (i <= j)%nat -> nth_error l i = Some a -> nth_error l j = Some b -> f b = true -> f a = true) ->
  forall i a, nth_error l i = Some a -> (f a = true <-> (i < length (filter f l))%nat).
Proof.
  induction l as [|x l IH]; intros H i a E; [destruct i; discriminate|]. destruct i as [|i].
  - cbn in E. injection E as ->. cbn [filter]. destruct (f a) eqn:Fa; [cbn [length]; split; [lia|reflexivity]|].
    split; [discriminate|]. intros L. exfalso. destruct (filter f l) as [|y r] eqn:Fl; [cbn in L; lia|].
    assert (I : In y l /\ f y = true) by (apply filter_In; rewrite Fl; left; reflexivity). destruct I as [I Fy]. apply In_nth_error in I. destruct I as [j I].
    rewrite (H 0%nat (S j) a y ltac:(lia) eq_refl I Fy) in Fa. discriminate.
  - cbn [nth_error] in E. assert (P : f a = true -> f x = true) by (intros Fa; exact (H 0%nat (S i) x a ltac:(lia) eq_refl E Fa)).
    assert (IH' := IH (fun i j a b L A1 A2 => H (S i) (S j) a b ltac:(lia) A1 A2) i a E). cbn [filter]. destruct (f x) eqn:Fx.
    + cbn [length]. rewrite IH'. lia.
    + split; [intros Fa; discriminate (P Fa)|]. intros L. exfalso. assert (Fa : f a = true) by (apply IH'; lia). discriminate (P Fa).
Qed.
Lemma locate_iff l x i a : ascending l -> fin x = true -> nth_error l i = Some a -> (val a <= val x <-> (Z.of_nat i <= f_grid_locate l x)%Z).
Proof.
  intros [F A] Fx E. assert (Fn : forall j b, nth_error l j = Some b -> fin b = true) by (intros j b H; apply nth_error_In in H; rewrite Forall_forall in F; exact (F b H)).
  assert (LE : forall b, fin b = true -> (Bleb b x || is_nan x = true <-> val b <= val x)).
  { intros b Fb. replace (is_nan x) with false by (destruct x; try discriminate; reflexivity). rewrite orb_false_r, Bleb_val by assumption. destruct (Rle_bool_spec (val b) (val x)); split; intros; try assumption; try reflexivity; [discriminate|lra]. }
  pose proof (count_prefix (fun b => Bleb b x || is_nan x) l) as C. rewrite <- (LE a) by eauto. assert (C1 : (Bleb a x || is_nan x = true) <-> (i < length (filter (fun b => Bleb b x || is_nan x) l))%nat).
  2:{ rewrite C1. unfold f_grid_locate. set (n := length _). clear. lia. }
  apply C; [|exact E].
  intros i0 j a0 b0 L I J Fb. apply LE; [eauto|]. apply LE in Fb; [|eauto]. pose proof (A i0 j a0 b0 L I J). lra.
Qed.
Lemma locate_bounds l x : (-1 <= f_grid_locate l x < Z.of_nat (length l))%Z.
Proof. unfold f_grid_locate. match goal with |- (_ <= Z.of_nat ?k - 1 < Z.of_nat ?n)%Z => assert (k <= n)%nat by apply filter_le; lia end. Qed.
Lemma locate_nan l : f_grid_locate l B754_nan = (Z.of_nat (length l) - 1)%Z.
Proof.
  unfold f_grid_locate. f_equal. f_equal. f_equal. induction l as [|a l IH]; [reflexivity|]. cbn [filter]. rewrite orb_true_r. f_equal. exact IH.
Qed.
