(** C93: sexagesimal angles and nearest images in double precision. *)
From Coq Require Import ZArith Reals Lra Lia List Bool.
Require Import Flocq.Core.Core Flocq.IEEE754.BinarySingleNaN.
From Verif Require Import Base Str ProcModel ProcSpec ProcProofs2 ProcFloat InterpFloatProofs MeshFloatModel MeshFloatProofs BinFloatProofs FredModel FredProofs FquaProofs FquaProofs2 FquaProps GfltProofs2 GfltProofs3 GfltProofs4 AngModel AngSpec AngProofs AngProofs2.
Import ListNotations. Local Open Scope list_scope. Local Open Scope R_scope.

Lemma dms_is pyfloat a d m s : names pyfloat a d m s -> f_dms_to_deg pyfloat a = Ok (f_combine d m s).
Proof. intros H. apply named in H. unfold f_dms_to_deg. destruct H as [-> _]. reflexivity. Qed.
Lemma hms_is pyfloat a d m s : names pyfloat a d m s -> f_hms_to_deg pyfloat a = Ok (mul64 (f_combine d m s) (of_Z64 15)).
Proof. intros H. apply named in H. unfold f_hms_to_deg. destruct H as [-> _]. reflexivity. Qed.

Lemma whole k : (Z.abs k <= 2 ^ 53)%Z -> rnd64 (IZR k) = IZR k.
Proof. intros K. rewrite <- (Rmult_1_r (IZR k)). change 1 with (B 0). apply format_int; lia. Qed.
Lemma le_of x y : Bleb x y = true -> fin x = true -> fin y = true -> val x <= val y.
Proof. intros E F G. rewrite Bleb_val in E by assumption. destruct (Rle_bool_spec (val x) (val y)); [assumption|discriminate]. Qed.
(** The degrees returned are finite and off the exact ones by rounding only. *)
Theorem C93_angle_accuracy pyfloat a d m s : names pyfloat a d m s ->
  (exists v, f_dms_to_deg pyfloat a = Ok v /\ fin v = true /\
     Rabs (val v - angle (val d) (val m) (val s)) <= bpow radix2 (-51) * angle_size (val d) (val m) (val s) + bpow radix2 (-1073)) /\
  (exists v, f_hms_to_deg pyfloat a = Ok v /\ fin v = true /\
     Rabs (val v - 15 * angle (val d) (val m) (val s)) <= 15 * (bpow radix2 (-50) * angle_size (val d) (val m) (val s) + bpow radix2 (-1072))).
Proof.
  intros H. destruct (named _ _ _ _ _ H) as (_ & Hd & Hm & Hs). split.
  - eexists. split; [apply dms_is, H|]. split; [apply combine_val; assumption|]. apply combine_err; assumption.
  - eexists. split; [apply hms_is, H|]. split; [apply hms_val; assumption|]. apply hms_err; assumption.
Qed.
Print Assumptions C93_angle_accuracy.
(** Raising a field never lowers the result. *)
Theorem C93_angle_monotone pyfloat a a' d m s d' m' s' : names pyfloat a d m s -> names pyfloat a' d' m' s' ->
  val d <= val d' -> val m <= val m' -> val s <= val s' ->
  (exists v v', f_dms_to_deg pyfloat a = Ok v /\ f_dms_to_deg pyfloat a' = Ok v' /\ val v <= val v') /\
  (exists v v', f_hms_to_deg pyfloat a = Ok v /\ f_hms_to_deg pyfloat a' = Ok v' /\ val v <= val v').
Proof.
  intros H H' L1 L2 L3. destruct (named _ _ _ _ _ H) as (_ & Hd & Hm & Hs). destruct (named _ _ _ _ _ H') as (_ & Hd' & Hm' & Hs'). split.
  - eexists _, _. split; [apply dms_is, H|]. split; [apply dms_is, H'|]. apply combine_mono; assumption.
  - eexists _, _. split; [apply hms_is, H|]. split; [apply hms_is, H'|]. apply hms_mono; assumption.
Qed.
Print Assumptions C93_angle_monotone.
(** Without minutes and seconds the degrees are returned exactly; so are 15 times the hours, for whole hours up to 2^49. *)
Theorem C93_angle_whole pyfloat a d m s : names pyfloat a d m s -> val m = 0 -> val s = 0 ->
  (exists v, f_dms_to_deg pyfloat a = Ok v /\ val v = val d) /\
  (forall k, val d = IZR k -> (Z.abs k <= 2 ^ 49)%Z -> exists v, f_hms_to_deg pyfloat a = Ok v /\ val v = 15 * IZR k).
Proof.
  intros H M S. destruct (named _ _ _ _ _ H) as (_ & Hd & Hm & Hs).
  assert (V : val (f_combine d m s) = val d).
  { destruct (combine_val d m s Hd Hm Hs) as (_ & _ & A & C & _ & _ & VA & VC & _ & V1 & V2). rewrite M in VA. rewrite S in VC.
    replace (0 / 60) with 0 in VA by lra. replace (0 / 3600) with 0 in VC by lra. rewrite rnd64_0 in VA, VC.
    rewrite VA, Rplus_0_r, rnd64_val in V1. rewrite VC, Rplus_0_r, rnd64_val in V2. congruence. }
  split; [eexists; split; [apply dms_is, H|exact V]|]. intros k K L. eexists. split; [apply hms_is, H|]. destruct (hms_val d m s Hd Hm Hs) as [_ ->]. rewrite V, K.
  replace (IZR k * 15) with (15 * IZR k) by ring. rewrite <- mult_IZR. apply whole. change (2 ^ 53)%Z with (16 * 2 ^ 49)%Z. lia.
Qed.
Print Assumptions C93_angle_whole.
(** Fields in their usual ranges give 0 to 360 degrees. *)
Theorem C93_angle_range pyfloat a d m s : names pyfloat a d m s -> 0 <= val m <= 59 -> 0 <= val s <= 60 ->
  (0 <= val d <= 359 -> exists v, f_dms_to_deg pyfloat a = Ok v /\ 0 <= val v <= 360) /\
  (0 <= val d <= 23 -> exists v, f_hms_to_deg pyfloat a = Ok v /\ 0 <= val v <= 360) /\
  (0 <= val d <= 89 -> exists v, f_dms_to_deg pyfloat a = Ok v /\ 0 <= val v <= 90).
Proof.
  intros H M S. destruct (named _ _ _ _ _ H) as (_ & Hd & Hm & Hs).
  assert (N : forall k, (0 <= k <= 360)%Z -> (fin (of_Z64 k) = true /\ Rabs (val (of_Z64 k)) <= B 900) /\ val (of_Z64 k) = IZR k).
  { intros k K. destruct (of_Z64_exact k ltac:(lia)) as [Fk Vk]. split; [split; [first [exact Fk|exact Vk]|]|first [exact Fk|exact Vk]].
    assert (E : val (of_Z64 k) = IZR k) by first [exact Fk|exact Vk]. rewrite E, <- abs_IZR. apply Rle_trans with (B 10); [change (B 10) with (IZR 1024); apply IZR_le; lia|apply bpow_le; lia]. }
  destruct (N 0%Z ltac:(lia)) as [G0 V0]. destruct (N 59%Z ltac:(lia)) as [G59 V59]. destruct (N 60%Z ltac:(lia)) as [G60 V60].
  assert (W : forall k top, (0 <= k <= 360)%Z -> Bleb (f_combine (of_Z64 k) (of_Z64 59) (of_Z64 60)) (of_Z64 top) = true -> (0 <= top <= 360)%Z -> 0 <= val d <= IZR k -> 0 <= val (f_combine d m s) <= IZR top).
  { intros k top K E T D. destruct (N k K) as [Gk Vk]. destruct (N top T) as [_ Vt]. split.
    - assert (Z : Bleb (of_Z64 0) (f_combine (of_Z64 0) (of_Z64 0) (of_Z64 0)) = true) by (vm_compute; reflexivity). apply le_of in Z; [|apply G0|apply combine_val; assumption]. rewrite V0 in Z. eapply Rle_trans; [exact Z|].
      apply combine_mono; try assumption; rewrite V0; lra.
    - rewrite <- Vt. apply le_of in E; [|apply combine_val; assumption|apply N, T]. eapply Rle_trans; [|exact E]. apply combine_mono; try assumption; lra. }
  split; [|split]; intros D; eexists.
  - split; [apply dms_is, H|]. apply (W 359%Z 360%Z); [lia|vm_compute; reflexivity|lia|exact D].
  - split; [apply hms_is, H|]. destruct (hms_val d m s Hd Hm Hs) as [_ ->]. assert (Q := W 23%Z 24%Z ltac:(lia) ltac:(vm_compute; reflexivity) ltac:(lia) D). split.
    + rewrite <- rnd64_0. apply rnd64_le. lra.
    + rewrite <- (whole 360) by lia. apply rnd64_le. lra.
  - split; [apply dms_is, H|]. apply (W 89%Z 90%Z); [lia|vm_compute; reflexivity|lia|exact D].
Qed.
Print Assumptions C93_angle_range.
(** 359:59:59.99999999999999 is 360 degrees (and 23:59:59.99999999999999 too): the strict bound of the exact angle is lost. *)
(** The double below 60: (60 * 2^47 - 1) / 2^47. *)
Definition almost60 : b64 := @B754_finite 53 1024 false 8444249301319679 (-47) eq_refl.
Theorem C93_angle_range_refuted pyfloat : val almost60 < 60 /\
  names pyfloat (FTup [of_Z64 359; of_Z64 59; almost60]) (of_Z64 359) (of_Z64 59) almost60 /\ angle 359 59 (val almost60) < 360 /\
  (exists v, f_dms_to_deg pyfloat (FTup [of_Z64 359; of_Z64 59; almost60]) = Ok v /\ val v = 360) /\
  (exists v, f_hms_to_deg pyfloat (FTup [of_Z64 23; of_Z64 59; almost60]) = Ok v /\ val v = 360).
Proof.
  assert (L : val almost60 = IZR (60 * 2 ^ 47 - 1) * B (-47)).
  { reflexivity. }
  assert (L60 : val almost60 < 60). { rewrite L. replace 60 with (IZR (60 * 2 ^ 47) * B (-47)). 2:{ rewrite mult_IZR. change (IZR (2 ^ 47)) with (B 47). rewrite Rmult_assoc, <- bpow_plus. change (B (47 + -47)) with 1. ring. }
    apply Rmult_lt_compat_r; [apply bpow_gt_0|]. apply IZR_lt. lia. }
  assert (P60 : 0 <= val almost60). { rewrite L. apply Rmult_le_pos; [apply IZR_le; lia|apply bpow_ge_0]. }
  split; [exact L60|]. split.
  { split; [left; reflexivity|]. assert (N : forall k, (0 <= k <= 360)%Z -> fin (of_Z64 k) = true /\ Rabs (val (of_Z64 k)) <= B 900).
    { intros k K. destruct (of_Z64_exact k ltac:(lia)) as [E Fk]. split; [exact Fk|]. rewrite E, <- abs_IZR. apply Rle_trans with (B 10); [change (B 10) with (IZR 1024); apply IZR_le; lia|apply bpow_le; lia]. }
    intros v [<-|[<-|[<-|[]]]]; [apply N; lia|apply N; lia|]. split; [vm_compute; reflexivity|]. rewrite Rabs_right by lra. apply Rle_trans with (B 10); [change (B 10) with (IZR 1024); lra|apply bpow_le; lia]. }
  split; [unfold angle; lra|].
  assert (T : forall v, Beqb v (of_Z64 360) = true -> fin v = true -> val v = 360).
  { intros v E F. destruct (of_Z64_exact 360 ltac:(lia)) as [V360 F360]. rewrite Beqb_correct in E by assumption. destruct (Req_bool_spec (B2R v) (B2R (of_Z64 360))) as [Q|]; [|discriminate]. unfold val in *. rewrite Q, V360. reflexivity. }
  split; eexists; (split; [reflexivity|]); apply T; vm_compute; reflexivity.
Qed.
Print Assumptions C93_angle_range_refuted.
(** Angles given in whole degrees, minutes and seconds keep their order: one second apart is told apart, up to 2^36 degrees. *)
Theorem C93_seconds_distinct pyfloat a a' d m s d' m' s' : names pyfloat a (of_Z64 d) (of_Z64 m) (of_Z64 s) -> names pyfloat a' (of_Z64 d') (of_Z64 m') (of_Z64 s') ->
  (forall k, In k [d; d'] -> (Z.abs k <= 2 ^ 35)%Z) -> (forall k, In k [m; m'; s; s'] -> (Z.abs k <= 2 ^ 35)%Z) ->
  (3600 * d + 60 * m + s < 3600 * d' + 60 * m' + s')%Z ->
  (exists v v', f_dms_to_deg pyfloat a = Ok v /\ f_dms_to_deg pyfloat a' = Ok v' /\ val v < val v') /\
  (exists v v', f_hms_to_deg pyfloat a = Ok v /\ f_hms_to_deg pyfloat a' = Ok v' /\ val v < val v').
Proof.
  intros H H' D M L. destruct (named _ _ _ _ _ H) as (_ & Hd & Hm & Hs). destruct (named _ _ _ _ _ H') as (_ & Hd' & Hm' & Hs').
  assert (V : forall k, (Z.abs k <= 2 ^ 35)%Z -> val (of_Z64 k) = IZR k /\ Rabs (IZR k) <= 2 ^ 35).
  { intros k K. split; [apply of_Z64_exact; lia|]. rewrite <- abs_IZR. replace (2 ^ 35) with (IZR (2 ^ 35)) by (symmetry; exact (pow_IZR 2 35)). apply IZR_le, K. }
  destruct (V d) as [Vd Sd]; [apply D; cbn; auto|]. destruct (V d') as [Vd' Sd']; [apply D; cbn; auto|]. destruct (V m) as [Vm Sm]; [apply M; cbn; auto|]. destruct (V m') as [Vm' Sm']; [apply M; cbn; auto|].
  destruct (V s) as [Vs Ss]; [apply M; cbn; auto|]. destruct (V s') as [Vs' Ss']; [apply M; cbn; auto|].
  assert (E1 := combine_err _ _ _ Hd Hm Hs). assert (E2 := combine_err _ _ _ Hd' Hm' Hs'). assert (E3 := hms_err _ _ _ Hd Hm Hs). assert (E4 := hms_err _ _ _ Hd' Hm' Hs').
  rewrite Vd, Vm, Vs in E1, E3. rewrite Vd', Vm', Vs' in E2, E4.
  assert (T : angle (IZR d) (IZR m) (IZR s) + / 3600 <= angle (IZR d') (IZR m') (IZR s')).
  { unfold angle. assert (I : (3600 * d + 60 * m + s + 1 <= 3600 * d' + 60 * m' + s')%Z) by lia. apply IZR_le in I. rewrite !plus_IZR, !mult_IZR in I. lra. }
  assert (Z : forall x y z, Rabs x <= 2 ^ 35 -> Rabs y <= 2 ^ 35 -> Rabs z <= 2 ^ 35 -> B (-50) * angle_size x y z + B (-1072) <= / 16384 /\ 2 * (B (-51) * angle_size x y z + B (-1073)) <= / 16384).
  { intros x y z X Y Z0. assert (SZ : angle_size x y z <= 2 ^ 35 * (1 + / 60 + / 3600)) by (unfold angle_size; lra).
    assert (T1 : B (-1072) <= / 2 ^ 40). { replace (2 ^ 40) with (B 40) by (symmetry; exact (pow_IZR 2 40)). rewrite <- bpow_opp. apply bpow_le. lia. }
    assert (U50 : B (-50) = / 2 ^ 50) by (replace (2 ^ 50) with (B 50) by (symmetry; exact (pow_IZR 2 50)); rewrite <- bpow_opp; reflexivity).
    replace (B (-1072)) with (2 * B (-1073)) in * by (symmetry; apply E901; reflexivity). assert (U51 : 2 * B (-51) = B (-50)) by (symmetry; apply E901; reflexivity).
    assert (U : B (-50) * angle_size x y z <= / 2 ^ 50 * (2 ^ 35 * (1 + / 60 + / 3600))) by (rewrite U50; apply Rmult_le_compat_l; [lra|exact SZ]).
    assert (2 * (B (-51) * angle_size x y z) = B (-50) * angle_size x y z) by (rewrite <- U51; ring). assert (K : / 2 ^ 50 * (2 ^ 35 * (1 + / 60 + / 3600)) + / 2 ^ 40 <= / 16384) by lra. lra. }
  destruct (Z _ _ _ Sd Sm Ss) as [Z1 Z2]. destruct (Z _ _ _ Sd' Sm' Ss') as [Z3 Z4]. apply Rabs_le_inv in E1, E2, E3, E4.
  rewrite (dms_is _ _ _ _ _ H), (dms_is _ _ _ _ _ H'), (hms_is _ _ _ _ _ H), (hms_is _ _ _ _ _ H').
  split; eexists _, _; (split; [reflexivity|]); (split; [reflexivity|]); lra.
Qed.
Print Assumptions C93_seconds_distinct.
(** Anything but three fields raises ValueError; a part that is no number raises what float() raises. *)
Theorem C93_fields pyfloat :
  (forall l, length l <> 3%nat -> f_dms_to_deg pyfloat (FTup l) = Err ValueError /\ f_hms_to_deg pyfloat (FTup l) = Err ValueError) /\
  (forall s, length (split_on ":"%char s) <> 3%nat -> (forall p, In p (split_on ":"%char s) -> exists v, pyfloat p = Ok v) ->
     f_dms_to_deg pyfloat (FStr s) = Err ValueError /\ f_hms_to_deg pyfloat (FStr s) = Err ValueError) /\
  (forall s pre p post e, split_on ":"%char s = pre ++ p :: post -> (forall q, In q pre -> exists v, pyfloat q = Ok v) -> pyfloat p = Err e ->
     f_dms_to_deg pyfloat (FStr s) = Err e /\ f_hms_to_deg pyfloat (FStr s) = Err e).
Proof.
  assert (F : forall (l : list b64), length l <> 3%nat -> match l with [a; b; c] => Ok (a, b, c) | _ => Err ValueError end = Err ValueError) by (intros [|? [|? [|? [|? ?]]]] N; cbn in *; congruence).
  split; [|split].
  - intros l N. unfold f_dms_to_deg, f_hms_to_deg, f_fields. cbn [bind]. rewrite (F l N). auto.
  - intros s N P. unfold f_dms_to_deg, f_hms_to_deg, f_fields. set (ps := split_on ":"%char s) in *.
    assert (M : exists l, mapM pyfloat ps = Ok l /\ length l = length ps).
    { clearbody ps. clear N. induction ps as [|p ps IH]; [exists []; auto|]. destruct (P p ltac:(cbn; auto)) as [v V]. destruct IH as (l & E & L); [intros q Q; apply P; cbn; auto|].
      exists (v :: l). cbn [mapM]. rewrite V. cbn [bind]. rewrite E. cbn. auto. }
    destruct M as (l & -> & L). cbn [bind]. rewrite F by congruence. auto.
  - intros s pre p post e E P X. unfold f_dms_to_deg, f_hms_to_deg, f_fields. rewrite E.
    assert (M : mapM pyfloat (pre ++ p :: post) = Err e).
    { clear E. induction pre as [|q pre IH]; cbn [app mapM]; [rewrite X; reflexivity|]. destruct (P q ltac:(cbn; auto)) as [v ->]. cbn [bind]. rewrite IH; [reflexivity|]. intros r R. apply P. cbn. auto. }
    rewrite M. auto.
Qed.
Print Assumptions C93_fields.
(** shift_to in doubles: a selected coordinate becomes itself plus 0, 1 or -1 box lengths, off by one rounding; if it was within one and a half box
    lengths of the reference it is now within half a box length of it, and no image is nearer, up to rounding; others are returned as given. *)
Theorem C93_shift_to ref l w copy x : length ref = length x -> (forall m, w = Some m -> length m = length x) ->
  fin l = true -> bpow radix2 (-900) <= val l <= bpow radix2 900 -> (forall v, In v x \/ In v ref -> fin v = true /\ Rabs (val v) <= bpow radix2 900) ->
  let '(out, after) := shift_to arith64 ref l w copy x in
  length out = length x /\ after = (if copy then x else out) /\
  forall i v r o, nth_error x i = Some v -> nth_error ref i = Some r -> nth_error out i = Some o ->
    (match w with Some m => nth i m false | None => true end = false -> o = v) /\
    (match w with Some m => nth i m false | None => true end = true -> fin o = true /\
       (exists k, (k = -1 \/ k = 0 \/ k = 1)%Z /\ (k = 0%Z -> o = v) /\ Rabs (val o - (val v + IZR k * val l)) <= bpow radix2 (-53) * (Rabs (val v) + val l)) /\
       (Rabs (val v - val r) <= 3 / 2 * val l ->
          Rabs (val o - val r) <= val l / 2 + bpow radix2 (-52) * (Rabs (val v) + val l) /\
          forall j, Rabs (val o - val r) <= Rabs (val v + IZR j * val l - val r) + bpow radix2 (-51) * (Rabs (val v) + val l))).
Proof.
  intros LR LW Fl Bl Fx. pose proof (shift_to_shape arith64 ref l w copy x LR LW) as SH. pose proof (fun i v r => shift_to_nth arith64 ref l w copy x i v r LR LW) as NT.
  destruct (shift_to arith64 ref l w copy x) as [out after] eqn:E. cbn [fst] in NT. destruct SH as [SL SA]. split; [exact SL|]. split; [exact SA|].
  intros i v r o Ev Er Eo. rewrite (NT i v r Ev Er) in Eo. injection Eo as Eo.
  assert (W : match w with Some m => nth i m false | None => true end = sel_at w i) by (destruct w; reflexivity). rewrite W. destruct (Fx v (or_introl (nth_error_In _ _ Ev))) as [Fv Bv]. destruct (Fx r (or_intror (nth_error_In _ _ Er))) as [Fr Br].
  destruct (sel_at w i); split; intros SI; try discriminate; [|congruence]. subst o. destruct (shift_near l r v Fl Fr Fv Bl Br Bv) as (F & k & K & K0 & N & _).
  split; [exact F|]. split; [exists k; auto|]. intros T. apply shift_nearest; assumption.
Qed.
Print Assumptions C93_shift_to.
(** A coordinate clearly within half a box length of its reference stays as it is. *)
Theorem C93_shift_to_stays ref l w copy x i v r : length ref = length x -> (forall m, w = Some m -> length m = length x) ->
  fin l = true -> bpow radix2 (-900) <= val l <= bpow radix2 900 -> nth_error x i = Some v -> nth_error ref i = Some r ->
  fin v = true -> fin r = true -> Rabs (val v) <= bpow radix2 900 -> Rabs (val r) <= bpow radix2 900 ->
  Rabs (val v - val r) < val l / 2 * (1 - bpow radix2 (-52)) -> nth_error (fst (shift_to arith64 ref l w copy x)) i = Some v.
Proof.
  intros LR LW Fl Bl Ev Er Fv Fr Bv Br T. rewrite (shift_to_nth arith64 ref l w copy x i v r LR LW Ev Er). destruct (sel_at w i); [|reflexivity]. f_equal. apply shift_stays; assumption.
Qed.
Print Assumptions C93_shift_to_stays.
Lemma shift_one {T} (A : arith T) l r v : fst (shift_to A [r] l None true [v]) = [shift_to1 A l r v].
Proof.
  pose proof (shift_to_nth A [r] l None true [v] 0 v r eq_refl ltac:(discriminate) eq_refl eq_refl) as N. pose proof (shift_to_shape A [r] l None true [v] eq_refl ltac:(discriminate)) as H.
  destruct (shift_to A [r] l None true [v]) as [out af]. destruct H as [H _]. cbn [fst] in *. destruct out as [|o [|? ?]]; try discriminate. cbn in N. congruence.
Qed.
(** Shifting twice can move a coordinate back: -0.5 - 2^-52 in a box of 3 around 1 goes to 2.5 and then to -0.5. *)
Definition below_half : b64 := @B754_finite 53 1024 true 4503599627370498 (-53) eq_refl.
Theorem C93_shift_to_again_refuted : let go v := fst (shift_to arith64 [of_Z64 1] (of_Z64 3) None true [v]) in
  val below_half = - (1 / 2 + bpow radix2 (-52)) /\
  exists y z, go below_half = [y] /\ val y = 5 / 2 /\ go y = [z] /\ val z = - (1 / 2).
Proof.
  assert (T : forall v k, (Z.abs k <= 10)%Z -> Beqb v (div64 (of_Z64 k) (of_Z64 2)) = true -> fin v = true -> val v = IZR k / 2).
  { intros v k K E F. destruct (of_Z64_exact k ltac:(lia)) as [Vk Fk]. destruct (of_Z64_exact 2 ltac:(lia)) as [V2 F2].
    assert (KB : Rabs (IZR k / 2) <= B 10). { unfold Rdiv. rewrite Rabs_mult, (Rabs_right (/ 2)), <- abs_IZR by lra. apply IZR_le in K. change (B 10) with (IZR 1024). lra. }
    destruct (div64_b (of_Z64 k) (of_Z64 2) Fk) as [FD VD]; [rewrite V2; lra|rewrite Vk, V2; apply Rle_trans with (B 10); [exact KB|apply bpow_le; lia]|].
    rewrite Beqb_correct in E by assumption. destruct (Req_bool_spec (B2R v) (B2R (div64 (of_Z64 k) (of_Z64 2)))) as [Q|]; [|discriminate]. unfold val in *. rewrite Q, VD, Vk, V2.
    replace (IZR k / 2) with (IZR k * B (-1)) by (change (B (-1)) with (/ 2); reflexivity). apply format_int; lia. }
  intros go. split.
  - change (val below_half) with (IZR (- 4503599627370498) * B (-53)). replace (B (-53)) with (B (-52) / 2) by (rewrite (E901 (-53) (-52) eq_refl); field).
    replace (1 / 2) with (IZR (2 ^ 51) * B (-52)). 2:{ change (IZR (2 ^ 51)) with (B 51). rewrite <- bpow_plus. change (B (51 + -52)) with (/ 2). lra. } replace (IZR (- 4503599627370498)) with (- 2 * (IZR (2 ^ 51) + 1)) by (rewrite <- (plus_IZR (2 ^ 51) 1), <- mult_IZR; reflexivity). field.
  - exists (shift_to1 arith64 (of_Z64 3) (of_Z64 1) below_half), (shift_to1 arith64 (of_Z64 3) (of_Z64 1) (shift_to1 arith64 (of_Z64 3) (of_Z64 1) below_half)).
    split; [apply shift_one|]. split; [apply (T _ 5%Z); [lia|vm_compute; reflexivity|vm_compute; reflexivity]|].
    split; [apply shift_one|]. replace (- (1 / 2)) with (IZR (-1) / 2) by (change (IZR (-1)) with (- (1)); lra). apply T; [lia|vm_compute; reflexivity|vm_compute; reflexivity].
Qed.
Print Assumptions C93_shift_to_again_refuted.
(** Non-vacuity: "12:30:36" read as three numbers. *)
Definition read2 (s : string) : result b64 :=
  if (s =? "12")%string then Ok (of_Z64 12) else if (s =? "30")%string then Ok (of_Z64 30) else if (s =? "36")%string then Ok (of_Z64 36) else Err ValueError.
Example C93_ex : names read2 (FStr "12:30:36"%string) (of_Z64 12) (of_Z64 30) (of_Z64 36) /\
  match f_dms_to_deg read2 (FStr "12:30:36"%string) with Ok v => Beqb v (div64 (of_Z64 1251) (of_Z64 100)) | Err _ => false end = true /\
  match f_hms_to_deg read2 (FStr "12:30:36"%string) with Ok v => Bleb v (of_Z64 188) && Bleb (of_Z64 187) v | Err _ => false end = true /\
  f_dms_to_deg read2 (FStr "12:30"%string) = Err ValueError /\ f_dms_to_deg read2 (FStr "12:x:36"%string) = Err ValueError.
Proof.
  split; [|repeat split; vm_compute; reflexivity]. split; [right; exists "12"%string, "30"%string, "36"%string; repeat split; reflexivity|].
  assert (N : forall k, (0 <= k <= 360)%Z -> fin (of_Z64 k) = true /\ Rabs (val (of_Z64 k)) <= B 900).
  { intros k K. destruct (of_Z64_exact k ltac:(lia)) as [E Fk]. split; [exact Fk|]. rewrite E, <- abs_IZR. apply Rle_trans with (B 10); [change (B 10) with (IZR 1024); apply IZR_le; lia|apply bpow_le; lia]. }
  intros v [<-|[<-|[<-|[]]]]; apply N; lia.
Qed.
(** Box of 100, reference 95: the point 3 is moved to 103, the point 90 stays, an unselected one stays. *)
Example C93_ex_shift : match fst (shift_to arith64 (repeat (of_Z64 95) 3) (of_Z64 100) (Some [true; true; false]) true [of_Z64 3; of_Z64 90; of_Z64 3]) with
  | [a; b; c] => Beqb a (of_Z64 103) && Beqb b (of_Z64 90) && Beqb c (of_Z64 3) | _ => false end = true.
Proof. vm_compute; reflexivity. Qed.
