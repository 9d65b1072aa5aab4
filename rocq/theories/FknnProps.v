(** C98: neighbour regression and the masked fraction in double precision. *)
From Coq Require Import ZArith Reals Lra Lia List Bool.
Require Import Flocq.Core.Core Flocq.IEEE754.BinarySingleNaN.
From Verif Require Import Base ProcFloat InterpFloatProofs MeshFloatModel MeshFloatProofs FredModel FredSpec FredProofs FredProofs2 NfltProofs FknnModel FknnSpec FknnProofs FknnProofs2 FknnProofs3 FknnProofs4.
Import ListNotations. Local Open Scope list_scope. Local Open Scope R_scope.

(** The top-hat kernel is 1 strictly inside its radius and 0 elsewhere, exactly. *)
Theorem C98_tophat radius d : fin radius = true -> fin d = true ->
  fin (k_tophat radius d) = true /\ (val d < val radius -> val (k_tophat radius d) = 1) /\ (val radius <= val d -> val (k_tophat radius d) = 0).
Proof.
  intros Fr Fd. unfold k_tophat. rewrite (Bltb_correct 53 1024 d radius Fd Fr). fold (val d) (val radius). destruct (of_bool_val (Rlt_bool (val d) (val radius))) as [F V]. split; [exact F|]. rewrite V.
  destruct (Rlt_bool_spec (val d) (val radius)); split; intros; lra.
Qed.
Print Assumptions C98_tophat.

(** The Gaussian kernel at widths and distances up to 2^250 (widths from 2^-250): between 0 and 1, exactly 1 at distance 0, exactly 0 from 40 widths on, and the exponential
    of the exact exponent up to a relative error 2^-50 of the exponent. *)
Theorem C98_gauss E sigma d : exp_like E -> fin sigma = true -> fin d = true -> bpow radix2 (-250) <= val sigma <= bpow radix2 250 -> 0 <= val d <= bpow radix2 250 ->
  let q := val d * val d / (2 * (val sigma * val sigma)) in
  fin (k_gauss E sigma d) = true /\ 0 <= val (k_gauss E sigma d) <= 1 /\
  (exists t, Rabs (t + q) <= bpow radix2 (-50) * q + bpow radix2 (-500) /\ Rabs (val (k_gauss E sigma d) - exp t) <= bpow radix2 (-52) * exp t + bpow radix2 (-1075)) /\
  (val d = 0 -> val (k_gauss E sigma d) = 1) /\ (40 * val sigma <= val d -> val (k_gauss E sigma d) = 0).
Proof. apply gauss_spec. Qed.
Print Assumptions C98_gauss.

(** The sum over the neighbours closer than the limit. *)
Theorem C98_sum n w K r nb y : weights_ok n w -> kernel_ok K nb -> moderate w K nb -> finite y -> (Z.of_nat (length nb) <= 2 ^ 53)%Z ->
  Forall (fun p => Rabs (val (nth (snd p) y zero64)) <= bpow radix2 400 /\ wt w K p <= bpow radix2 400) nb ->
  fin (knn_sum y w K r nb) = true /\
  Rabs (val (knn_sum y w K r nb) - weighted y w K (near r nb)) <=
    (INR (np_depth (length nb)) + 1) * eps * Rsize (map (fun p => val (nth (snd p) y zero64) * wt w K p) (near r nb)) + INR (length nb) * bpow radix2 (-1074).
Proof. intros. eapply row_sum; eassumption. Qed.
Print Assumptions C98_sum.

(** The mean over the neighbours closer than the limit: the fill value without any; otherwise, if the total weight is not tiny, within (4 (26 + log2 (k / 56)) + 4) 2^-52 X of
    the exact weighted mean of the neighbours' values (X bounds their magnitude), so no further than that outside the range of these values. *)
Theorem C98_mean n w K r nb y fill X : weights_ok n w -> kernel_ok K nb -> moderate w K nb -> finite y -> (Z.of_nat (length nb) <= 2 ^ 53)%Z ->
  (near r nb = [] -> knn_mean fill y w K r nb = fill) /\
  (near r nb <> [] -> Forall (fun p => Rabs (val (nth (snd p) y zero64)) <= X) (near r nb) -> bpow radix2 (-900) <= weights w K (near r nb) <= bpow radix2 510 -> X <= bpow radix2 510 ->
   let t := (4 * INR (np_depth (length nb)) + 4) * eps * X + bpow radix2 (-100) in
   fin (knn_mean fill y w K r nb) = true /\ Rabs (val (knn_mean fill y w K r nb) - weighted y w K (near r nb) / weights w K (near r nb)) <= t /\
   (forall lo hi, Forall (fun p => lo <= val (nth (snd p) y zero64) <= hi) (near r nb) -> lo - t <= val (knn_mean fill y w K r nb) <= hi + t)).
Proof.
  intros W HK M Y N. split.
  - intros E. unfold knn_mean, f_mean. rewrite count_near by apply map_length. rewrite E. reflexivity.
  - intros Ne HX HS XB t. destruct (row_mean n w K nb r y W HK M Y N fill X Ne HX HS XB) as [F E]. split; [exact F|]. split; [exact E|]. intros lo hi H.
    assert (P : 0 < weights w K (near r nb)) by (pose proof (bpow_gt_0 radix2 (-900)); lra).
    assert (Q : lo <= weighted y w K (near r nb) / weights w K (near r nb) <= hi).
    { apply weighted_range; [|exact P]. pose proof (row_facts n w K nb W HK M) as Fr. rewrite Forall_forall in *. intros p Hp. destruct (Fr p (near_incl _ _ _ Hp)) as [[_ P0] V]. rewrite V in P0. split; [exact P0|exact (H p Hp)]. }
    unfold t. apply Rabs_le_inv in E. lra.
Qed.
Print Assumptions C98_mean.

(** Without weights at all to add up, e.g. when every neighbour is 40 widths of the Gaussian away, the mean is not a number, not the fill value. *)
Lemma zeros_nan x y : fin x = true -> val x = 0 -> fin y = true -> val y = 0 -> div64 x y = B754_nan.
Proof.
  intros Fx Vx Fy Vy. assert (Z : forall v, fin v = true -> val v = 0 -> exists s, v = B754_zero s).
  { intros [s|s| |s m e h] F V; try discriminate; [exists s; reflexivity|]. exfalso. apply (F2R_neq_0 radix2 (Float radix2 (cond_Zopp s (Zpos m)) e)); [destruct s; discriminate|exact V]. }
  destruct (Z x Fx Vx) as [s ->]. destruct (Z y Fy Vy) as [s' ->]. reflexivity.
Qed.
Lemma times_zero_r x f : finite x -> Forall (fun v => fin v = true /\ val v = 0) f -> Forall (fun v => fin v = true /\ val v = 0) (times x f).
Proof.
  intros H. revert f. unfold times. induction H as [|a x Fa _ IH]; intros f Hf; [constructor|]. destruct Hf as [|c f [Fc Vc] Hf]; cbn [combine map]; constructor; [|apply IH, Hf]. cbn [fst snd].
  destruct (mul64_b a c Fa Fc) as [F V]; [rewrite Vc, Rmult_0_r, Rabs_R0; apply bpow_ge_0|]. rewrite Vc, Rmult_0_r, rnd64_0 in V. auto.
Qed.
Lemma times_bools_zero f m : Forall (fun v => fin v = true /\ val v = 0) f -> Forall (fun v => fin v = true /\ val v = 0) (times f (map of_bool64 m)).
Proof. intros H. apply times_zero_list; [exact H|apply bools_nonneg]. Qed.
Theorem C98_no_weight n w K r nb y fill : weights_ok n w -> kernel_ok K nb -> moderate w K nb -> finite y -> Forall (fun p => wt w K p = 0) nb -> near r nb <> [] -> knn_mean fill y w K r nb = B754_nan.
Proof.
  intros W HK M Y Z Ne. unfold knn_mean, f_mean. rewrite count_near by apply map_length. destruct (Nat.ltb_spec (length (near r nb)) 1) as [L|_]; [exfalso; apply Ne; destruct (near r nb); [reflexivity|cbn in L; lia]|].
  pose proof (row_facts n w K nb W HK M) as F. destruct (row_weight w K nb) as [ws|] eqn:E.
  - apply row_some in E. assert (Zs : Forall (fun v => fin v = true /\ val v = 0) ws).
    { subst ws. apply Forall_map. rewrite Forall_forall in *. intros p Hp. destruct (F p Hp) as [[Fp _] V]. split; [exact Fp|]. rewrite V. exact (Z p Hp). }
    pose proof (pick_finite nb y Y) as Fy. assert (S1 : fin (f_sum np_sum (pick y nb) (Some ws) (row_mask r nb)) = true /\ val (f_sum np_sum (pick y nb) (Some ws) (row_mask r nb)) = 0).
    { unfold f_sum. eapply (sums_zero _ _ _ (np_sum_adds _)). destruct (row_mask r nb); apply times_zero_r; try exact Fy; [apply times_bools_zero|]; exact Zs. }
    assert (S2 : fin (f_sum np_sum ws None (row_mask r nb)) = true /\ val (f_sum np_sum ws None (row_mask r nb)) = 0).
    { unfold f_sum. eapply (sums_zero _ _ _ (np_sum_adds _)). destruct (row_mask r nb); [apply times_bools_zero|]; exact Zs. }
    apply zeros_nan; [apply S1|apply S1|apply S2|apply S2].
  - apply row_nothing in E. destruct E as [-> ->]. exfalso. destruct nb as [|p nb]; [apply Ne; destruct r; reflexivity|]. apply Forall_inv in Z. cbn [wt] in Z. lra.
Qed.
Print Assumptions C98_no_weight.
Theorem C98_far_refuted E sigma r nb y fill : exp_like E -> fin sigma = true -> bpow radix2 (-250) <= val sigma <= bpow radix2 250 -> finite y -> near r nb <> [] ->
  Forall (fun p => fin (fst p) = true /\ 40 * val sigma <= val (fst p) <= bpow radix2 250) nb ->
  knn_mean fill y None (Some (k_gauss E sigma)) r nb = B754_nan.
Proof.
  intros HE Fs Hs Y Ne H. pose proof (bpow_gt_0 radix2 (-250)) as P.
  assert (G : Forall (fun p => nonneg (k_gauss E sigma (fst p)) /\ val (k_gauss E sigma (fst p)) = 0) nb).
  { rewrite Forall_forall in *. intros p Hp. destruct (H p Hp) as [Fd Hd]. destruct (gauss_spec E sigma (fst p) HE Fs Fd Hs ltac:(lra)) as (F & R & _ & _ & Z). split; [split; [exact F|apply R]|apply Z; lra]. }
  apply (C98_no_weight 0); [intros ? Q; discriminate Q| |intros ? ? Q; discriminate Q|exact Y| |exact Ne].
  - intros k Q. injection Q as <-. eapply Forall_impl; [|exact G]. intros p [Hp _]. exact Hp.
  - eapply Forall_impl; [|exact G]. intros p [_ Hp]. exact Hp.
Qed.
Print Assumptions C98_far_refuted.

(** Widths whose square underflows: the Gaussian of width 2^-600 is not a number at distance 0. *)
Theorem C98_narrow_refuted E : E B754_nan = B754_nan -> exists sigma : b64, fin sigma = true /\ val sigma = bpow radix2 (-600) /\ k_gauss E sigma zero64 = B754_nan.
Proof.
  intros HE. exists (@B754_finite 53 1024 false 4503599627370496 (-652) eq_refl). split; [reflexivity|]. split.
  - unfold val. cbn [B2R cond_Zopp]. unfold F2R. cbn [Fnum Fexp]. change 4503599627370496 with (bpow radix2 52). rewrite <- bpow_plus. reflexivity.
  - unfold k_gauss. replace (div64 _ _) with (B754_nan : b64); [exact HE|]. apply B2SF_inj. vm_compute. reflexivity.
Qed.
Print Assumptions C98_narrow_refuted.

(** The masked fraction is a number from 0 to 1, and, when the neighbours' total weight is not tiny, within (4 (26 + log2 (k / 56)) + 5) 2^-52 of the exact one; it is marked
    invalid exactly when fewer neighbours than asked for are close enough. *)
Theorem C98_fraction mask weight K r k nb : weights_ok (length mask) weight -> within (length mask) nb -> kernel_ok K nb -> upto (bpow radix2 400) weight K nb -> (Z.of_nat (length nb) <= 2 ^ 53)%Z ->
  let f := fst (knn_fraction mask weight K r k nb) in
  fin f = true /\ 0 <= val f <= 1 /\
  (/ 1000000000 <= total weight K (near r nb) ->
   Rabs (val f - total weight K (marked mask (near r nb)) / total weight K (near r nb)) <= (4 * INR (np_depth (length nb)) + 5) * eps + bpow radix2 (-900)) /\
  (snd (knn_fraction mask weight K r k nb) = true <-> (Z.of_nat (length (near r nb)) < k)%Z).
Proof.
  intros W I HK U N f. destruct (fraction_unit mask weight K r nb W I HK U N k) as [F R]. split; [exact F|]. split; [exact R|]. split; [|apply fraction_flag]. intros H. apply fraction_value; assumption.
Qed.
Print Assumptions C98_fraction.

(** Masking more points never lowers it. *)
Theorem C98_fraction_mono mask mask' weight K r k nb : length mask' = length mask -> weights_ok (length mask) weight -> within (length mask) nb -> kernel_ok K nb -> upto (bpow radix2 400) weight K nb -> (Z.of_nat (length nb) <= 2 ^ 53)%Z ->
  Forall (fun p => nth (snd p) mask false = true -> nth (snd p) mask' false = true) nb ->
  val (fst (knn_fraction mask weight K r k nb)) <= val (fst (knn_fraction mask' weight K r k nb)).
Proof.
  intros L W I HK U N M. pose proof (sum_marked mask weight K r nb W I HK U N) as (Fm & Rm & _). assert (I' : within (length mask') nb) by (rewrite L; exact I). assert (W' : weights_ok (length mask') weight) by (rewrite L; exact W).
  pose proof (sum_marked mask' weight K r nb W' I' HK U N) as (Fm' & Rm' & _). pose proof (sum_all mask weight K r nb W I HK U N) as (Fa & Pa & _). unfold knn_fraction. cbn [fst]. rewrite L in Fm', Rm'. rewrite L.
  set (t := training_weight (length mask) weight) in *. destruct (clip_facts _ (conj Fa Pa)) as (Fc & Pc & Lc & _). set (c := clip_low (knn_sum t None K r nb)) in *.
  destruct (quotient_unit _ c (conj Fm (proj1 Rm)) Fc Pc ltac:(lra)) as (_ & -> & _). destruct (quotient_unit _ c (conj Fm' (proj1 Rm')) Fc Pc ltac:(lra)) as (_ & -> & _). apply rnd64_le. apply Rmult_le_compat_r; [left; apply Rinv_0_lt_compat, Pc|].
  assert (Q : below (knn_sum (masked_weight mask t) None K r nb) (knn_sum (masked_weight mask' t) None K r nb)).
  { apply picked_leq; [|exact HK]. rewrite Forall_forall in *. intros p Hp. pose proof (masked_at mask weight nb W I p Hp) as [A1 A2]. pose proof (masked_at mask' weight nb W' I' p Hp) as [B1 B2]. fold t in A1, A2. rewrite L in B1, B2. fold t in B1, B2.
    split; [exact A1|]. split; [exact B1|]. rewrite A2, B2. specialize (M p Hp). destruct (nth (snd p) mask false); [rewrite M by reflexivity; lra|]. destruct (nth (snd p) mask' false); [|lra]. rewrite <- B2. apply B1. }
  destruct Q as (_ & _ & [Q|(_ & _ & Q)]); [rewrite Q in Fm'; discriminate Fm'|exact Q].
Qed.
Print Assumptions C98_fraction_mono.

(** Exactly 1 with every neighbour masked (if their total weight is not tiny), exactly 0 with none, and exactly 0, whatever the mask, with all neighbours 40 Gaussian widths away. *)
Theorem C98_fraction_ends mask weight K r k nb : weights_ok (length mask) weight -> within (length mask) nb -> kernel_ok K nb -> upto (bpow radix2 400) weight K nb -> (Z.of_nat (length nb) <= 2 ^ 53)%Z ->
  let f := fst (knn_fraction mask weight K r k nb) in
  (Forall (fun p => nth (snd p) mask false = true) nb -> / 1000000000 <= total weight K (near r nb) -> val f = 1) /\ (Forall (fun p => nth (snd p) mask false = false) nb -> val f = 0).
Proof.
  intros W I HK U N f. pose proof (sum_marked mask weight K r nb W I HK U N) as (Fm & Rm & _). pose proof (sum_all mask weight K r nb W I HK U N) as (Fa & Pa & _). subst f. unfold knn_fraction. cbn [fst].
  set (t := training_weight (length mask) weight) in *. destruct (clip_facts _ (conj Fa Pa)) as (Fc & Pc & Lc & _). split.
  - intros H T. destruct (all_above mask weight K r nb W I HK U N T) as [G C]. fold t in G, C. rewrite C in *. destruct (quotient_unit _ _ (conj Fm (proj1 Rm)) Fa Pc ltac:(lra)) as (_ & -> & _).
    assert (Q : below (knn_sum t None K r nb) (knn_sum (masked_weight mask t) None K r nb)).
    { apply picked_leq; [|exact HK]. pose proof (wt0_nonneg mask weight W) as [Pt Lt]. fold t in Pt, Lt. rewrite Forall_forall in *. intros p Hp. pose proof (masked_at mask weight nb W I p Hp) as [A1 A2]. fold t in A1, A2. rewrite (H p Hp) in A2.
      split; [|split; [exact A1|rewrite A2; lra]]. apply Pt, nth_In. unfold within in I. rewrite Forall_forall in I. rewrite Lt. exact (I p Hp). }
    assert (E : val (knn_sum (masked_weight mask t) None K r nb) = val (knn_sum t None K r nb)) by (destruct Q as (_ & _ & [Q|(_ & _ & Q)]); [rewrite Q in Fm; discriminate Fm|lra]).
    rewrite E. unfold Rdiv. rewrite Rinv_r by lra. apply one_rnd.
  - intros H. destruct (quotient_unit _ _ (conj Fm (proj1 Rm)) Fc Pc ltac:(lra)) as (_ & -> & _).
    assert (E : val (knn_sum (masked_weight mask t) None K r nb) = 0).
    { apply picked_zero; [|exact HK]. rewrite Forall_forall in *. intros p Hp. pose proof (masked_at mask weight nb W I p Hp) as [A1 A2]. fold t in A1, A2. rewrite (H p Hp) in A2. split; [apply A1|exact A2]. }
    rewrite E. unfold Rdiv. rewrite Rmult_0_l. apply rnd64_0.
Qed.
Print Assumptions C98_fraction_ends.
Theorem C98_fraction_far_refuted E sigma mask weight r k nb : exp_like E -> fin sigma = true -> bpow radix2 (-250) <= val sigma <= bpow radix2 250 -> weights_ok (length mask) weight -> within (length mask) nb ->
  Forall (fun p => fin (fst p) = true /\ 40 * val sigma <= val (fst p) <= bpow radix2 250) nb ->
  val (fst (knn_fraction mask weight (Some (k_gauss E sigma)) r k nb)) = 0.
Proof.
  intros HE Fs Hs W I H. pose proof (bpow_gt_0 radix2 (-250)) as P.
  assert (G : Forall (fun p => nonneg (k_gauss E sigma (fst p)) /\ val (k_gauss E sigma (fst p)) = 0) nb).
  { rewrite Forall_forall in *. intros p Hp. destruct (H p Hp) as [Fd Hd]. destruct (gauss_spec E sigma (fst p) HE Fs Fd Hs ltac:(lra)) as (F & R & _ & _ & Z). split; [split; [exact F|apply R]|apply Z; lra]. }
  assert (S : forall y, finite y -> fin (knn_sum y None (Some (k_gauss E sigma)) r nb) = true /\ val (knn_sum y None (Some (k_gauss E sigma)) r nb) = 0).
  { intros y Y. pose proof (pick_finite nb y Y) as Fy. unfold knn_sum, f_sum. eapply (sums_zero _ _ _ (np_sum_adds _)). cbn [row_weight option_map].
    assert (Zs : Forall (fun v => fin v = true /\ val v = 0) (map (fun p => k_gauss E sigma (fst p)) nb)) by (apply Forall_map; eapply Forall_impl; [|exact G]; intros p [[F _] V]; auto).
    destruct (row_mask r nb); apply times_zero_r; try exact Fy; [apply times_bools_zero|]; exact Zs. }
  destruct (wt0_nonneg mask weight W) as [Pt Lt]. set (t := training_weight (length mask) weight) in *.
  destruct (S t (leq_finite _ _ (leq_same _ Pt))) as [Fa Va]. destruct (S _ (leq_finite _ _ (masked_weight_leq mask t Pt ltac:(symmetry; exact Lt)))) as [Fm Vm]. unfold knn_fraction. cbn [fst]. fold t.
  destruct (clip_facts _ (conj Fa (Req_le_sym _ _ Va))) as (Fc & Pc & _). destruct (quotient_unit _ _ (conj Fm (Req_le_sym _ _ Vm)) Fc Pc ltac:(lra)) as (_ & -> & _). rewrite Vm. unfold Rdiv. rewrite Rmult_0_l. apply rnd64_0.
Qed.
Print Assumptions C98_fraction_far_refuted.

(** ** The hypotheses are met *)
Example C98_exp : exp_like exp64.
Proof. exact exp64_like. Qed.
Definition three : list b64 := [of_Z64 1; of_Z64 2; of_Z64 5].
Definition found : neighbours := [(of_Z64 0, 2%nat); (of_Z64 1, 0%nat); (of_Z64 7, 1%nat)].
Lemma three_ok : Forall nonneg three /\ Forall (fun v => val v <= 5) three.
Proof.
  assert (Z : forall z, (0 <= z <= 5)%Z -> nonneg (of_Z64 z) /\ val (of_Z64 z) <= 5) by (intros z Hz; destruct (of_Z64_exact z ltac:(lia)) as [V F]; split; [split; [exact F|rewrite V; apply IZR_le; lia]|rewrite V; apply IZR_le; lia]).
  split; repeat (apply Forall_cons; [apply Z; lia|]); apply Forall_nil.
Qed.
Lemma tophat_found : kernel_ok (Some (k_tophat (of_Z64 5))) found /\ Forall (fun p => val (k_tophat (of_Z64 5) (fst p)) <= 1) found.
Proof.
  assert (Z : forall d, nonneg (k_tophat (of_Z64 5) d) /\ val (k_tophat (of_Z64 5) d) <= 1) by (intros d; unfold k_tophat; destruct (of_bool_val (Bltb d (of_Z64 5))) as [F V]; split; [split; [exact F|]|]; rewrite V; destruct (Bltb d (of_Z64 5)); lra).
  split; [intros k Q; injection Q as <-|]; apply Forall_forall; intros p _; apply Z.
Qed.
Lemma near_found : near (Some (of_Z64 6)) found = [(of_Z64 0, 2%nat); (of_Z64 1, 0%nat)].
Proof.
  assert (B0 : Bltb (of_Z64 0) (of_Z64 6) = true) by (vm_compute; reflexivity). assert (B1 : Bltb (of_Z64 1) (of_Z64 6) = true) by (vm_compute; reflexivity). assert (B7 : Bltb (of_Z64 7) (of_Z64 6) = false) by (vm_compute; reflexivity).
  unfold near, found. cbn [filter fst]. rewrite B0, B1, B7. reflexivity.
Qed.
Example C98_case : weights_ok 3 (Some three) /\ within 3 found /\ kernel_ok (Some (k_tophat (of_Z64 5))) found /\ upto (bpow radix2 400) (Some three) (Some (k_tophat (of_Z64 5))) found /\
  moderate (Some three) (Some (k_tophat (of_Z64 5))) found /\ finite three /\
  near (Some (of_Z64 6)) found = [(of_Z64 0, 2%nat); (of_Z64 1, 0%nat)] /\ total (Some three) (Some (k_tophat (of_Z64 5))) (near (Some (of_Z64 6)) found) = 6 /\
  B2SF (knn_mean zero64 three (Some three) (Some (k_tophat (of_Z64 5))) (Some (of_Z64 6)) found) = B2SF (div64 (of_Z64 26) (of_Z64 6)) /\
  B2SF (fst (knn_fraction [false; true; true] (Some three) (Some (k_tophat (of_Z64 5))) (Some (of_Z64 6)) 3 found)) = B2SF (div64 (of_Z64 5) (of_Z64 6)) /\
  snd (knn_fraction [false; true; true] (Some three) (Some (k_tophat (of_Z64 5))) (Some (of_Z64 6)) 3 found) = true.
Proof.
  destruct three_ok as [A C]. destruct tophat_found as [HK HU]. assert (O : 5 <= bpow radix2 400) by (apply Rle_trans with (bpow radix2 3); [cbn; lra|apply bpow_le; lia]).
  split; [intros w Q; injection Q as <-; split; [exact A|reflexivity]|]. split; [unfold within, found; repeat (apply Forall_cons; [cbn; lia|]); apply Forall_nil|]. split; [exact HK|].
  split. { split; intros ? Q; injection Q as <-; [eapply Forall_impl; [|exact C]|eapply Forall_impl; [|exact HU]]; intros a Ha; (eapply Rle_trans; [exact Ha|lra]). }
  split. { intros w k Q Q'. injection Q as <-. injection Q' as <-. apply Forall_forall. intros p Hp. pose proof (HK _ eq_refl) as HK'. rewrite Forall_forall in HK', HU. specialize (HK' p Hp). specialize (HU p Hp).
    assert (X : 0 <= val (nth (snd p) three zero64) <= 5). { destruct (nth_in_or_default (snd p) three zero64) as [J| ->]; [rewrite Forall_forall in A, C; split; [apply A, J|apply C, J]|destruct zero64_facts as [_ ->]; lra]. }
    apply Rle_trans with (5 * 1); [apply Rmult_le_compat; try apply X; [apply HK'|exact HU]|]. assert (bpow radix2 400 <= bpow radix2 1000) by (apply bpow_le; lia). lra. }
  split; [eapply Forall_impl; [|exact A]; intros v [F _]; exact F|]. split; [exact near_found|]. split; [|split; [vm_compute; reflexivity|split; vm_compute; reflexivity]].
  rewrite near_found. unfold total, Rsum, three. cbn [map fold_right fst snd nth].
  destruct (of_Z64_exact 0 ltac:(lia)) as [V0 F0]. destruct (of_Z64_exact 1 ltac:(lia)) as [V1 F1]. destruct (of_Z64_exact 5 ltac:(lia)) as [V5 F5].
  destruct (C98_tophat (of_Z64 5) (of_Z64 0) F5 F0) as (_ & T0 & _). destruct (C98_tophat (of_Z64 5) (of_Z64 1) F5 F1) as (_ & T1 & _). rewrite T0, T1, V1, V5 by lra. lra.
Qed.
Example C98_gauss_case : let sigma := of_Z64 2 in let d := of_Z64 100 in fin sigma = true /\ fin d = true /\ bpow radix2 (-250) <= val sigma <= bpow radix2 250 /\ 40 * val sigma <= val d <= bpow radix2 250.
Proof.
  cbn zeta. destruct (of_Z64_exact 2 ltac:(lia)) as [V2 F2]. destruct (of_Z64_exact 100 ltac:(lia)) as [V1 F1]. rewrite V1, V2. assert (bpow radix2 (-250) <= 1) by (apply (bpow_le radix2 (-250) 0); lia). assert (128 <= bpow radix2 250) by (apply Rle_trans with (bpow radix2 7); [cbn; lra|apply bpow_le; lia]).
  repeat split; try assumption; lra.
Qed.
