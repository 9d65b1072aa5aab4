(** Property theorems C84 (and the rounding finding of C28): EqualSpaceBins in double precision. *)
From Coq Require Import ZArith Reals Lra Lia Sorted.
Require Import Flocq.Core.Core Flocq.IEEE754.BinarySingleNaN.
From Verif Require Import Base ProcFloat InterpFloatProofs MeshFloatProofs BinModel BinFloatModel BinFloatSpec BinFloatProofs.
Local Open Scope list_scope. Local Open Scope R_scope.

(** The constructor accepts exactly a range b < e (so no NaN) and a positive number of bins, and keeps what it was given. *)
Theorem C84_constructor b e n : (f_new b e n = Err AssertionError \/ exists s, f_new b e n = Ok s) /\
  (forall s, f_new b e n = Ok s <-> s = {| fb_b := b; fb_e := e; fb_n := n |} /\ Bltb b e = true /\ (0 < n)%Z) /\
  (b = B754_nan \/ e = B754_nan -> f_new b e n = Err AssertionError).
Proof.
  unfold f_new. split; [|split].
  - destruct (Bltb b e); cbn [negb]; [|auto]. destruct (n <=? 0)%Z; eauto.
  - intros s. destruct (Bltb b e); cbn [negb].
    + destruct (Z.leb_spec n 0); split; [discriminate|intros (_ & _ & ?); lia|intros E; inversion E; auto|intros (-> & _); reflexivity].
    + split; [discriminate|intros (_ & ? & _); discriminate].
  - intros [->| ->]; [reflexivity|]. destruct b; reflexivity.
Qed.
Print Assumptions C84_constructor.
(** The step is a positive finite number, n steps make the range up to one part in 2^51. *)
Theorem C84_step s : fits s -> fin (f_step s) = true /\ 0 < val (f_step s) /\
  Rabs (IZR (fb_n s) * val (f_step s) - (val (fb_e s) - val (fb_b s))) <= bpow radix2 (-51) * (val (fb_e s) - val (fb_b s)).
Proof.
  intros H. pose proof (step_pos s H) as SP. destruct (step_facts s H) as (d1 & d2 & Hd1 & Hd2 & F & V & _). split; [exact F|]. split; [exact SP|].
  destruct H as (Hn & _ & _ & Hw & _). pose proof (u_pos (-900)). assert (1 <= IZR (fb_n s)) by (apply (IZR_le 1); lia).
  rewrite V. replace (IZR (fb_n s) * _ - _) with ((val (fb_e s) - val (fb_b s)) * ((1 + d1) * (1 + d2) - 1)) by (field; lra).
  rewrite Rabs_mult, Rabs_right, Rmult_comm by lra. apply Rmult_le_compat_r; [lra|]. destruct small_facts as ((U0 & U1) & _ & -> & _). apply Rabs_le_inv in Hd1, Hd2. apply Rabs_le. nra.
Qed.
Print Assumptions C84_step.
(** Whatever the sample -- NaN, infinite, huge -- the index is between -1 and n; it is -1 for NaN and both infinities (finding: also for
    +inf, and for finite samples 2^64 steps above the range, where n is documented). *)
Theorem C84_any_sample s x : (0 < fb_n s)%Z -> (-1 <= f_locate s x <= fb_n s)%Z /\ (0 <= f_locate_bound s x < fb_n s)%Z /\
  (fin x = false -> f_locate s x = (-1)%Z).
Proof.
  intros H. split; [apply locate_range, H|]. split; [unfold f_locate_bound, zclip; lia|]. intros F. apply locate_far; [exact H|].
  destruct x as [sx|sx| |sx mx ex hx]; try discriminate; [|reflexivity]. destruct (fb_b s) as [sb|[|]| |sb mb eb hb], sx; cbn [sub64 Bminus]; try reflexivity;
  destruct (f_step s) as [st|st| |st mt et ht]; reflexivity.
Qed.
Print Assumptions C84_any_sample.
Theorem C84_huge_refuted s x : fits s -> fin x = true -> bpow radix2 64 * val (f_step s) <= val x - val (fb_b s) -> f_locate s x = (-1)%Z.
Proof. apply locate_huge. Qed.
Print Assumptions C84_huge_refuted.
(** The index never decreases as the sample grows, and a sample of the range (or above) is never reported below it. *)
Theorem C84_monotone s x y : fits s -> in_reach s x -> in_reach s y -> val x <= val y -> (f_locate s x <= f_locate s y)%Z.
Proof. apply locate_mono. Qed.
Print Assumptions C84_monotone.
Theorem C84_lower_bound s x : fits s -> in_reach s x -> (val (fb_b s) <= val x -> (0 <= f_locate s x)%Z) /\
  (val x < val (fb_b s) -> f_locate s x = (-1)%Z \/ (f_locate s x = 0%Z /\ val (fb_b s) - val x <= bpow radix2 (-1074) * val (f_step s))).
Proof. intros H R. split; [apply locate_inside|apply below_range]; assumption. Qed.
Print Assumptions C84_lower_bound.
(** Only samples within one part in 2^50 of an edge (relative to the distance of the edge from the lower bound) can be put on its wrong
    side: above the margin the index is at least i, below it less than i.  For i = n: above the range gives n. *)
Theorem C84_edges_separate s x i : fits s -> in_reach s x -> (1 <= i <= fb_n s)%Z -> let d := exact_edge s i - val (fb_b s) in
  (d * (1 + bpow radix2 (-50)) <= val x - val (fb_b s) -> (i <= f_locate s x)%Z) /\
  (val x - val (fb_b s) < d * (1 - bpow radix2 (-50)) -> (f_locate s x < i)%Z).
Proof.
  intros H R Hi. cbv zeta. replace (exact_edge s i - val (fb_b s)) with (IZR i * ((val (fb_e s) - val (fb_b s)) / IZR (fb_n s))) by (unfold exact_edge; ring).
  split; [apply edge_above|apply edge_below]; assumption.
Qed.
Print Assumptions C84_edges_separate.
(** So the index is at most one off the index in exact arithmetic, for any number of bins up to 2^49. *)
Theorem C84_within_one s x j : fits s -> in_reach s x -> (0 <= j < fb_n s)%Z -> exact_edge s j <= val x < exact_edge s (j + 1) ->
  (j - 1 <= f_locate s x <= j + 1)%Z.
Proof.
  intros H R Hj [L U]. pose proof (within_one s x H R) as W. cbv zeta in W. revert W. pose proof H as (Hn & _ & _ & Hw & _). pose proof (u_pos (-900)). assert (Pn : 1 <= IZR (fb_n s)) by (apply (IZR_le 1); lia).
  unfold exact_edge in L, U. set (w := (val (fb_e s) - val (fb_b s)) / IZR (fb_n s)) in *. assert (0 < w) by (apply Rdiv_lt_0_compat; lra).
  replace (Zfloor ((val x - val (fb_b s)) / w)) with j; [unfold zclip; lia|]. symmetry. apply Zfloor_imp. split.
  - apply Rmult_le_reg_r with w; [assumption|]. unfold Rdiv. rewrite Rmult_assoc, Rinv_l; lra.
  - apply Rmult_lt_reg_r with w; [assumption|]. unfold Rdiv. rewrite Rmult_assoc, Rinv_l; lra.
Qed.
Print Assumptions C84_within_one.
(** Above the range the index is n or n - 1. *)
Theorem C84_above s x : fits s -> in_reach s x -> val (fb_e s) <= val x -> (fb_n s - 1 <= f_locate s x <= fb_n s)%Z.
Proof.
  intros H R L. pose proof (within_one s x H R) as W. cbv zeta in W. pose proof H as (Hn & _ & _ & Hw & _). pose proof (u_pos (-900)). assert (Pn : 1 <= IZR (fb_n s)) by (apply (IZR_le 1); lia).
  pose proof (locate_range s x ltac:(lia)) as RG. set (w := (val (fb_e s) - val (fb_b s)) / IZR (fb_n s)) in *. assert (P : 0 < w) by (apply Rdiv_lt_0_compat; lra).
  assert (F : (fb_n s <= Zfloor ((val x - val (fb_b s)) / w))%Z).
  { apply Zfloor_le_iff. apply Rmult_le_reg_r with w; [exact P|]. unfold Rdiv. rewrite (Rmult_assoc (val x - val (fb_b s))), Rinv_l, Rmult_1_r by lra. unfold w. replace (IZR (fb_n s) * _) with (val (fb_e s) - val (fb_b s)) by (field; lra). lra. }
  unfold zclip in W. lia.
Qed.
Print Assumptions C84_above.

(** ** The edges *)
(** n + 1 finite edges, never decreasing, from b to e exactly, each within one part in 2^50 of its exact place. *)
Theorem C84_edges s : fits s -> length (f_edges s) = (Z.to_nat (fb_n s) + 1)%nat /\ Forall (fun x => fin x = true) (f_edges s) /\
  (forall i j x y, (i <= j)%nat -> nth_error (f_edges s) i = Some x -> nth_error (f_edges s) j = Some y -> val x <= val y) /\
  (exists x, nth_error (f_edges s) 0 = Some x /\ val x = val (fb_b s)) /\ nth_error (f_edges s) (Z.to_nat (fb_n s)) = Some (fb_e s) /\
  (forall i x, nth_error (f_edges s) i = Some x -> Rabs (val x - exact_edge s (Z.of_nat i)) <= bpow radix2 (-50) * (Rabs (val (fb_b s)) + Rabs (val (fb_e s)))).
Proof.
  intros H. assert (Hn : (0 < fb_n s)%Z) by apply H.
  assert (N : forall i x, nth_error (f_edges s) i = Some x <-> (i <= Z.to_nat (fb_n s))%nat /\ x = f_edge s (Z.of_nat i)).
  { intros i x. unfold f_edges. rewrite nth_error_map. destruct (Nat.le_gt_cases i (Z.to_nat (fb_n s))) as [L|L].
    - rewrite (nth_error_nth' _ 0%nat) by (rewrite seq_length; lia). rewrite seq_nth by lia. cbn [option_map Nat.add]. split; [intros E; inversion E; auto|intros [_ ->]; reflexivity].
    - rewrite (proj2 (nth_error_None _ _)) by (rewrite seq_length; lia). cbn [option_map]. split; [discriminate|lia]. }
  split; [unfold f_edges; rewrite map_length, seq_length; reflexivity|]. split; [|split; [|split; [|split]]].
  - apply Forall_forall. intros x I. apply In_nth_error in I. destruct I as [i I]. apply N in I. destruct I as [L ->]. apply edge_fin; [exact H|lia].
  - intros i j x y L X Y. apply N in X, Y. destruct X as [X ->], Y as [Y ->]. apply edge_sorted; [exact H|lia|lia].
  - exists (f_edge s 0). split; [apply N; split; [lia|reflexivity]|]. apply edge_first, H.
  - apply N. split; [lia|]. rewrite Z2Nat.id by lia. symmetry. apply edge_last.
  - intros i x X. apply N in X. destruct X as [X ->]. apply edge_close; [exact H|lia].
Qed.
Print Assumptions C84_edges.
(** locate_nearest returns an edge number, and no edge is nearer by more than rounding: one part in 2^51 of the distance plus one in 2^46 of
    the bounds. *)
Theorem C84_nearest s x : fits s -> in_reach s x -> exists v, (0 <= f_locate_nearest s x <= fb_n s)%Z /\ nth_error (f_edges s) (Z.to_nat (f_locate_nearest s x)) = Some v /\
  forall w, In w (f_edges s) -> Rabs (val x - val v) <= (1 + bpow radix2 (-51)) * Rabs (val x - val w) + bpow radix2 (-46) * (Rabs (val (fb_b s)) + Rabs (val (fb_e s))).
Proof.
  intros H R. assert (Hn : (0 < fb_n s)%Z) by apply H. destruct (nearest_all s x 0 H R ltac:(lia)) as [L _]. set (r := f_locate_nearest s x) in *. exists (f_edge s r). split; [exact L|]. split.
  - unfold f_edges. rewrite nth_error_map, (nth_error_nth' _ 0%nat) by (rewrite seq_length; lia). rewrite seq_nth by lia. cbn [option_map Nat.add]. rewrite Z2Nat.id by lia. reflexivity.
  - intros w I. unfold f_edges in I. apply in_map_iff in I. destruct I as (k & <- & I). apply in_seq in I. apply (nearest_all s x (Z.of_nat k) H R). lia.
Qed.
Print Assumptions C84_nearest.

(** ** Findings and examples *)
(** The upper end of the range, documented to give n, can be put in the last bin: EqualSpaceBins((0., 1.), 93).locate(1.) = 92. *)
Definition bins93 : fbins := {| fb_b := of_Z64 0; fb_e := of_Z64 1; fb_n := 93 |}.
Lemma fits_unit n : (0 < n <= 2 ^ 49)%Z -> fits {| fb_b := of_Z64 0; fb_e := of_Z64 1; fb_n := n |}.
Proof.
  intros H. unfold fits. cbn [fb_b fb_e fb_n]. destruct (of_Z64_exact 0 ltac:(lia)) as [V0 F0]. destruct (of_Z64_exact 1 ltac:(lia)) as [V1 F1]. rewrite V0, V1.
  split; [exact H|]. split; [exact F0|]. split; [exact F1|]. split; [|split].
  - rewrite Rminus_0_r. change 1 with (bpow radix2 0). apply bpow_le. lia.
  - rewrite Rabs_R0. apply bpow_ge_0.
  - rewrite Rabs_R1. change 1 with (bpow radix2 0). apply bpow_le. lia.
Qed.
Lemma reach_unit n x : (0 < n <= 2 ^ 49)%Z -> fin x = true -> Rabs (val x) <= 2 -> in_reach {| fb_b := of_Z64 0; fb_e := of_Z64 1; fb_n := n |} x.
Proof.
  intros H F L. pose proof (fits_unit n H) as FT. set (s := {| fb_b := of_Z64 0; fb_e := of_Z64 1; fb_n := n |}) in *. split; [exact F|].
  destruct (C84_step s FT) as (_ & P & C). cbn [s fb_b fb_e fb_n] in *. destruct (of_Z64_exact 0 ltac:(lia)) as [V0 F0]. destruct (of_Z64_exact 1 ltac:(lia)) as [V1 F1]. rewrite V0, V1 in C. rewrite V0.
  rewrite Rminus_0_r in *. apply Rabs_le_inv in C. assert (N : 0 < IZR n <= bpow radix2 49) by (rewrite B52; split; [apply (IZR_lt 0)|apply IZR_le]; lia).
  assert (U : bpow radix2 (-51) <= / 2) by (change (/ 2) with (bpow radix2 (-1)); apply bpow_le; lia).
  assert (I : / 2 <= bpow radix2 49 * val (f_step s)). { apply Rle_trans with (IZR n * val (f_step s)); [lra|]. apply Rmult_le_compat_r; lra. }
  replace (bpow radix2 60) with (bpow radix2 11 * bpow radix2 49) by (rewrite <- bpow_plus; reflexivity). rewrite Rmult_assoc. change (bpow radix2 11) with 2048. lra.
Qed.
Theorem C84_upper_refuted : fits bins93 /\ in_reach bins93 (fb_e bins93) /\ f_locate bins93 (fb_e bins93) = 92%Z.
Proof.
  split; [apply fits_unit; lia|]. split; [|vm_compute; reflexivity]. destruct (of_Z64_exact 1 ltac:(lia)) as [V1 F1]. apply reach_unit; [lia|exact F1|]. cbn [bins93 fb_e]. rewrite V1, Rabs_R1. lra.
Qed.
Print Assumptions C84_upper_refuted.
(** A sample below the range by less than any normal number can be put in the first bin: EqualSpaceBins((0., 4.), 2).locate(-5e-324) = 0. *)
Theorem C84_below_refuted : exists s x, fits s /\ in_reach s x /\ val x < val (fb_b s) /\ f_locate s x = 0%Z.
Proof.
  exists {| fb_b := of_Z64 0; fb_e := of_Z64 4; fb_n := 2 |}, (@B754_finite 53 1024 true 1 (-1074) eq_refl).
  destruct (of_Z64_exact 0 ltac:(lia)) as [V0 F0]. destruct (of_Z64_exact 4 ltac:(lia)) as [V4 F4].
  assert (FT : fits {| fb_b := of_Z64 0; fb_e := of_Z64 4; fb_n := 2 |}).
  { unfold fits. cbn [fb_b fb_e fb_n]. rewrite V0, V4. split; [lia|]. split; [exact F0|]. split; [exact F4|]. change 4 with (bpow radix2 2). split; [|split].
    - rewrite Rminus_0_r. apply bpow_le. lia.
    - rewrite Rabs_R0. apply bpow_ge_0.
    - rewrite Rabs_right by (apply Rle_ge, bpow_ge_0). apply bpow_le. lia. }
  assert (VX : val (@B754_finite 53 1024 true 1 (-1074) eq_refl) = - bpow radix2 (-1074)) by (unfold val, B2R, F2R; cbn [cond_Zopp Fnum Fexp Z.opp]; ring).
  split; [exact FT|]. split; [|split; [|vm_compute; reflexivity]].
  - split; [reflexivity|]. rewrite VX. cbn [fb_b]. rewrite V0, Rminus_0_r, Rabs_Ropp, Rabs_right by (apply Rle_ge, bpow_ge_0).
    destruct (C84_step _ FT) as (_ & P & C). cbn [fb_b fb_e fb_n] in C. rewrite V0, V4, Rminus_0_r in C. apply Rabs_le_inv in C.
    assert (U : bpow radix2 (-51) <= / 2) by (change (/ 2) with (bpow radix2 (-1)); apply bpow_le; lia).
    set (st := val (f_step _)) in *. assert (1 <= st) by lra. apply Rle_trans with (bpow radix2 60 * 1); [rewrite Rmult_1_r; apply bpow_le; lia|]. apply Rmult_le_compat_l; [apply bpow_ge_0|assumption].
  - rewrite VX. cbn [fb_b]. rewrite V0. pose proof (u_pos (-1074)). lra.
Qed.
Print Assumptions C84_below_refuted.
(** The edges themselves can be located one bin low (C28): the seventh edge of EqualSpaceBins((0., 1.), 9). *)
Definition bins9 : fbins := {| fb_b := of_Z64 0; fb_e := of_Z64 1; fb_n := 9 |}.
Theorem C28_float_edge_refuted : fits bins9 /\ exists x, nth_error (f_edges bins9) 7 = Some x /\ f_locate bins9 x = 6%Z.
Proof. split; [apply fits_unit; lia|]. eexists. split; [reflexivity|]. vm_compute. reflexivity. Qed.
Print Assumptions C28_float_edge_refuted.
(** An infinite bound is accepted (finding): with e = +inf every sample, wherever it is (up to 2^1022), is located in bin 0; with b = -inf every
    finite one at -1. *)
Theorem C84_infinite_range n x : (0 < n <= 2 ^ 49)%Z -> fin x = true ->
  (forall b, fin b = true -> Rabs (val x) <= bpow radix2 1022 -> Rabs (val b) <= bpow radix2 1022 -> exists s, f_new b (B754_infinity false) n = Ok s /\ f_locate s x = 0%Z) /\
  (forall e, fin e = true -> exists s, f_new (B754_infinity true) e n = Ok s /\ f_locate s x = (-1)%Z).
Proof.
  intros H F. assert (N : (n <=? 0)%Z = false) by (apply Z.leb_gt; lia). destruct (of_Z64_exact n ltac:(lia)) as [VN FN].
  assert (PN : 0 < IZR n) by (apply (IZR_lt 0); lia).
  assert (ST : forall v, (exists sg, v = B754_infinity sg) -> exists sg, div64 v (of_Z64 n) = B754_infinity sg).
  { intros v [sg ->]. destruct (of_Z64 n) as [sn|sn| |sn mn en hn]; try discriminate; try (eexists; reflexivity). }
  split.
  - intros b Fb Hx Hb. exists {| fb_b := b; fb_e := B754_infinity false; fb_n := n |}. split; [unfold f_new; rewrite N; destruct b as [[|]|[|]| |[|] mb eb hb]; try discriminate; reflexivity|].
    unfold f_locate, f_step, f_span. cbn [fb_b fb_e fb_n]. destruct (ST (sub64 (B754_infinity false) b)) as [sg ->]; [destruct b; try discriminate; eexists; reflexivity|].
    destruct (sub64_b x b F Fb) as [G _].
    { apply Rabs_le_inv in Hx, Hb. apply Rabs_le. assert (B 1023 = 2 * B 1022) by (change 1023%Z with (1 + 1022)%Z; rewrite bpow_plus; reflexivity). lra. }
    destruct (sub64 x b) as [| | |]; try discriminate; cbn; unfold zclip; lia.
  - intros e Fe. exists {| fb_b := B754_infinity true; fb_e := e; fb_n := n |}. split; [unfold f_new; rewrite N; destruct e as [[|]|[|]| |[|] mb eb hb]; try discriminate; reflexivity|].
    unfold f_locate, f_step, f_span. cbn [fb_b fb_e fb_n]. destruct (ST (sub64 e (B754_infinity true))) as [sg ->]; [destruct e; try discriminate; eexists; reflexivity|].
    assert (G : sub64 x (B754_infinity true) = B754_infinity false) by (destruct x; try discriminate; reflexivity). rewrite G. cbn. unfold zclip. lia.
Qed.
Print Assumptions C84_infinite_range.
Example C84_case : f_locate bins9 (fb_b bins9) = 0%Z /\ f_locate bins9 (fb_e bins9) = 9%Z /\ f_locate_nearest bins9 (fb_e bins9) = 9%Z /\ f_locate bins9 (B754_infinity false) = (-1)%Z.
Proof. repeat split; vm_compute; reflexivity. Qed.
