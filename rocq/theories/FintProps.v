(** C96: the field interpolator in double precision. *)
From Coq Require Import ZArith Reals Lra Lia List Bool.
Require Import Flocq.Core.Core Flocq.IEEE754.BinarySingleNaN.
From Verif Require Import Base MeshModel MeshProofs ProcFloat InterpFloatProofs MeshFloatModel MeshFloatSpec MeshFloatProofs FredModel FredSpec FredProofs FredProofs2 FintModel FintSpec FintProofs.
Import ListNotations. Local Open Scope list_scope. Local Open Scope R_scope.

(** One value per point, in order; each is finite and is the exact trilinear interpolant at a position within rounding of the given one, off by at most 2^-48 of the largest cell. *)
Theorem C96_value m d xs M : usable m -> field_ok m d M -> 0 <= M <= bpow radix2 1000 -> Forall (point_ok m) xs ->
  length (f_value_at m d xs) = length xs /\
  forall i x0 x1 x2, nth_error xs i = Some (x0, x1, x2) ->
    exists v y0 y1 y2, nth_error (f_value_at m d xs) i = Some v /\ fin v = true /\ close_to m y0 x0 /\ close_to m y1 x1 /\ close_to m y2 x2 /\
      Rabs (val v - trilinear (fm_n m) d (val (f_grid m)) y0 y1 y2) <= bpow radix2 (-48) * M + bpow radix2 (-1069).
Proof.
  intros U Hd HM Hx. split; [apply map_length|]. intros i x0 x1 x2 E.
  assert (P : point_ok m (x0, x1, x2)) by (rewrite Forall_forall in Hx; exact (Hx _ (nth_error_In _ _ E))).
  destruct (value_spec m d x0 x1 x2 M U Hd HM P) as (y0 & y1 & y2 & C0 & C1 & C2 & F & Q).
  exists (f_value_1 m d (x0, x1, x2)), y0, y1, y2. split; [unfold f_value_at; exact (map_nth_error _ _ _ E)|]. auto.
Qed.
Print Assumptions C96_value.

(** No value leaves the range of the field by more than the rounding. *)
Theorem C96_range m d xs M lo hi : usable m -> field_ok m d M -> 0 <= M <= bpow radix2 1000 -> Forall (point_ok m) xs -> Forall (fun v => lo <= val v <= hi) d ->
  Forall (fun v => fin v = true /\ lo - (bpow radix2 (-48) * M + bpow radix2 (-1069)) <= val v <= hi + (bpow radix2 (-48) * M + bpow radix2 (-1069))) (f_value_at m d xs).
Proof.
  intros U Hd HM Hx Hr. unfold f_value_at. apply Forall_map. revert Hx. apply Forall_impl. intros [[x0 x1] x2] P.
  destruct (value_spec m d x0 x1 x2 M U Hd HM P) as (y0 & y1 & y2 & _ & _ & _ & F & Q). split; [exact F|].
  assert (Hn : (0 < fm_n m)%Z) by (destruct U; lia).
  pose proof (trilinear_between (fm_n m) d (val (f_grid m)) y0 y1 y2 lo hi Hn (proj1 Hd) Hr) as T. apply Rabs_le_inv in Q. lra.
Qed.
Print Assumptions C96_range.

(** A field that is nowhere negative is interpolated to values that are not negative, exactly. *)
Theorem C96_nonneg m d xs M : usable m -> field_ok m d M -> 0 <= M <= bpow radix2 1000 -> Forall (point_ok m) xs -> Forall (fun v => 0 <= val v) d ->
  Forall (fun v => 0 <= val v) (f_value_at m d xs).
Proof.
  intros U Hd HM Hx Hp. unfold f_value_at. apply Forall_map. revert Hx. apply Forall_impl. intros [[x0 x1] x2] P.
  exact (value_nonneg m d x0 x1 x2 M U Hd HM P Hp).
Qed.
Print Assumptions C96_nonneg.

(** At a point whose coordinates are exactly whole numbers of cells the value is the stored one, exactly. *)
Theorem C96_grid m d M x0 x1 x2 i0 i1 i2 : usable m -> field_ok m d M -> 0 <= M <= bpow radix2 1000 -> fin x0 = true -> fin x1 = true -> fin x2 = true ->
  (Z.abs i0 <= 2 ^ 52)%Z -> (Z.abs i1 <= 2 ^ 52)%Z -> (Z.abs i2 <= 2 ^ 52)%Z ->
  val x0 = IZR i0 * val (f_grid m) -> val x1 = IZR i1 * val (f_grid m) -> val x2 = IZR i2 * val (f_grid m) ->
  exists v, f_value_at m d [(x0, x1, x2)] = [v] /\ val v = cell (fm_n m) d i0 i1 i2.
Proof.
  intros. exists (f_value_1 m d (x0, x1, x2)). split; [reflexivity|]. eapply value_grid; eassumption.
Qed.
Print Assumptions C96_grid.

(** The density read from a contrast: one plus it, correctly rounded, cell by cell; not negative when no contrast is below -1. *)
Theorem C96_density delta : Forall (fun v => fin v = true /\ Rabs (val v) <= bpow radix2 1000) delta ->
  length (f_density delta) = length delta /\
  forall i v, nth_error delta i = Some v -> exists r, nth_error (f_density delta) i = Some r /\ fin r = true /\ val r = rnd64 (val v + 1) /\ (-1 <= val v -> 0 <= val r).
Proof.
  intros H. split; [apply map_length|]. intros i v E. exists (add64 v (of_Z64 1)). split; [exact (map_nth_error _ _ _ E)|].
  rewrite Forall_forall in H. destruct (H v (nth_error_In _ _ E)) as [F A]. destruct (of_Z64_exact 1 ltac:(lia)) as [V1 F1].
  destruct (add64_b v (of_Z64 1) F F1) as [Fr Vr].
  { eapply Rle_trans; [apply Rabs_triang|]. rewrite V1, Rabs_R1. assert (X : bpow radix2 0 <= bpow radix2 1000) by (apply bpow_le; lia). change (bpow radix2 0) with 1 in X.
    replace (bpow radix2 1023) with (bpow radix2 1000 * bpow radix2 23) by (rewrite <- bpow_plus; reflexivity).
    assert (Y : 2 <= bpow radix2 23) by (change 2 with (bpow radix2 1); apply bpow_le; lia). set (q := bpow radix2 1000) in *. set (z := bpow radix2 23) in *. clearbody q z.
    apply Rle_trans with (q * 2); [lra|]. apply Rmult_le_compat_l; lra. }
  split; [exact Fr|]. rewrite Vr, V1. split; [reflexivity|]. intros L. apply rnd64_pos. lra.
Qed.
Print Assumptions C96_density.

(** Concrete cases. *)
Definition box4 : fmesh := {| fm_n := 4; fm_l := of_Z64 1 |}.
Definition box5 : fmesh := {| fm_n := 5; fm_l := of_Z64 1 |}.
Definition f005 : b64 := @B754_finite 53 1024 false 7205759403792794 (-57) eq_refl.
Lemma val_conc s m e h : val (B754_finite s m e h) = IZR (cond_Zopp s (Zpos m)) * bpow radix2 e.
Proof. reflexivity. Qed.
Lemma unit_usable n : (0 < n <= 2 ^ 53)%Z -> usable {| fm_n := n; fm_l := of_Z64 1 |}.
Proof.
  intros H. destruct (of_Z64_exact 1 ltac:(lia)) as [V1 F1]. split; [exact H|]. split; [exact F1|]. cbn [fm_l]. rewrite V1. change 1 with (bpow radix2 0). split; apply bpow_le; lia.
Qed.
Lemma val_of_1 : val (of_Z64 1) = 1. Proof. exact (proj1 (of_Z64_exact 1 ltac:(lia))). Qed.
Lemma box4_grid : val (f_grid box4) = / 4.
Proof. replace (f_grid box4) with (@B754_finite 53 1024 false 4503599627370496 (-54) eq_refl : b64) by (apply B2SF_inj; vm_compute; reflexivity). rewrite val_conc. cbn. lra. Qed.
Lemma box5_grid : val (f_grid box5) = 7205759403792794 / 36028797018963968.
Proof. replace (f_grid box5) with (@B754_finite 53 1024 false 7205759403792794 (-55) eq_refl : b64) by (apply B2SF_inj; vm_compute; reflexivity). rewrite val_conc. cbn. lra. Qed.
Lemma f005_val : val f005 = 7205759403792794 / 144115188075855872.
Proof. unfold f005. rewrite val_conc. cbn. lra. Qed.
Lemma f005_point : point_ok box4 (f005, f005, f005).
Proof.
  assert (O : 4 <= bpow radix2 52) by (change 4 with (bpow radix2 2); apply bpow_le; lia).
  assert (K : fin f005 = true /\ Rabs (val f005) <= bpow radix2 52 * val (f_grid box4)) by (split; [reflexivity|]; rewrite f005_val, box4_grid, Rabs_right by lra; lra).
  exact (conj K (conj K K)).
Qed.
Lemma ones_ok : field_ok box4 (repeat (of_Z64 1) 64) 1.
Proof.
  split; [reflexivity|]. apply Forall_forall. intros v Hv. apply repeat_spec in Hv. subst v. rewrite val_of_1, Rabs_R1. split; [exact (proj2 (of_Z64_exact 1 ltac:(lia)))|lra].
Qed.

(** The hypotheses of [C96_value], [C96_range] and [C96_nonneg] hold in a case where the value is not stored anywhere; constants are not reproduced exactly. *)
Theorem C96_constant_refuted : exists m d x, usable m /\ field_ok m d 1 /\ point_ok m x /\ Forall (fun v => val v = 1) d /\ exists v, f_value_at m d [x] = [v] /\ 1 < val v.
Proof.
  exists box4, (repeat (of_Z64 1) 64), (f005, f005, f005). split; [apply unit_usable; lia|]. split; [exact ones_ok|]. split; [exact f005_point|]. split.
  - apply Forall_forall. intros v Hv. apply repeat_spec in Hv. subst v. exact val_of_1.
  - eexists. split; [reflexivity|].
    replace (f_value_1 box4 (repeat (of_Z64 1) 64) (f005, f005, f005)) with (@B754_finite 53 1024 false 4503599627370497 (-52) eq_refl : b64) by (apply B2SF_inj; vm_compute; reflexivity).
    rewrite val_conc. cbn. lra.
Qed.
Print Assumptions C96_constant_refuted.

(** One large cell in a field of zeros. *)
Definition spike : list b64 := repeat (B754_zero false) 100 ++ of_Z64 (2 ^ 60) :: repeat (B754_zero false) 24.
Definition x3 : b64 := mul64 (of_Z64 3) (f_grid box5).
(** A coordinate computed as the product of a whole number and the cell side need not be a grid point: the value of the next cell leaks in. *)
Theorem C96_product_refuted : usable box5 /\ field_ok box5 spike (bpow radix2 60) /\ point_ok box5 (x3, B754_zero false, B754_zero false) /\
  cell 5 spike 3 0 0 = 0 /\ exists v, f_value_at box5 spike [(x3, B754_zero false, B754_zero false)] = [v] /\ val v = 512.
Proof.
  split; [apply unit_usable; lia|]. split; [|split; [|split; [reflexivity|]]].
  - assert (V : val (of_Z64 (2 ^ 60)) = bpow radix2 60).
    { replace (of_Z64 (2 ^ 60)) with (@B754_finite 53 1024 false 4503599627370496 8 eq_refl : b64) by (apply B2SF_inj; vm_compute; reflexivity). rewrite val_conc. cbn. lra. }
    pose proof (bpow_ge_0 radix2 60) as P. assert (Z : fin (B754_zero false : b64) = true /\ Rabs (val (B754_zero false)) <= bpow radix2 60) by (split; [reflexivity|]; change (val (B754_zero false)) with 0; rewrite Rabs_R0; exact P).
    split; [reflexivity|]. unfold spike. apply Forall_app. split; [apply Forall_forall; intros v Hv; apply repeat_spec in Hv; subst v; exact Z|].
    apply Forall_cons; [|apply Forall_forall; intros v Hv; apply repeat_spec in Hv; subst v; exact Z]. rewrite V, Rabs_right by lra. split; [vm_compute; reflexivity|lra].
  - assert (O : 4 <= bpow radix2 52) by (change 4 with (bpow radix2 2); apply bpow_le; lia).
    assert (Z : fin (B754_zero false : b64) = true /\ Rabs (val (B754_zero false)) <= bpow radix2 52 * val (f_grid box5)) by (split; [reflexivity|]; change (val (B754_zero false)) with 0; rewrite Rabs_R0, box5_grid; lra).
    split; [|exact (conj Z Z)]. split; [vm_compute; reflexivity|].
    replace x3 with (@B754_finite 53 1024 false 5404319552844596 (-53) eq_refl : b64) by (apply B2SF_inj; vm_compute; reflexivity). rewrite val_conc, box5_grid. cbn [cond_Zopp].
    rewrite Rabs_right by (change (bpow radix2 (-53)) with (/ 9007199254740992); lra). change (bpow radix2 (-53)) with (/ 9007199254740992). lra.
  - eexists. split; [reflexivity|].
    replace (f_value_1 box5 spike (x3, B754_zero false, B754_zero false)) with (@B754_finite 53 1024 false 4503599627370496 (-43) eq_refl : b64) by (apply B2SF_inj; vm_compute; reflexivity).
    rewrite val_conc. cbn. lra.
Qed.
Print Assumptions C96_product_refuted.

(** A grid point a user meets: [C96_grid] applies to cell (1, 2, 3) of a box of four cells, each side a quarter. *)
Definition numbered : list b64 := map (fun k => of_Z64 (Z.of_nat k)) (seq 0 64).
Definition f025 : b64 := @B754_finite 53 1024 false 4503599627370496 (-54) eq_refl.
Definition f050 : b64 := @B754_finite 53 1024 false 4503599627370496 (-53) eq_refl.
Definition f075 : b64 := @B754_finite 53 1024 false 6755399441055744 (-53) eq_refl.
Example C96_grid_case : val f025 = IZR 1 * val (f_grid box4) /\ val f050 = IZR 2 * val (f_grid box4) /\ val f075 = IZR 3 * val (f_grid box4) /\
  map B2SF64 (f_value_at box4 numbered [(f025, f050, f075)]) = [B2SF64 (of_Z64 27)] /\ nth 27 numbered (B754_zero false) = of_Z64 27.
Proof.
  rewrite box4_grid. unfold f025, f050, f075. rewrite !val_conc. split; [cbn; lra|]. split; [cbn; lra|]. split; [cbn; lra|]. split; [vm_compute; reflexivity|reflexivity].
Qed.
Example C96_density_case : Forall (fun v => fin v = true /\ Rabs (val v) <= bpow radix2 1000) [f005; of_Z64 (-1)] /\
  map B2SF64 (f_density [of_Z64 (-1)]) = [SpecFloat.S754_zero false].
Proof.
  assert (O : 1 <= bpow radix2 1000) by (change 1 with (bpow radix2 0); apply bpow_le; lia).
  split; [|vm_compute; reflexivity]. destruct (of_Z64_exact (-1) ltac:(lia)) as [V F].
  apply Forall_cons; [split; [reflexivity|]; rewrite f005_val, Rabs_right by lra; lra|]. apply Forall_cons; [|apply Forall_nil]. split; [exact F|]. rewrite V, Rabs_left by lra. lra.
Qed.
