(** C83: the periodic meshes in double precision. *)
From Coq Require Import ZArith Reals Lra Permutation.
Require Import Flocq.Core.Core Flocq.IEEE754.BinarySingleNaN.
From Verif Require Import Base MeshSpec MeshModel ProcFloat MeshFloatModel MeshFloatSpec MeshFloatProofs.
Local Open Scope list_scope. Local Open Scope R_scope.

(** x_to_xi: the index returned is that of a grid point (up to whole periods) at most half a cell away, up to a margin of
    2^-51 of the coordinate and the cell.  So it is the nearest grid point whenever that is unambiguous by this margin. *)
Theorem C83_index m x : usable m -> reachable m x ->
  let l := val (f_grid m) in let eps := bpow radix2 (-51) * (Rabs (val x) + l) in
  (0 <= f_x_to_xi m x < fm_n m)%Z /\
  (exists j, f_x_to_xi m x = (j mod fm_n m)%Z /\ Rabs (val x - IZR j * l) < / 2 * l + eps) /\
  (forall i, Rabs (val x - IZR i * l) <= / 2 * l - eps -> f_x_to_xi m x = (i mod fm_n m)%Z).
Proof.
  intros U H l eps. split; [apply Z.mod_pos_bound; destruct U; lia|]. split; [exact (f_index m x U H)|]. intros i. exact (f_index_sharp m x i U H).
Qed.
Print Assumptions C83_index.
(** The grid points themselves, as computed (i * l_grid rounded), have their own index. *)
Theorem C83_grid_points m i : usable m -> (0 <= i < fm_n m)%Z -> (i <= 2 ^ 48)%Z -> f_x_to_xi m (mul64 (of_Z64 i) (f_grid m)) = i.
Proof. intros U H H'. rewrite (f_index_grid m i U) by lia. apply Z.mod_small. exact H. Qed.
Print Assumptions C83_grid_points.
(** Without the margin the nearest grid point is missed: in a box of four unit cells, 0.49999999999999994 goes to grid
    point 1 although grid point 0 is nearer. *)
Definition box4 : fmesh := {| fm_n := 4; fm_l := of_Z64 4 |}.
Definition below_half : b64 := @B754_finite 53 1024 false 9007199254740991 (-54) eq_refl.
Lemma val_concrete s m e h : val (B754_finite s m e h) = IZR (cond_Zopp s (Zpos m)) * bpow radix2 e.
Proof. reflexivity. Qed.
Theorem C83_nearest_refuted : exists m x, usable m /\ reachable m x /\
  Rabs (val x - IZR 0 * val (f_grid m)) < Rabs (val x - IZR 1 * val (f_grid m)) /\ f_x_to_xi m x = 1%Z.
Proof.
  exists box4, below_half. destruct (of_Z64_exact 4 ltac:(lia)) as [V4 F4].
  assert (U : usable box4).
  { split; [cbn; lia|]. split; [exact F4|]. cbn [fm_l box4]. rewrite V4. change 4 with (bpow radix2 2). split; apply bpow_le; lia. }
  assert (G : val (f_grid box4) = 1).
  { replace (f_grid box4) with (of_Z64 1); [exact (proj1 (of_Z64_exact 1 ltac:(lia)))|]. apply B2SF_inj. vm_compute. reflexivity. }
  assert (X : val below_half = 9007199254740991 / 18014398509481984) by (unfold below_half; rewrite val_concrete; cbn; lra).
  split; [exact U|]. split; [split; [reflexivity|]|].
  - rewrite X, G, Rabs_right by lra. assert (1 <= bpow radix2 60) by (change 1 with (bpow radix2 0); apply bpow_le; lia). lra.
  - rewrite G, X. split; [|vm_compute; reflexivity]. rewrite Rabs_right, Rabs_left by lra. lra.
Qed.
Print Assumptions C83_nearest_refuted.

(** The neighbour query: every stored point whose coordinates are within r of the centre's is returned - exactly, without
    any loss to rounding, along the axes on which the box is not wrapped around, and up to a margin of 2^-50 of the
    magnitudes involved along the others.  Nothing is returned from farther than r plus one cell plus such a margin. *)
Theorem C83_query m xs args x r y : usable m -> sorts (f_keys m xs) args ->
  all3 (fun v => fin v = true /\ Rabs (val v) + val r <= bpow radix2 60 * val (f_grid m)) x -> fin r = true -> 0 <= val r -> all3 (reachable m) y ->
  let found := concat (f_query_points_1 (f_from_meshing_points m xs args) x r) in
  (In y xs -> each_axis (fun a b k => apart_at_most m (val r - margin a b r k) a b k) x y -> In y found) /\
  (In y found -> In y xs /\ each_axis (fun a b =>
     apart_at_most m (val r + val (f_grid m) + bpow radix2 (-49) * (Rabs (val a) + Rabs (val b) + val r + val (f_grid m))) a b) x y).
Proof.
  intros U Hs Hx Fr Hr Ry found. split; [intros Hy D; exact (f_query_spec m xs args x r y U Hs Hx Fr Hr Hy Ry D)|]. exact (f_query_far m xs args x r y U Hs Hx Fr Hr Ry).
Qed.
Print Assumptions C83_query.
(** Without the margin the documented guarantee fails: in a unit box with ten cells a side, the point 0.6 is exactly 0.4
    from the origin through the boundary, and a query of radius 0.4 around the origin does not return it. *)
Definition box10 : fmesh := {| fm_n := 10; fm_l := of_Z64 1 |}.
Definition f06 : b64 := @B754_finite 53 1024 false 5404319552844595 (-53) eq_refl.
Definition f04 : b64 := @B754_finite 53 1024 false 7205759403792794 (-54) eq_refl.
Definition fz : b64 := B754_zero false.
Theorem C83_query_refuted : exists m xs args x r y, usable m /\ sorts (f_keys m xs) args /\
  all3 (fun v => fin v = true /\ Rabs (val v) + val r <= bpow radix2 60 * val (f_grid m)) x /\ all3 (reachable m) y /\ fin r = true /\ 0 < 2 * val r < val (fm_l m) /\
  In y xs /\ each_axis (apart_at_most m (val r)) x y /\ ~ In y (concat (f_query_points_1 (f_from_meshing_points m xs args) x r)).
Proof.
  exists box10, [(f06, fz, fz)], [0%nat], (fz, fz, fz), f04, (f06, fz, fz).
  destruct (of_Z64_exact 1 ltac:(lia)) as [V1 F1].
  assert (U : usable box10).
  { split; [cbn; lia|]. split; [exact F1|]. cbn [fm_l box10]. rewrite V1. change 1 with (bpow radix2 0). split; apply bpow_le; lia. }
  assert (G : val (f_grid box10) = 7205759403792794 / 72057594037927936).
  { replace (f_grid box10) with (@B754_finite 53 1024 false 7205759403792794 (-56) eq_refl : b64) by (apply B2SF_inj; vm_compute; reflexivity). rewrite val_concrete. cbn. lra. }
  assert (X6 : val f06 = 5404319552844595 / 9007199254740992) by (unfold f06; rewrite val_concrete; cbn; lra).
  assert (X4 : val f04 = 7205759403792794 / 18014398509481984) by (unfold f04; rewrite val_concrete; cbn; lra).
  assert (XZ : val fz = 0) by reflexivity.
  assert (R : bpow radix2 60 * val (f_grid box10) >= 1) by (rewrite G; change (bpow radix2 60) with (IZR (2 ^ 60)); cbn; lra).
  split; [exact U|]. split.
  { split; [cbn; apply Permutation_refl|]. intros [|[|i]] a b H1 H2; discriminate. }
  split; [|split; [|split; [reflexivity|split; [cbn [fm_l box10]; rewrite X4, V1; lra|split; [left; reflexivity|split]]]]].
  - assert (H : fin fz = true /\ Rabs (val fz) + val f04 <= bpow radix2 60 * val (f_grid box10)) by (split; [reflexivity|]; rewrite XZ, Rabs_R0, X4; lra). repeat split; apply H.
  - assert (H : reachable box10 fz) by (split; [reflexivity|]; rewrite XZ, Rabs_R0; lra). split; [|split; exact H]. split; [reflexivity|]. rewrite X6, Rabs_right by lra. lra.
  - exists (-1)%Z, 0%Z, 0%Z. unfold apart_at_most. cbn [fm_l box10]. rewrite V1, X6, X4, XZ. split; [rewrite Rabs_left; lra|]. rewrite Rmult_0_l, !Rplus_0_l, Rminus_0_r, Rabs_R0. lra.
  - intros H. vm_compute in H. repeat (destruct H as [H|H]; [discriminate|]). exact H.
Qed.
Print Assumptions C83_query_refuted.

(** The linear (cloud-in-cell) weights: two neighbouring grid points, weights in [0, 1] that sum to exactly one, and whose
    centre of mass is the particle's position up to 2^-51 of the coordinate and the cell. *)
Theorem C83_weights m x i_l i_r w_l w_r : usable m -> fin x = true -> Rabs (val x) <= bpow radix2 52 * val (f_grid m) ->
  f_weights_at m x = (i_l, i_r, w_l, w_r) ->
  fin w_l = true /\ fin w_r = true /\ 0 <= val w_l <= 1 /\ 0 <= val w_r <= 1 /\ val w_l + val w_r = 1 /\
  exists j, (i_l = j mod fm_n m /\ i_r = (j + 1) mod fm_n m)%Z /\
    Rabs ((val w_l * IZR j + val w_r * IZR (j + 1)) * val (f_grid m) - val x) <= bpow radix2 (-51) * (Rabs (val x) + val (f_grid m)).
Proof.
  intros U Fx Hx E. destruct (weights_spec m x U Fx Hx) as (j & wl & wr & E' & Fl & Fr & Dl & Dr & S & D). rewrite E' in E. injection E as <- <- <- <-.
  split; [exact Fl|]. split; [exact Fr|]. split; [exact (dyadic_range _ Dl)|]. split; [exact (dyadic_range _ Dr)|]. split; [exact S|]. exists j. split; [auto|].
  rewrite plus_IZR. replace (val wl * IZR j + val wr * (IZR j + 1)) with (IZR j * (val wl + val wr) + val wr) by ring. rewrite S, Rmult_1_r. exact D.
Qed.
Print Assumptions C83_weights.
(** A particle's eight deposits, corner by corner: the cell and the product of the three weights and the particle's weight
    up to a relative error of 2^-51; together the particle's weight up to the same error. *)
Theorem C83_deposits m x0 x1 x2 w l0 r0 a0 b0 l1 r1 a1 b1 l2 r2 a2 b2 : usable m -> particle_ok m ((x0, x1, x2), w) ->
  f_weights_at m x0 = (l0, r0, a0, b0) -> f_weights_at m x1 = (l1, r1, a1, b1) -> f_weights_at m x2 = (l2, r2, a2, b2) ->
  Forall2 (fun e c => let '(c0, c1, c2) := c in
    fst e = flat (fm_n m) (side c0 l0 r0) (side c1 l1 r1) (side c2 l2 r2) /\ fin (snd e) = true /\ 0 <= val (snd e) /\
    let exact := val (side c0 a0 b0) * val (side c1 a1 b1) * val (side c2 a2 b2) * val w in Rabs (val (snd e) - exact) <= bpow radix2 (-51) * exact)
    (f_deposits m (x0, x1, x2) w) corners8 /\
  Rabs (Rtotal (map (fun e => val (snd e)) (f_deposits m (x0, x1, x2) w)) - val w) <= bpow radix2 (-51) * val w.
Proof.
  intros U (((F0 & H0) & (F1 & H1) & (F2 & H2)) & Fw & Hw) E0 E1 E2. cbn [fst snd] in *. split.
  - destruct (weights_spec m x0 U F0 H0) as (j0 & ? & ? & E0' & Fl0 & Fr0 & Dl0 & Dr0 & S0 & _). rewrite E0' in E0. injection E0 as <- <- <- <-.
    destruct (weights_spec m x1 U F1 H1) as (j1 & ? & ? & E1' & Fl1 & Fr1 & Dl1 & Dr1 & S1 & _). rewrite E1' in E1. injection E1 as <- <- <- <-.
    destruct (weights_spec m x2 U F2 H2) as (j2 & ? & ? & E2' & Fl2 & Fr2 & Dl2 & Dr2 & S2 & _). rewrite E2' in E2. injection E2 as <- <- <- <-.
    unfold f_deposits. rewrite E0', E1', E2'. unfold corners8, side.
    assert (Sh : forall a b c, fin a = true -> fin b = true -> fin c = true -> dyadic (val a) -> dyadic (val b) -> dyadic (val c) ->
      fin (f_share a b c w) = true /\ 0 <= val (f_share a b c w) /\ Rabs (val (f_share a b c w) - val a * val b * val c * val w) <= bpow radix2 (-51) * (val a * val b * val c * val w)).
    { intros a b c Fa Fb Fc Da Db Dc. destruct (share_spec a b c w Fa Fb Fc Fw Da Db Dc Hw) as (F & R & D). destruct small_facts as (_ & _ & E51 & _). rewrite E51. repeat split; [exact F|lra|exact D]. }
    repeat (constructor; [cbn [fst snd]; split; [reflexivity|]; apply Sh; assumption|]). constructor.
  - exact (proj2 (proj2 (deposits_spec m (x0, x1, x2) w U (conj (conj F0 H0) (conj (conj F1 H1) (conj F2 H2))) Fw Hw))).
Qed.
Print Assumptions C83_deposits.
(** Adding N particles of nonnegative weight to a field: no cell becomes smaller, nothing overflows, and the total grows by
    the total weight up to N * 2^-48 of the new total. *)
Theorem C83_total m d xs ws : usable m -> length d = Z.to_nat (fm_n m * fm_n m * fm_n m) -> cells_ok d -> Forall (particle_ok m) (fparticles xs ws) ->
  let W := Rtotal (map (fun p => val (snd p)) (fparticles xs ws)) in let N := INR (length (fparticles xs ws)) in
  N <= bpow radix2 48 -> fsum d + W <= bpow radix2 1000 ->
  let d' := f_lin_add m d xs ws in
  length d' = length d /\ cells_ok d' /\ grown d d' /\ Rabs (fsum d' - fsum d - W) <= N * bpow radix2 (-48) * (fsum d + W).
Proof. exact (lin_add_spec m d xs ws). Qed.
Print Assumptions C83_total.
(** Non-vacuity: a particle at (0.6, 0, 0) of weight 0.4 in the empty box of two cells a side. *)
Definition box2 : fmesh := {| fm_n := 2; fm_l := of_Z64 1 |}.
Example C83_total_case : usable box2 /\ particle_ok box2 ((f06, fz, fz), f04) /\
  map B2SF64 (f_lin_add box2 (repeat fz 8) [(f06, fz, fz)] (Some [f04])) =
  map B2SF64 [mul64 f04 (sub64 (mul64 (of_Z64 2) f06) (of_Z64 1)); fz; fz; fz; mul64 f04 (sub64 (of_Z64 2) (mul64 (of_Z64 2) f06)); fz; fz; fz].
Proof.
  destruct (of_Z64_exact 1 ltac:(lia)) as [V1 F1].
  assert (G : val (f_grid box2) = / 2).
  { replace (f_grid box2) with half64 by (apply B2SF_inj; vm_compute; reflexivity). exact (proj1 half64_val). }
  split; [|split; [|vm_compute; reflexivity]].
  - split; [cbn; lia|]. split; [exact F1|]. cbn [fm_l box2]. rewrite V1. change 1 with (bpow radix2 0). split; apply bpow_le; lia.
  - assert (X6 : val f06 = 5404319552844595 / 9007199254740992) by (unfold f06; rewrite val_concrete; cbn; lra).
    assert (X4 : val f04 = 7205759403792794 / 18014398509481984) by (unfold f04; rewrite val_concrete; cbn; lra).
    assert (O : 4 <= bpow radix2 52) by (change 4 with (bpow radix2 2); apply bpow_le; lia).
    assert (Z0 : fin fz = true /\ Rabs (val fz) <= bpow radix2 52 * val (f_grid box2)) by (split; [reflexivity|]; change (val fz) with 0; rewrite Rabs_R0, G; lra).
    split; [split; [split; [reflexivity|]|split; exact Z0]|split; [reflexivity|]]; cbn [fst snd].
    + rewrite X6, G, Rabs_right by lra. lra.
    + rewrite X4. assert (bpow radix2 (-800) <= bpow radix2 (-2)) by (apply bpow_le; lia). change (bpow radix2 (-2)) with (/ 4) in *. assert (1 <= bpow radix2 900) by (change 1 with (bpow radix2 0); apply bpow_le; lia). lra.
Qed.
