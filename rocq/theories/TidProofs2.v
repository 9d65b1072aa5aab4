(** Proofs for C97, continued: counts, grid points, fractions. *)
From Coq Require Import ZArith Reals Lra Lia List Bool Sorted String.
Require Import Flocq.Core.Core Flocq.IEEE754.BinarySingleNaN Flocq.Prop.Relative.
From Verif Require Import Base ProcModel ProcProofs MeshModel MeshProofs MeshProofs2 MeshProofs3 ProcFloat MeshFloatModel MeshFloatSpec MeshFloatProofs TidModel TidSpec TidProofs.
Import ListNotations. Local Open Scope list_scope. Local Open Scope R_scope.

Lemma err32 x : exists d e, Rabs d <= bpow radix2 (-24) /\ Rabs e <= bpow radix2 (-150) /\ rnd32 x = x * (1 + d) + e.
Proof.
  rewrite fexp32. destruct (error_N_FLT radix2 (-149) 24 p24 (fun z => negb (Z.even z)) x) as (d & e & Hd & He & _ & E). exists d, e. split; [|split].
  - eapply Rle_trans; [exact Hd|]. change (/ 2 * bpow radix2 (- (24) + 1)) with (bpow radix2 (-1) * bpow radix2 (-23)). rewrite <- bpow_plus. apply bpow_le. lia.
  - eapply Rle_trans; [exact He|]. change (/ 2 * bpow radix2 (-149)) with (bpow radix2 (-1) * bpow radix2 (-149)). rewrite <- bpow_plus. apply bpow_le. lia.
  - exact E.
Qed.
Lemma rnd32_abs x : Rabs (rnd32 x - x) <= bpow radix2 (-24) * Rabs x + bpow radix2 (-150).
Proof.
  destruct (err32 x) as (d & e & Hd & He & ->). replace (x * (1 + d) + e - x) with (d * x + e) by ring. eapply Rle_trans; [apply Rabs_triang|].
  rewrite Rabs_mult. apply Rplus_le_compat; [|exact He]. apply Rmult_le_compat_r; [apply Rabs_pos|exact Hd].
Qed.
(** A clear gap survives the rounding. *)
Lemma gap_kept t v : fin t = true -> fin v = true -> Rabs (val t) <= bpow radix2 126 -> Rabs (val v) <= bpow radix2 126 ->
  val t + bpow radix2 (-24) * (Rabs (val v) + Rabs (val t)) + bpow radix2 (-149) < val v -> Bltb (to32 t) (to32 v) = true.
Proof.
  intros Ft Fv Bt Bv G. assert (L : bpow radix2 126 <= bpow radix2 127) by (apply bpow_le; lia).
  destruct (to32_spec t Ft ltac:(lra)) as [Ft' Vt]. destruct (to32_spec v Fv ltac:(lra)) as [Fv' Vv].
  rewrite (Bltb_correct 24 128 _ _ Ft' Fv'). fold (val32 (to32 t)) (val32 (to32 v)). rewrite Vt, Vv. apply Rlt_bool_true.
  pose proof (rnd32_abs (val t)) as Et. pose proof (rnd32_abs (val v)) as Ev. apply Rabs_le_inv in Et, Ev.
  replace (bpow radix2 (-149)) with (2 * bpow radix2 (-150)) in G by (change 2 with (bpow radix2 1); rewrite <- bpow_plus; reflexivity). lra.
Qed.
(** Against the default threshold 0 exactly the eigenvalues above 2^-150 count. *)
Lemma tiny_round : rnd32 (bpow radix2 (-150)) = 0.
Proof.
  unfold round, scaled_mantissa, F2R. cbn [Fnum Fexp]. rewrite fexp32. unfold cexp. rewrite mag_bpow. unfold FLT_exp.
  replace (Z.max (-150 + 1 - 24) (-149)) with (-149)%Z by lia. rewrite <- bpow_plus. change (bpow radix2 (-150 + - (-149))) with (/ 2).
  replace (ZnearestE (/ 2)) with 0%Z; [lra|]. unfold ZnearestE, Znearest. replace (Zfloor (/ 2)) with 0%Z by (symmetry; apply Zfloor_imp; cbn; lra).
  rewrite Rcompare_Eq by lra. reflexivity.
Qed.
Lemma tiny_up x : bpow radix2 (-150) < x -> 0 < rnd32 x.
Proof.
  intros H. assert (P : 0 < bpow radix2 (-149)) by apply bpow_gt_0. apply Rlt_le_trans with (bpow radix2 (-149)); [exact P|].
  destruct (Rle_or_lt (bpow radix2 (-149)) x) as [L|L].
  - rewrite <- (rnd32_pow (-149)) by lia. apply rnd32_le. exact L.
  - unfold round, scaled_mantissa, F2R. cbn [Fnum Fexp]. rewrite fexp32. unfold cexp. rewrite (mag_unique_pos radix2 x (-149)) by (replace (-149 - 1)%Z with (-150)%Z by lia; lra).
    unfold FLT_exp. replace (Z.max (-149 - 24) (-149)) with (-149)%Z by lia. change (- (-149))%Z with 149%Z.
    assert (M : / 2 < x * bpow radix2 149 < 1).
    { pose proof (bpow_gt_0 radix2 149) as Q. replace (/ 2) with (bpow radix2 (-150) * bpow radix2 149) by (rewrite <- bpow_plus; reflexivity).
      replace 1 with (bpow radix2 (-149) * bpow radix2 149) by (rewrite <- bpow_plus; reflexivity). split; apply Rmult_lt_compat_r; assumption. }
    set (y := x * bpow radix2 149) in *. clearbody y. replace (ZnearestE y) with 1%Z; [lra|]. unfold ZnearestE, Znearest. rewrite (Zfloor_imp 0 y) by (cbn; lra).
    cbn [IZR]. rewrite Rminus_0_r. rewrite Rcompare_Gt by lra. rewrite (Zceil_imp 1 y); [reflexivity|cbn; lra].
Qed.
Lemma zero_counts t v : fin t = true -> val t = 0 -> fin v = true -> Bltb (to32 t) (to32 v) = Rlt_bool (bpow radix2 (-150)) (val v).
Proof.
  intros Ft Z Fv. pose proof (bpow_gt_0 radix2 (-150)) as P. pose proof (bpow_gt_0 radix2 127) as P'.
  destruct (to32_spec t Ft) as [Ft' Vt]; [rewrite Z, Rabs_R0; lra|]. rewrite Z, rnd32_0 in Vt.
  destruct (Rlt_bool_spec (bpow radix2 (-150)) (val v)) as [L|L].
  - pose proof (tiny_up _ L) as U. destruct (to32_fin v Fv) as [(_ & F & V)|(_ & E)].
    + rewrite (Bltb_correct 24 128 _ _ Ft' F). fold (val32 (to32 t)) (val32 (to32 v)). rewrite Vt, V. apply Rlt_bool_true. exact U.
    + rewrite E, Rlt_bool_false by lra. destruct (to32 t) as [[]|[]| |[] ? ? ?]; try discriminate; reflexivity.
  - assert (N : rnd32 (val v) <= 0) by (rewrite <- tiny_round; apply rnd32_le; exact L). destruct (to32_fin v Fv) as [(_ & F & V)|(O & E)].
    + rewrite (Bltb_correct 24 128 _ _ Ft' F). fold (val32 (to32 t)) (val32 (to32 v)). rewrite Vt, V. apply Rlt_bool_false. exact N.
    + assert (V : val v < 0). { apply Rnot_le_lt. intros Q. pose proof (bpow_gt_0 radix2 128). assert (K : 0 <= rnd32 (val v)) by (rewrite <- rnd32_0; apply rnd32_le; exact Q). rewrite Rabs_right in O by lra. lra. }
      rewrite E, Rlt_bool_true by exact V. destruct (to32 t) as [[]|[]| |[] ? ? ?]; try discriminate; reflexivity.
Qed.
Lemma count_how th l : t_count th (store_lam l) = how_many (fun v => Bltb (to32 th) (to32 v)) l.
Proof. destruct l as [[a b] c]. reflexivity. Qed.
Lemma how_many_le P Q l : (forall v, In v (let '(a, b, c) := l in [a; b; c]) -> P v = true -> Q v = true) -> (how_many P l <= how_many Q l)%Z.
Proof.
  destruct l as [[a b] c]. intros H. cbn in *. assert (K : forall v, In v [a; b; c] -> ((if P v then 1 else 0) <= (if Q v then 1 else 0))%Z).
  { intros v Hv. specialize (H v Hv). destruct (P v); [rewrite H by reflexivity; lia|destruct (Q v); lia]. }
  pose proof (K a ltac:(cbn; auto)). pose proof (K b ltac:(cbn; auto)). pose proof (K c ltac:(cbn; auto)). lia.
Qed.
Lemma how_many_ext P Q l : (forall v, In v (let '(a, b, c) := l in [a; b; c]) -> P v = Q v) -> how_many P l = how_many Q l.
Proof. intros H. apply Z.le_antisymm; apply how_many_le; intros v Hv; rewrite (H v Hv); auto. Qed.
Lemma how_many_range P l : (0 <= how_many P l <= 3)%Z.
Proof. destruct l as [[a b] c]. cbn. destruct (P a), (P b), (P c); lia. Qed.

(** The constructor. *)
Lemma t_new_inv lam m th c : t_new lam m th = Ok c ->
  Z.of_nat (length lam) = (fm_n m * fm_n m * fm_n m)%Z /\ Forall (fun l => let '(a, b, c) := store_lam l in Bleb a b = true /\ Bleb b c = true) lam /\
  c = {| tc_mesh := m; tc_lam := map store_lam lam; tc_n := map (fun l => how_many (fun v => Bltb (to32 th) (to32 v)) l) lam; tc_th := th |}.
Proof.
  unfold t_new. rewrite map_length. destruct (Z.eqb_spec (Z.of_nat (length lam)) (fm_n m * fm_n m * fm_n m)) as [L|L]; cbn [negb]; [|discriminate].
  destruct (forallb (fun '(a, b, _) => Bleb a b) (map store_lam lam)) eqn:A; cbn [negb]; [|discriminate]. destruct (forallb (fun '(_, b, c) => Bleb b c) (map store_lam lam)) eqn:B2; cbn [negb]; [|discriminate].
  intros H. injection H as <-. split; [exact L|]. split.
  - apply Forall_forall. intros l Hl. rewrite forallb_forall in A, B2. specialize (A (store_lam l) (in_map _ _ _ Hl)). specialize (B2 (store_lam l) (in_map _ _ _ Hl)).
    destruct (store_lam l) as [[a b] c]. auto.
  - f_equal. rewrite map_map. apply map_ext. intros l. apply count_how.
Qed.
Lemma t_new_ok lam m th : Z.of_nat (length lam) = (fm_n m * fm_n m * fm_n m)%Z -> Forall (fun l => let '(a, b, c) := store_lam l in Bleb a b = true /\ Bleb b c = true) lam ->
  exists c, t_new lam m th = Ok c.
Proof.
  intros L F. unfold t_new. rewrite map_length, L, Z.eqb_refl. cbn [negb]. rewrite Forall_forall in F.
  replace (forallb (fun '(a, b, _) => Bleb a b) (map store_lam lam)) with true.
  2:{ symmetry. apply forallb_forall. intros l Hl. apply in_map_iff in Hl. destruct Hl as (x & <- & Hx). specialize (F x Hx). destruct (store_lam x) as [[a b] c]. tauto. }
  cbn [negb]. replace (forallb (fun '(_, b, c) => Bleb b c) (map store_lam lam)) with true.
  2:{ symmetry. apply forallb_forall. intros l Hl. apply in_map_iff in Hl. destruct Hl as (x & <- & Hx). specialize (F x Hx). destruct (store_lam x) as [[a b] c]. tauto. }
  cbn [negb]. eexists. reflexivity.
Qed.
Lemma t_new_err lam m th e : t_new lam m th = Err e -> e = AssertionError.
Proof. unfold t_new. repeat match goal with |- context [if ?b then _ else _] => destruct b end; intros H; try discriminate H; injection H as <-; reflexivity. Qed.

(** Grid points. *)
Lemma fits_usable m : fits32 m -> usable m.
Proof.
  intros ((A & B1) & F & (L & U)). split; [split; [exact A|]; eapply Z.le_trans; [exact B1|]; vm_compute; discriminate|]. split; [exact F|].
  assert (bpow radix2 (-900) <= bpow radix2 (-100)) by (apply bpow_le; lia). assert (bpow radix2 100 <= bpow radix2 900) by (apply bpow_le; lia). lra.
Qed.

Lemma coord_spec m i : fits32 m -> (0 <= i < fm_n m)%Z ->
  fin32 (t_coord m i) = true /\ val32 (t_coord m i) = rnd32 (rnd64 (IZR i * val (f_grid m))) /\ f_x_to_xi m (to64 (t_coord m i)) = i.
Proof.
  intros Fm Hi. pose proof (fits_usable m Fm) as U. destruct (grid_facts m U) as (F & P & _ & (G1 & G2) & N). destruct Fm as ((N1 & N2) & FL & (L1 & L2)).
  set (l := val (f_grid m)) in *. set (n := fm_n m) in *.
  assert (Nn : IZR n <= bpow radix2 22) by (change (bpow radix2 22) with (IZR (2 ^ 22)); apply IZR_le; exact N2).
  assert (N0 : 1 <= IZR n) by (apply (IZR_le 1); lia). assert (I0 : 0 <= IZR i) by (apply (IZR_le 0); lia). assert (I1 : IZR i <= bpow radix2 22) by (apply Rle_trans with (IZR n); [apply IZR_le; lia|exact Nn]).
  destruct small_facts as ((u0 & u1) & _). assert (US : bpow radix2 (-53) <= bpow radix2 (-10)) by (apply bpow_le; lia). change (bpow radix2 (-10)) with (/ 1024) in US.
  assert (LL : val (fm_l m) * / 2 <= IZR n * l).
  { apply Rabs_le_inv in N. assert (bpow radix2 (-53) * val (fm_l m) <= / 1024 * val (fm_l m)) by (apply Rmult_le_compat_r; [pose proof (bpow_gt_0 radix2 (-100)); lra|exact US]). lra. }
  assert (Ll : bpow radix2 (-123) <= l).
  { apply Rmult_le_reg_l with (bpow radix2 22); [apply bpow_gt_0|]. apply Rle_trans with (IZR n * l); [|apply Rmult_le_compat_r; lra].
    eapply Rle_trans; [|exact LL]. rewrite <- bpow_plus. replace (bpow radix2 (22 + -123)) with (bpow radix2 (-100) * / 2) by (change (/ 2) with (bpow radix2 (-1)); rewrite <- bpow_plus; reflexivity). lra. }
  assert (Lu : l <= bpow radix2 101).
  { apply Rabs_le_inv in N. assert (X : bpow radix2 (-53) * val (fm_l m) <= / 1024 * val (fm_l m)) by (apply Rmult_le_compat_r; [pose proof (bpow_gt_0 radix2 (-100)); lra|exact US]).
    assert (1 * l <= IZR n * l) by (apply Rmult_le_compat_r; lra). replace (bpow radix2 101) with (2 * bpow radix2 100) by (change 2 with (bpow radix2 1); rewrite <- bpow_plus; reflexivity). lra. }
  destruct (of_Z64_exact i ltac:(lia)) as [Vi Fi]. set (X := IZR i * l). assert (X0 : 0 <= X) by (apply Rmult_le_pos; lra).
  assert (X1 : X <= bpow radix2 22 * l) by (apply Rmult_le_compat_r; lra).
  assert (X2 : X <= bpow radix2 123) by (eapply Rle_trans; [exact X1|]; change 123%Z with (22 + 101)%Z; rewrite bpow_plus; apply Rmult_le_compat_l; [apply bpow_ge_0|exact Lu]).
  destruct (mul64_b (of_Z64 i) (f_grid m) Fi F) as [Fp Vp].
  { rewrite Vi. fold l. fold X. rewrite Rabs_right by lra. eapply Rle_trans; [exact X2|]. apply bpow_le. lia. }
  rewrite Vi in Vp. fold l in Vp. fold X in Vp. unfold t_coord. set (p := mul64 (of_Z64 i) (f_grid m)) in *.
  assert (D : Rabs (val p - X) <= bpow radix2 (-53) * X).
  { rewrite Vp. destruct (Z.eq_dec i 0) as [E0|Ne].
    - assert (Z0 : X = 0) by (unfold X; rewrite E0; apply Rmult_0_l). rewrite Z0, rnd64_0, Rminus_0_r, Rabs_R0. lra.
    - destruct (err64 X) as (d & e & Hd & _ & He & E). assert (1 <= IZR i) by (apply (IZR_le 1); lia).
      assert (K : bpow radix2 (-1022) <= X) by (apply Rle_trans with (1 * l); [rewrite Rmult_1_l; eapply Rle_trans; [|exact Ll]; apply bpow_le; lia|apply Rmult_le_compat_r; lra]).
      rewrite E, He by (rewrite Rabs_right by lra; exact K). replace (X * (1 + d) + 0 - X) with (X * d) by ring. rewrite Rabs_mult, (Rabs_right X) by lra. rewrite Rmult_comm.
      apply Rmult_le_compat_r; [exact X0|exact Hd]. }
  assert (Q : bpow radix2 (-53) * X <= / 1024 * X) by (apply Rmult_le_compat_r; assumption).
  assert (Pa : Rabs (val p) <= (1 + / 1024) * X) by (replace (val p) with ((val p - X) + X) by ring; eapply Rle_trans; [apply Rabs_triang|]; rewrite (Rabs_right X) by lra; lra).
  destruct (to32_spec p Fp) as [F32 V32].
  { eapply Rle_trans; [exact Pa|]. replace (bpow radix2 127) with (16 * bpow radix2 123) by (change 16 with (bpow radix2 4); rewrite <- bpow_plus; reflexivity). pose proof (bpow_gt_0 radix2 123). lra. }
  split; [exact F32|]. split; [rewrite V32, Vp; reflexivity|]. destruct (to64_spec (to32 p) F32) as [F64 V64]. rewrite V32 in V64. set (x := to64 (to32 p)) in *.
  pose proof (rnd32_abs (val p)) as E32. rewrite <- V64 in E32. transitivity (i mod n)%Z; [|apply Z.mod_small; exact Hi].
  assert (S22 : bpow radix2 22 = 4194304) by (cbn; lra). assert (S24 : bpow radix2 (-24) = / 16777216) by (cbn; lra).
  assert (T : bpow radix2 (-150) <= / 1048576 * l).
  { apply Rle_trans with (bpow radix2 (-20) * bpow radix2 (-123)); [rewrite <- bpow_plus; apply bpow_le; lia|]. replace (bpow radix2 (-20)) with (/ 1048576) by (cbn; lra). apply Rmult_le_compat_l; lra. }
  assert (Dx : Rabs (val x - X) <= / 16777216 * (1 + / 1024) * X + / 1048576 * l + bpow radix2 (-53) * X).
  { replace (val x - X) with ((val x - val p) + (val p - X)) by ring. eapply Rle_trans; [apply Rabs_triang|].
    rewrite S24 in E32. assert (/ 16777216 * Rabs (val p) <= / 16777216 * ((1 + / 1024) * X)) by (apply Rmult_le_compat_l; lra). lra. }
  assert (S53 : bpow radix2 (-53) <= / 1073741824) by (change (/ 1073741824) with (bpow radix2 (-30)); apply bpow_le; lia).
  assert (Q2 : bpow radix2 (-53) * X <= / 1073741824 * X) by (apply Rmult_le_compat_r; assumption). rewrite S22 in X1.
  assert (Dl : Rabs (val x - X) <= / 3 * l) by lra.
  assert (Xa : Rabs (val x) <= X + / 3 * l) by (replace (val x) with ((val x - X) + X) by ring; eapply Rle_trans; [apply Rabs_triang|]; rewrite (Rabs_right X) by lra; lra).
  assert (S60 : 8388608 <= bpow radix2 60) by (change 8388608 with (bpow radix2 23); apply bpow_le; lia).
  apply f_index_sharp; [exact U|split; [exact F64|]|].
  - fold l. apply Rle_trans with (8388608 * l); [lra|]. apply Rmult_le_compat_r; lra.
  - fold l. fold X. eapply Rle_trans; [exact Dl|]. assert (S51 : bpow radix2 (-51) <= / 1073741824) by (change (/ 1073741824) with (bpow radix2 (-30)); apply bpow_le; lia).
    assert (bpow radix2 (-51) * (Rabs (val x) + l) <= / 1073741824 * (8388608 * l)) by (apply Rmult_le_compat; [apply bpow_ge_0|pose proof (Rabs_pos (val x)); lra|exact S51|lra]). lra.
Qed.

(** In C order. *)
Lemma keys_sorted (L : list (Z * Z * Z)) n : (forall p q, nth_error L p = Some q -> Z.to_nat (key n q) = p /\ (0 <= key n q)%Z) -> StronglySorted (fun a b => (key n a < key n b)%Z) L.
Proof.
  intros H. assert (G : forall L o, (forall p q, nth_error L p = Some q -> Z.to_nat (key n q) = o + p /\ (0 <= key n q)%Z)%nat -> StronglySorted (fun a b => (key n a < key n b)%Z) L).
  { clear. induction L as [|a L IH]; intros o H; [constructor|]. constructor.
    - apply (IH (S o)). intros p q Hp. destruct (H (S p) q Hp). split; [lia|assumption].
    - apply Forall_forall. intros b Hb. apply In_nth_error in Hb. destruct Hb as (p & Hp). destruct (H 0%nat a eq_refl). destruct (H (S p) b Hp). lia. }
  apply (G L 0%nat). exact H.
Qed.
Lemma grid_sorted n : (0 <= n)%Z -> StronglySorted (fun a b => (key n a < key n b)%Z) (grid_index n).
Proof.
  intros Hn. apply keys_sorted. intros p q Hq. destruct (grid_index_inv _ _ _ Hq) as (i & j & k & -> & Hi & Hj & Hk & ->). cbn [key]; unfold flat in *. split; [reflexivity|]. pose proof (flat_range n i j k Hi Hj Hk). lia.
Qed.
Lemma sorted_filter {A} (R : A -> A -> Prop) (l : list A) (zs : list Z) t : StronglySorted R l -> StronglySorted R (map fst (filter (fun p => (snd p =? t)%Z) (combine l zs))).
Proof.
  intros H. revert zs. induction H as [|a l S IH F]; intros [|z zs]; cbn [combine filter map]; try constructor. cbn [snd].
  destruct (z =? t)%Z; cbn [map fst]; [|apply IH]. constructor; [apply IH|]. apply Forall_forall. intros b Hb. apply in_map_iff in Hb. destruct Hb as ([b' z'] & <- & Hb).
  apply filter_In in Hb. destruct Hb as [Hb _]. apply in_combine_l in Hb. rewrite Forall_forall in F. exact (F _ Hb).
Qed.
Lemma points_spec lam m th c name pts : fits32 m -> t_new lam m th = Ok c -> t_grid_points c name = Ok pts ->
  exists t idx, od_get String.eqb web_types name = Some t /\
    pts = map (fun '(i, j, k) => (t_coord m i, t_coord m j, t_coord m k)) idx /\
    StronglySorted (fun a b => (key (fm_n m) a < key (fm_n m) b)%Z) idx /\
    (forall i j k, In (i, j, k) idx <-> (0 <= i < fm_n m)%Z /\ (0 <= j < fm_n m)%Z /\ (0 <= k < fm_n m)%Z /\ nth_error (tc_n c) (Z.to_nat (flat (fm_n m) i j k)) = Some t).
Proof.
  intros Fm E G. destruct (t_new_inv _ _ _ _ E) as (L & _ & Ec). unfold t_grid_points in G. destruct (od_get String.eqb web_types name) as [t|] eqn:Et; [|discriminate].
  injection G as G. assert (Em : tc_mesh c = m) by (rewrite Ec; reflexivity). rewrite Em in G. set (n := fm_n m) in *. assert (Hn : (0 < n)%Z) by (destruct Fm; lia).
  assert (Lc : length (tc_n c) = length (grid_index n)). { rewrite Ec. cbn [tc_n]. rewrite map_length, grid_index_len. nia. }
  exists t, (map fst (filter (fun p => (snd p =? t)%Z) (combine (grid_index n) (tc_n c)))). split; [reflexivity|]. split; [|split].
  - rewrite <- G, map_map. apply map_ext. intros [[[i j] k] z]. reflexivity.
  - apply sorted_filter. apply grid_sorted. lia.
  - intros i j k. rewrite in_map_iff. split.
    + intros ([q z] & Eq & I). cbn [fst] in Eq. subst q. apply filter_In in I. destruct I as [I Ez]. cbn [snd] in Ez. apply Z.eqb_eq in Ez. subst z.
      apply In_nth_error in I. destruct I as (p & I). pose proof (nth_error_combine_inv _ _ _ _ I) as [I1 I2]. cbn [fst snd] in I1, I2.
      destruct (grid_index_inv _ _ _ I1) as (i' & j' & k' & Ev & Hi & Hj & Hk & ->). injection Ev as <- <- <-. auto.
    + intros (Hi & Hj & Hk & W). exists (i, j, k, t). split; [reflexivity|]. apply filter_In. split; [|cbn [snd]; apply Z.eqb_refl].
      apply (nth_error_In _ (Z.to_nat (flat n i j k))). apply nth_error_combine; [apply grid_index_nth; assumption|exact W].
Qed.
Lemma cell_coord m i j k : fits32 m -> (0 <= i < fm_n m)%Z -> (0 <= j < fm_n m)%Z -> (0 <= k < fm_n m)%Z ->
  t_cell m (widen (t_coord m i, t_coord m j, t_coord m k)) = flat (fm_n m) i j k.
Proof.
  intros Fm Hi Hj Hk. cbn [widen t_cell]. rewrite (proj2 (proj2 (coord_spec m i Fm Hi))), (proj2 (proj2 (coord_spec m j Fm Hj))), (proj2 (proj2 (coord_spec m k Fm Hk))). reflexivity.
Qed.

(** Fractions. *)
Lemma fraction_spec c t : (0 < length (tc_n c))%nat -> (Z.of_nat (length (tc_n c)) <= 2 ^ 53)%Z ->
  fin (t_fraction c t) = true /\ val (t_fraction c t) = rnd64 (INR (length (filter (fun k => (k =? t)%Z) (tc_n c))) / INR (length (tc_n c))) /\ 0 <= val (t_fraction c t) <= 1.
Proof.
  intros P L. set (a := length (filter (fun k => (k =? t)%Z) (tc_n c))). set (s := length (tc_n c)) in *.
  assert (Las : (a <= s)%nat). { unfold a, s. clear. induction (tc_n c) as [|x l IH]; cbn; [lia|]. destruct (x =? t)%Z; cbn; lia. }
  destruct (of_Z64_exact (Z.of_nat a) ltac:(lia)) as [Va Fa]. destruct (of_Z64_exact (Z.of_nat s) ltac:(lia)) as [Vs Fs]. rewrite <- INR_IZR_INZ in Va, Vs.
  assert (S1 : 1 <= INR s) by (apply (le_INR 1); lia). assert (A1 : INR a <= INR s) by (apply le_INR; exact Las). pose proof (pos_INR a) as A0.
  assert (Q : 0 <= INR a / INR s <= 1).
  { split; [apply Rmult_le_pos; [exact A0|left; apply Rinv_0_lt_compat; lra]|]. apply Rmult_le_reg_r with (INR s); [lra|]. unfold Rdiv. rewrite Rmult_assoc, Rinv_l by lra. lra. }
  assert (N : val (of_Z64 (Z.of_nat s)) <> 0) by (rewrite Vs; lra).
  unfold t_fraction. fold a s. destruct (div64_b (of_Z64 (Z.of_nat a)) (of_Z64 (Z.of_nat s)) Fa N) as [F V].
  { rewrite Va, Vs, Rabs_right by lra. apply Rle_trans with (bpow radix2 0); [cbn; lra|]. apply bpow_le. lia. }
  rewrite Va, Vs in V. split; [exact F|]. split; [exact V|]. rewrite V. split; [rewrite <- rnd64_0; apply rnd64_le; lra|].
  replace 1 with (rnd64 1); [apply rnd64_le; lra|]. pose proof (format_int 1 0 ltac:(lia) ltac:(lia)) as K. change (B 0) with 1 in K. rewrite Rmult_1_r in K. exact K.
Qed.
