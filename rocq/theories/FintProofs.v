(** Proofs for C96. *)
From Coq Require Import ZArith Reals Lra Lia List Permutation.
Require Import Flocq.Core.Core Flocq.IEEE754.BinarySingleNaN.
From Verif Require Import Base MeshModel MeshProofs ProcFloat InterpFloatProofs MeshFloatModel MeshFloatSpec MeshFloatProofs FredModel FredSpec FredProofs FredProofs2 FintModel FintSpec.
Import ListNotations. Local Open Scope list_scope. Local Open Scope R_scope.

Lemma lerp_at f j w : 0 <= w <= 1 -> lerp f (IZR j + w) = (1 - w) * f j + w * f (j + 1)%Z.
Proof.
  intros H. unfold lerp. destruct (Req_dec w 1) as [->|N].
  - replace (IZR j + 1) with (IZR (j + 1)) by (rewrite plus_IZR; reflexivity). rewrite Zfloor_IZR. ring.
  - rewrite (Zfloor_imp j (IZR j + w)); [|rewrite plus_IZR; lra]. replace (IZR j + w - IZR j) with w by ring. reflexivity.
Qed.
Lemma lerp_ext f g t : (forall i, f i = g i) -> lerp f t = lerp g t.
Proof. intros H. unfold lerp. rewrite !H. reflexivity. Qed.

(** One product with a weight in [0, 1]. *)
Lemma times_weight v a : fin v = true -> fin a = true -> 0 <= val a <= 1 -> Rabs (val v) <= B 1023 ->
  fin (mul64 v a) = true /\ Rabs (val (mul64 v a)) <= Rabs (val v) /\ Rabs (val (mul64 v a) - val v * val a) <= B (-53) * (Rabs (val v) * val a) + B (-1075).
Proof.
  intros Fv Fa Ha Hv. pose proof (Rabs_pos (val v)) as P.
  assert (L : Rabs (val v * val a) <= Rabs (val v)) by (rewrite Rabs_mult, (Rabs_right (val a)) by lra; rewrite <- (Rmult_1_r (Rabs (val v))) at 2; apply Rmult_le_compat_l; lra).
  destruct (mul64_b v a Fv Fa) as [F V]; [lra|]. split; [exact F|]. rewrite V. split.
  - assert (G : rnd64 (Rabs (val v)) = Rabs (val v)). { apply round_generic; [apply valid_rnd_N|]. apply generic_format_abs, format64. }
    apply Rabs_le_inv in L. apply Rabs_le. split.
    + apply Ropp_le_cancel. rewrite Ropp_involutive, <- round_NE_opp, <- G. apply rnd64_le. lra.
    + rewrite <- G. apply rnd64_le. lra.
  - destruct (err64 (val v * val a)) as (d & e & Hd & He & _ & ->). replace (val v * val a * (1 + d) + e - val v * val a) with (val v * val a * d + e) by ring.
    eapply Rle_trans; [apply Rabs_triang|]. rewrite !Rabs_mult, (Rabs_right (val a)) by lra.
    assert (0 <= Rabs (val v) * val a) by (apply Rmult_le_pos; lra). apply Rplus_le_compat; [|exact He]. rewrite Rmult_comm. apply Rmult_le_compat_r; assumption.
Qed.
Lemma term_spec v a b c : fin v = true -> fin a = true -> fin b = true -> fin c = true -> 0 <= val a <= 1 -> 0 <= val b <= 1 -> 0 <= val c <= 1 -> Rabs (val v) <= B 1023 ->
  let t := f_term v a b c in fin t = true /\ Rabs (val t) <= Rabs (val v) /\
  Rabs (val t - val v * val a * val b * val c) <= 4 * B (-53) * (Rabs (val v) * (val a * val b * val c)) + 4 * B (-1075).
Proof.
  intros Fv Fa Fb Fc Ha Hb Hc Hv t. destruct (times_weight v a Fv Fa Ha Hv) as (F1 & L1 & E1). set (p := mul64 v a) in *.
  destruct (times_weight p b F1 Fb Hb ltac:(lra)) as (F2 & L2 & E2). set (q := mul64 p b) in *.
  destruct (times_weight q c F2 Fc Hc ltac:(lra)) as (F3 & L3 & E3). change (mul64 q c) with t in F3, L3, E3.
  split; [exact F3|]. split; [lra|]. destruct small_facts as ((u0 & u1) & (t0 & t1) & _). set (u := B (-53)) in *. set (e := B (-1075)) in *.
  set (X := Rabs (val v)) in *. pose proof (Rabs_pos (val v)) as X0. fold X in X0.
  assert (A : Rabs (val p) <= X * val a * (1 + u) + e).
  { replace (val p) with ((val p - val v * val a) + val v * val a) by ring. eapply Rle_trans; [apply Rabs_triang|]. rewrite Rabs_mult, (Rabs_right (val a)) by lra. fold X. lra. }
  assert (E2' : Rabs (val q - val v * val a * val b) <= X * (val a * val b) * (2 * u + u * u) + e * (2 + u)).
  { replace (val q - val v * val a * val b) with ((val q - val p * val b) + (val p - val v * val a) * val b) by ring. eapply Rle_trans; [apply Rabs_triang|].
    rewrite Rabs_mult, (Rabs_right (val b)) by lra.
    assert (S1 : u * (Rabs (val p) * val b) <= u * ((X * val a * (1 + u) + e) * val b)) by (apply Rmult_le_compat_l; [lra|]; apply Rmult_le_compat_r; lra).
    assert (S2 : Rabs (val p - val v * val a) * val b <= (u * (X * val a) + e) * val b) by (apply Rmult_le_compat_r; lra).
    assert (S3 : e * val b <= e) by (rewrite <- (Rmult_1_r e) at 2; apply Rmult_le_compat_l; lra).
    assert (S4 : u * (e * val b) <= u * e) by (apply Rmult_le_compat_l; lra). lra. }
  assert (A2 : Rabs (val q) <= X * (val a * val b) * (1 + 2 * u + u * u) + e * (2 + u)).
  { replace (val q) with ((val q - val v * val a * val b) + val v * val a * val b) by ring. eapply Rle_trans; [apply Rabs_triang|].
    rewrite !Rabs_mult, (Rabs_right (val a)), (Rabs_right (val b)) by lra. fold X. lra. }
  replace (val t - val v * val a * val b * val c) with ((val t - val q * val c) + (val q - val v * val a * val b) * val c) by ring. eapply Rle_trans; [apply Rabs_triang|].
  rewrite Rabs_mult, (Rabs_right (val c)) by lra.
  assert (S1 : u * (Rabs (val q) * val c) <= u * ((X * (val a * val b) * (1 + 2 * u + u * u) + e * (2 + u)) * val c)) by (apply Rmult_le_compat_l; [lra|]; apply Rmult_le_compat_r; lra).
  assert (S2 : Rabs (val q - val v * val a * val b) * val c <= (X * (val a * val b) * (2 * u + u * u) + e * (2 + u)) * val c) by (apply Rmult_le_compat_r; lra).
  assert (S3 : e * val c <= e) by (rewrite <- (Rmult_1_r e) at 2; apply Rmult_le_compat_l; lra).
  set (Y := X * (val a * val b * val c)). assert (Y0 : 0 <= Y) by (unfold Y; apply Rmult_le_pos; [exact X0|]; apply Rmult_le_pos; [apply Rmult_le_pos|]; lra).
  assert (S1' : u * ((X * (val a * val b) * (1 + 2 * u + u * u) + e * (2 + u)) * val c) = Y * (u * (1 + 2 * u + u * u)) + (e * val c) * (u * (2 + u))) by (unfold Y; ring).
  assert (S2' : (X * (val a * val b) * (2 * u + u * u) + e * (2 + u)) * val c = Y * (2 * u + u * u) + (e * val c) * (2 + u)) by (unfold Y; ring).
  rewrite S1' in S1. rewrite S2' in S2.
  assert (K : u * (1 + 2 * u + u * u) + (2 * u + u * u) <= 4 * u) by nra. assert (K2 : u * (2 + u) + (2 + u) + 1 <= 4) by nra.
  assert (T1 : Y * (u * (1 + 2 * u + u * u)) + Y * (2 * u + u * u) <= Y * (4 * u)) by (rewrite <- Rmult_plus_distr_l; apply Rmult_le_compat_l; lra).
  assert (C0 : 0 <= e * val c) by (apply Rmult_le_pos; lra).
  assert (T2 : (e * val c) * (u * (2 + u)) + (e * val c) * (2 + u) + e <= e * 4).
  { rewrite <- Rmult_plus_distr_l. apply Rle_trans with (e * (u * (2 + u) + (2 + u)) + e); [apply Rplus_le_compat_r, Rmult_le_compat_r; nra|]. rewrite <- (Rmult_1_r e) at 2. rewrite <- Rmult_plus_distr_l. apply Rmult_le_compat_l; lra. }
  lra.
Qed.

(** The eight terms. *)
Definition quad := (b64 * b64 * b64 * b64)%type.
Definition q_term (q : quad) : b64 := let '(v, a, b, c) := q in f_term v a b c.
Definition q_exact (q : quad) : R := let '(v, a, b, c) := q in val v * val a * val b * val c.
Definition q_weight (q : quad) : R := let '(v, a, b, c) := q in val a * val b * val c.
Definition q_ok (M : R) (q : quad) : Prop := let '(v, a, b, c) := q in fin v = true /\ Rabs (val v) <= M /\ fin a = true /\ fin b = true /\ fin c = true /\
  0 <= val a <= 1 /\ 0 <= val b <= 1 /\ 0 <= val c <= 1.
Lemma quads_sum M l : 0 <= M <= B 1023 -> Forall (q_ok M) l ->
  finite (map q_term l) /\
  Rabs (exact (map q_term l) - Rsum (map q_exact l)) <= 4 * B (-53) * (M * Rsum (map q_weight l)) + INR (length l) * (4 * B (-1075)) /\
  size (map q_term l) <= (1 + 4 * B (-53)) * (M * Rsum (map q_weight l)) + INR (length l) * (4 * B (-1075)) /\ 0 <= Rsum (map q_weight l).
Proof.
  intros HM. induction 1 as [|q l Hq _ IH].
  - unfold exact, size, Rsum. cbn. repeat split; try constructor; rewrite ?Rminus_0_r, ?Rabs_R0; pose proof (u_pos (-1075)); lra.
  - destruct IH as (F & E & Z & W0). destruct q as [[[v a] b] c]. destruct Hq as (Fv & Mv & Fa & Fb & Fc & Ha & Hb & Hc).
    destruct (term_spec v a b c Fv Fa Fb Fc Ha Hb Hc ltac:(lra)) as (Ft & _ & Et). pose proof (u_pos (-53)) as U.
    cbn [map q_term q_exact q_weight length]. unfold exact, size, Rsum in *. cbn [fold_right]. rewrite S_INR.
    assert (P : 0 <= val a * val b * val c) by (repeat apply Rmult_le_pos; lra).
    assert (X : Rabs (val v) * (val a * val b * val c) <= M * (val a * val b * val c)) by (apply Rmult_le_compat_r; lra).
    assert (Xu : 4 * B (-53) * (Rabs (val v) * (val a * val b * val c)) <= 4 * B (-53) * (M * (val a * val b * val c))) by (apply Rmult_le_compat_l; lra).
    split; [constructor; assumption|]. split; [|split; [|lra]].
    + match goal with |- Rabs (?t + ?s - (?x + ?y)) <= _ => replace (t + s - (x + y)) with ((t - x) + (s - y)) by ring end.
      eapply Rle_trans; [apply Rabs_triang|]. lra.
    + assert (A : Rabs (val (f_term v a b c)) <= (Rabs (val v) * (val a * val b * val c)) + (4 * B (-53) * (Rabs (val v) * (val a * val b * val c)) + 4 * B (-1075))).
      { replace (val (f_term v a b c)) with (val v * val a * val b * val c + (val (f_term v a b c) - val v * val a * val b * val c)) by ring.
        eapply Rle_trans; [apply Rabs_triang|]. apply Rplus_le_compat; [|exact Et]. rewrite !Rabs_mult, (Rabs_right (val a)), (Rabs_right (val b)), (Rabs_right (val c)) by lra. lra. }
      lra.
Qed.
Lemma left_sums t ts : sums (length ts) (t :: ts) (fold_left add64 ts t).
Proof.
  assert (G : forall ts d l s, sums d l s -> sums (d + length ts) (l ++ ts) (fold_left add64 ts s)).
  { clear. induction ts as [|t ts IH]; intros d l s H; cbn [fold_left length]; [rewrite app_nil_r, Nat.add_0_r; exact H|].
    replace (d + S (length ts))%nat with (S d + length ts)%nat by lia. replace (l ++ t :: ts) with ((l ++ [t]) ++ ts) by (rewrite <- app_assoc; reflexivity).
    apply IH. apply sums_add; [exact H|]. eapply sums_more; [apply sums_one|lia]. }
  exact (G ts 0%nat [t] t (sums_one t)).
Qed.

(** One axis as [weights_spec] gives it. *)
Definition quads (n : Z) (d : list b64) (j0 j1 j2 : Z) (l0 r0 l1 r1 l2 r2 : b64) : list quad :=
  map (fun c => let '(c0, c1, c2) := c in
    (f_at n d (side c0 (j0 mod n) ((j0 + 1) mod n))%Z (side c1 (j1 mod n) ((j1 + 1) mod n))%Z (side c2 (j2 mod n) ((j2 + 1) mod n))%Z, side c0 l0 r0, side c1 l1 r1, side c2 l2 r2)) corners8.
Lemma terms_quads m d x0 x1 x2 j0 j1 j2 l0 r0 l1 r1 l2 r2 :
  f_weights_at m x0 = (j0 mod fm_n m, (j0 + 1) mod fm_n m, l0, r0)%Z -> f_weights_at m x1 = (j1 mod fm_n m, (j1 + 1) mod fm_n m, l1, r1)%Z ->
  f_weights_at m x2 = (j2 mod fm_n m, (j2 + 1) mod fm_n m, l2, r2)%Z ->
  f_terms m d (x0, x1, x2) = map q_term (quads (fm_n m) d j0 j1 j2 l0 r0 l1 r1 l2 r2).
Proof. intros E0 E1 E2. unfold f_terms. rewrite E0, E1, E2. reflexivity. Qed.
Lemma f_at_cell n d i0 i1 i2 : val (f_at n d (i0 mod n) (i1 mod n) (i2 mod n)) = cell n d i0 i1 i2.
Proof. reflexivity. Qed.
Lemma f_at_ok m d M i0 i1 i2 : (0 < fm_n m)%Z -> field_ok m d M -> fin (f_at (fm_n m) d (i0 mod fm_n m) (i1 mod fm_n m) (i2 mod fm_n m)) = true /\
  Rabs (val (f_at (fm_n m) d (i0 mod fm_n m) (i1 mod fm_n m) (i2 mod fm_n m))) <= M.
Proof.
  intros Hn [L F]. set (n := fm_n m) in *. pose proof (flat_range n (i0 mod n) (i1 mod n) (i2 mod n) (Z.mod_pos_bound _ _ Hn) (Z.mod_pos_bound _ _ Hn) (Z.mod_pos_bound _ _ Hn)) as R.
  unfold f_at. assert (I : In (nth (Z.to_nat (flat n (i0 mod n) (i1 mod n) (i2 mod n))) d (B754_zero false)) d) by (apply nth_In; rewrite L; lia).
  rewrite Forall_forall in F. exact (F _ I).
Qed.
Lemma quads_ok m d M j0 j1 j2 l0 r0 l1 r1 l2 r2 : (0 < fm_n m)%Z -> field_ok m d M ->
  Forall (fun w => fin w = true /\ 0 <= val w <= 1) [l0; r0; l1; r1; l2; r2] -> Forall (q_ok M) (quads (fm_n m) d j0 j1 j2 l0 r0 l1 r1 l2 r2).
Proof.
  intros Hn Hd Hw. apply Forall_forall. intros q Hq. apply in_map_iff in Hq. destruct Hq as ([[c0 c1] c2] & <- & _).
  assert (S : forall c a b, In a [l0; r0; l1; r1; l2; r2] -> In b [l0; r0; l1; r1; l2; r2] -> fin (side c a b) = true /\ 0 <= val (side c a b) <= 1).
  { rewrite Forall_forall in Hw. intros [] a b Ha Hb; [exact (Hw _ Hb)|exact (Hw _ Ha)]. }
  destruct (S c0 l0 r0) as [F0 P0]; [cbn; auto|cbn; auto|]. destruct (S c1 l1 r1) as [F1 P1]; [cbn; auto|cbn; auto|]. destruct (S c2 l2 r2) as [F2 P2]; [cbn; auto 10|cbn; auto 10|].
  unfold q_ok. assert (K : forall c (j : Z), (side c (j mod fm_n m) ((j + 1) mod fm_n m) = (side c j (j + 1)) mod fm_n m)%Z) by (intros [] j; reflexivity). rewrite !K.
  destruct (f_at_ok m d M (side c0 j0 (j0 + 1)%Z) (side c1 j1 (j1 + 1)%Z) (side c2 j2 (j2 + 1)%Z) Hn Hd) as [Fv Mv]. tauto.
Qed.
Lemma quads_weight n d j0 j1 j2 l0 r0 l1 r1 l2 r2 : val l0 + val r0 = 1 -> val l1 + val r1 = 1 -> val l2 + val r2 = 1 ->
  Rsum (map q_weight (quads n d j0 j1 j2 l0 r0 l1 r1 l2 r2)) = 1.
Proof.
  intros S0 S1 S2. unfold quads, corners8, Rsum. cbn [map fold_right side q_weight].
  transitivity ((val l0 + val r0) * (val l1 + val r1) * (val l2 + val r2)); [ring|]. rewrite S0, S1, S2. ring.
Qed.
Lemma quads_exact n d l j0 j1 j2 l0 r0 l1 r1 l2 r2 : 0 < l -> val l0 + val r0 = 1 -> val l1 + val r1 = 1 -> val l2 + val r2 = 1 ->
  0 <= val r0 <= 1 -> 0 <= val r1 <= 1 -> 0 <= val r2 <= 1 ->
  Rsum (map q_exact (quads n d j0 j1 j2 l0 r0 l1 r1 l2 r2)) = trilinear n d l ((IZR j0 + val r0) * l) ((IZR j1 + val r1) * l) ((IZR j2 + val r2) * l).
Proof.
  intros P S0 S1 S2 H0 H1 H2. unfold trilinear. assert (Q : forall t, t * l / l = t) by (intros; field; lra). rewrite !Q.
  rewrite (lerp_at _ j0 (val r0) H0). rewrite !(lerp_at _ j1 (val r1) H1). rewrite !(lerp_at _ j2 (val r2) H2).
  replace (1 - val r0) with (val l0) by lra. replace (1 - val r1) with (val l1) by lra. replace (1 - val r2) with (val l2) by lra.
  unfold quads, corners8, Rsum. cbn [map fold_right side q_exact]. rewrite !f_at_cell. ring.
Qed.
Lemma value_spec m d x0 x1 x2 M : usable m -> field_ok m d M -> 0 <= M <= B 1000 -> point_ok m (x0, x1, x2) ->
  exists y0 y1 y2, close_to m y0 x0 /\ close_to m y1 x1 /\ close_to m y2 x2 /\ fin (f_value_1 m d (x0, x1, x2)) = true /\
    Rabs (val (f_value_1 m d (x0, x1, x2)) - trilinear (fm_n m) d (val (f_grid m)) y0 y1 y2) <= B (-48) * M + B (-1069).
Proof.
  intros U Hd HM ((F0 & H0) & (F1 & H1) & (F2 & H2)). destruct (grid_facts m U) as (_ & Pl & _).
  destruct (weights_spec m x0 U F0 H0) as (j0 & l0 & r0 & E0 & Fl0 & Fr0 & Dl0 & Dr0 & S0 & C0).
  destruct (weights_spec m x1 U F1 H1) as (j1 & l1 & r1 & E1 & Fl1 & Fr1 & Dl1 & Dr1 & S1 & C1).
  destruct (weights_spec m x2 U F2 H2) as (j2 & l2 & r2 & E2 & Fl2 & Fr2 & Dl2 & Dr2 & S2 & C2).
  apply dyadic_range in Dl0, Dr0, Dl1, Dr1, Dl2, Dr2. assert (Hn : (0 < fm_n m)%Z) by (destruct U; lia).
  exists ((IZR j0 + val r0) * val (f_grid m)), ((IZR j1 + val r1) * val (f_grid m)), ((IZR j2 + val r2) * val (f_grid m)).
  split; [exact C0|]. split; [exact C1|]. split; [exact C2|].
  assert (HB : B 1000 <= B 1022) by (apply bpow_le; lia). assert (HB1 : B 1022 <= B 1023) by (apply bpow_le; lia).
  destruct (quads_sum M (quads (fm_n m) d j0 j1 j2 l0 r0 l1 r1 l2 r2) ltac:(lra)) as (Ff & Ee & Ez & _).
  { apply quads_ok; [exact Hn|exact Hd|]. repeat (apply Forall_cons; [split; assumption|]). apply Forall_nil. }
  rewrite (quads_weight _ _ _ _ _ _ _ _ _ _ _ S0 S1 S2), Rmult_1_r in Ee, Ez.
  rewrite (quads_exact _ _ (val (f_grid m)) _ _ _ _ _ _ _ _ _ Pl S0 S1 S2 Dr0 Dr1 Dr2) in Ee. rewrite <- (terms_quads m d x0 x1 x2 _ _ _ _ _ _ _ _ _ E0 E1 E2) in Ff, Ee, Ez.
  set (T := trilinear _ _ _ _ _ _) in *.
  assert (Q8 : INR (length (quads (fm_n m) d j0 j1 j2 l0 r0 l1 r1 l2 r2)) = 8) by (cbn; ring). rewrite Q8 in Ee, Ez.
  assert (L8 : length (f_terms m d (x0, x1, x2)) = 8%nat) by (unfold f_terms; rewrite E0, E1, E2; reflexivity).
  unfold f_value_1. destruct (f_terms m d (x0, x1, x2)) as [|t ts]; [discriminate|]. injection L8 as L7.
  pose proof (left_sums t ts) as Sm. rewrite L7 in Sm. destruct small_facts as ((u0 & u1) & (e0 & e1) & _ & _ & _ & E48).
  assert (T69 : B (-1069) = 64 * B (-1075)) by (change (-1069)%Z with (6 + -1075)%Z; rewrite bpow_plus; reflexivity).
  assert (HI : 0 <= INR 7 * eps <= 1) by (rewrite eps_u; cbn [INR]; lra).
  assert (P1000 : 1 <= B 1000) by (change 1 with (B 0); apply bpow_le; lia).
  assert (H22 : 4 * B 1000 <= B 1022) by (replace (4 * B 1000) with (B 1002) by (change 1002%Z with (2 + 1000)%Z; rewrite bpow_plus; reflexivity); apply bpow_le; lia).
  assert (SM : size (t :: ts) <= 2 * M + 33 * B (-1075)).
  { eapply Rle_trans; [exact Ez|]. assert (4 * B (-53) * M <= 1 * M) by (apply Rmult_le_compat_r; lra). lra. }
  destruct (sums_bound 7 (t :: ts) _ Sm Ff (proj2 HI)) as [Fs Es]; [assert (33 * B (-1075) <= 1) by lra; lra|]. split; [exact Fs|].
  replace (val (fold_left add64 ts t) - T) with ((val (fold_left add64 ts t) - exact (t :: ts)) + (exact (t :: ts) - T)) by ring.
  eapply Rle_trans; [apply Rabs_triang|]. rewrite eps_u in Es. replace (INR 7) with 7 in Es by (cbn; ring).
  assert (K : 7 * (2 * B (-53)) * size (t :: ts) <= 7 * (2 * B (-53)) * (2 * M + 33 * B (-1075))) by (apply Rmult_le_compat_l; lra).
  assert (K2 : 7 * (2 * B (-53)) * (33 * B (-1075)) <= 14 / 1024 * (33 * B (-1075))) by (apply Rmult_le_compat_r; lra).
  rewrite E48, T69. lra.
Qed.

(** Convexity of the exact interpolant. *)
Lemma lerp_between f t lo hi : (forall i, lo <= f i <= hi) -> lo <= lerp f t <= hi.
Proof.
  intros H. unfold lerp. pose proof (Zfloor_lb t) as L. pose proof (Zfloor_ub t) as U. set (w := t - IZR (Zfloor t)). assert (W : 0 <= w <= 1) by (unfold w; lra).
  pose proof (H (Zfloor t)) as A. pose proof (H (Zfloor t + 1)%Z) as C. set (a := f (Zfloor t)) in *. set (c := f (Zfloor t + 1)%Z) in *. clearbody w a c.
  assert (S1 : (1 - w) * lo <= (1 - w) * a) by (apply Rmult_le_compat_l; lra). assert (S2 : (1 - w) * a <= (1 - w) * hi) by (apply Rmult_le_compat_l; lra).
  assert (S3 : w * lo <= w * c) by (apply Rmult_le_compat_l; lra). assert (S4 : w * c <= w * hi) by (apply Rmult_le_compat_l; lra). lra.
Qed.
Lemma trilinear_between n d l y0 y1 y2 lo hi : (0 < n)%Z -> length d = Z.to_nat (n * n * n) -> Forall (fun v => lo <= val v <= hi) d -> lo <= trilinear n d l y0 y1 y2 <= hi.
Proof.
  intros Hn L F. unfold trilinear. apply lerp_between. intros i0. apply lerp_between. intros i1. apply lerp_between. intros i2. unfold cell.
  pose proof (flat_range n (i0 mod n) (i1 mod n) (i2 mod n) (Z.mod_pos_bound _ _ Hn) (Z.mod_pos_bound _ _ Hn) (Z.mod_pos_bound _ _ Hn)) as R. unfold flat in R.
  rewrite Forall_forall in F. apply F, nth_In. rewrite L. lia.
Qed.

(** Nonnegative fields. *)
Lemma times_nonneg v a : fin v = true -> fin a = true -> 0 <= val a <= 1 -> Rabs (val v) <= B 1023 -> 0 <= val v -> 0 <= val (mul64 v a).
Proof.
  intros Fv Fa Ha Hv P. destruct (mul64_b v a Fv Fa) as [_ V].
  { rewrite Rabs_mult, (Rabs_right (val a)) by lra. apply Rle_trans with (Rabs (val v) * 1); [apply Rmult_le_compat_l; [apply Rabs_pos|lra]|lra]. }
  rewrite V. apply rnd64_pos. apply Rmult_le_pos; lra.
Qed.
Lemma term_nonneg M q : M <= B 1023 -> q_ok M q -> 0 <= val (fst (fst (fst q))) -> fin (q_term q) = true /\ 0 <= val (q_term q).
Proof.
  intros HM. destruct q as [[[v a] b] c]. intros (Fv & Mv & Fa & Fb & Fc & Ha & Hb & Hc) P. cbn [fst q_term] in *.
  destruct (term_spec v a b c Fv Fa Fb Fc Ha Hb Hc ltac:(lra)) as (F & _). split; [exact F|].
  destruct (times_weight v a Fv Fa Ha ltac:(lra)) as (F1 & L1 & _). pose proof (times_nonneg v a Fv Fa Ha ltac:(lra) P) as P1.
  destruct (times_weight _ b F1 Fb Hb ltac:(lra)) as (F2 & L2 & _). pose proof (times_nonneg _ b F1 Fb Hb ltac:(lra) P1) as P2.
  exact (times_nonneg _ c F2 Fc Hc ltac:(lra) P2).
Qed.
Lemma value_nonneg m d x0 x1 x2 M : usable m -> field_ok m d M -> 0 <= M <= B 1000 -> point_ok m (x0, x1, x2) -> Forall (fun v => 0 <= val v) d ->
  0 <= val (f_value_1 m d (x0, x1, x2)).
Proof.
  intros U Hd HM Hx Pd. destruct (value_spec m d x0 x1 x2 M U Hd HM Hx) as (_ & _ & _ & _ & _ & _ & Fs & _). destruct Hx as ((F0 & H0) & (F1 & H1) & (F2 & H2)).
  destruct (weights_spec m x0 U F0 H0) as (j0 & l0 & r0 & E0 & Fl0 & Fr0 & Dl0 & Dr0 & _).
  destruct (weights_spec m x1 U F1 H1) as (j1 & l1 & r1 & E1 & Fl1 & Fr1 & Dl1 & Dr1 & _).
  destruct (weights_spec m x2 U F2 H2) as (j2 & l2 & r2 & E2 & Fl2 & Fr2 & Dl2 & Dr2 & _).
  apply dyadic_range in Dl0, Dr0, Dl1, Dr1, Dl2, Dr2. assert (Hn : (0 < fm_n m)%Z) by (destruct U; lia).
  assert (Q : Forall (q_ok M) (quads (fm_n m) d j0 j1 j2 l0 r0 l1 r1 l2 r2)).
  { apply quads_ok; [exact Hn|exact Hd|]. repeat (apply Forall_cons; [split; assumption|]). apply Forall_nil. }
  assert (HB : B 1000 <= B 1023) by (apply bpow_le; lia).
  assert (T : Forall (fun x => fin x = true /\ 0 <= val x) (f_terms m d (x0, x1, x2))).
  { rewrite (terms_quads m d x0 x1 x2 _ _ _ _ _ _ _ _ _ E0 E1 E2). apply Forall_map. rewrite Forall_forall in Q |- *. intros q Hq. apply (term_nonneg M); [lra|exact (Q q Hq)|].
    apply in_map_iff in Hq. destruct Hq as ([[c0 c1] c2] & <- & _). cbn [fst].
    destruct Hd as [L _]. unfold f_at. assert (K : forall c (j : Z), (0 <= side c (j mod fm_n m) ((j + 1) mod fm_n m) < fm_n m)%Z) by (intros [] j; apply Z.mod_pos_bound; exact Hn).
    pose proof (flat_range _ _ _ _ (K c0 j0) (K c1 j1) (K c2 j2)) as R. rewrite Forall_forall in Pd. apply Pd, nth_In. rewrite L. lia. }
  revert Fs T. unfold f_value_1. destruct (f_terms m d (x0, x1, x2)) as [|t ts]; [intros _ _; cbn; lra|]. intros Fs T. exact (proj1 (sums_nonneg _ _ _ (left_sums t ts) T Fs)).
Qed.

(** Exactly on a grid point. *)
Lemma times_one v a : fin v = true -> fin a = true -> val a = 1 -> Rabs (val v) <= B 1023 -> fin (mul64 v a) = true /\ val (mul64 v a) = val v.
Proof.
  intros Fv Fa Ha Hv. destruct (mul64_b v a Fv Fa) as [F V]; [rewrite Ha, Rmult_1_r; exact Hv|]. split; [exact F|]. rewrite V, Ha, Rmult_1_r. apply round_generic; [apply valid_rnd_N|apply format64].
Qed.
Lemma times_zero v a : fin v = true -> fin a = true -> val v = 0 \/ val a = 0 -> fin (mul64 v a) = true /\ val (mul64 v a) = 0.
Proof.
  intros Fv Fa H. assert (Z : val v * val a = 0) by (destruct H as [->| ->]; ring). destruct (mul64_b v a Fv Fa) as [F V]; [rewrite Z, Rabs_R0; apply bpow_ge_0|].
  split; [exact F|]. rewrite V, Z. apply rnd64_0.
Qed.
Definition bit (c : bool) (w : b64) : Prop := fin w = true /\ val w = if c then 0 else 1.
Lemma term_bits v c0 c1 c2 a b c M : fin v = true -> Rabs (val v) <= M -> M <= B 1023 -> bit c0 a -> bit c1 b -> bit c2 c ->
  fin (f_term v a b c) = true /\ val (f_term v a b c) = if c0 || c1 || c2 then 0 else val v.
Proof.
  intros Fv Mv HM [Fa Va] [Fb Vb] [Fc Vc]. unfold f_term.
  assert (A : fin (mul64 v a) = true /\ val (mul64 v a) = if c0 then 0 else val v) by (destruct c0; [apply times_zero; auto|apply times_one; auto; lra]). destruct A as [F1 V1].
  assert (A2 : fin (mul64 (mul64 v a) b) = true /\ val (mul64 (mul64 v a) b) = if c0 || c1 then 0 else val v).
  { destruct c0; cbn [orb]; [apply times_zero; auto|]. destruct c1; [apply times_zero; auto|]. rewrite <- V1. apply times_one; auto. rewrite V1. lra. }
  destruct A2 as [F2 V2]. destruct (c0 || c1); cbn [orb]; [apply times_zero; auto|]. destruct c2; [apply times_zero; auto|]. rewrite <- V2. apply times_one; auto. rewrite V2. lra.
Qed.
Lemma weights_grid m x i : usable m -> fin x = true -> (Z.abs i <= 2 ^ 52)%Z -> val x = IZR i * val (f_grid m) ->
  exists w_l w_r, f_weights_at m x = (i mod fm_n m, (i + 1) mod fm_n m, w_l, w_r)%Z /\ bit false w_l /\ bit true w_r.
Proof.
  intros U Fx Hi Hx. destruct (grid_facts m U) as (F & P & _).
  assert (A : Rabs (val x) <= B 61 * val (f_grid m)).
  { rewrite Hx, Rabs_mult, (Rabs_right (val (f_grid m))) by lra. apply Rmult_le_compat_r; [lra|]. rewrite <- abs_IZR. apply Rle_trans with (IZR (2 ^ 52)); [apply IZR_le; exact Hi|].
    change (IZR (2 ^ 52)) with (B 52). apply bpow_le. lia. }
  destruct (quot_b m x U Fx A) as [Fq Vq]. unfold f_weights_at. set (q := div64 x (f_grid m)) in *. cbn zeta.
  destruct (of_Z64_exact i ltac:(lia)) as [Vi Fi]. destruct (of_Z64_exact 1 ltac:(lia)) as [V1 F1].
  assert (Q : val q = IZR i).
  { rewrite Vq, Hx. replace (IZR i * val (f_grid m) / val (f_grid m)) with (IZR i) by (field; lra). rewrite <- Vi. apply round_generic; [apply valid_rnd_N|apply format64]. }
  assert (Ej : ffloor q = i) by (rewrite (ffloor_val q Fq), Q; apply Zfloor_IZR). rewrite Ej.
  assert (Z0 : fin (sub64 q (of_Z64 i)) = true /\ val (sub64 q (of_Z64 i)) = 0).
  { destruct (sub64_b q (of_Z64 i) Fq Fi) as [Fs Vs]; [rewrite Vi, Q, Rminus_diag_eq by reflexivity; rewrite Rabs_R0; apply bpow_ge_0|]. split; [exact Fs|].
    rewrite Vs, Vi, Q, Rminus_diag_eq by reflexivity. apply rnd64_0. }
  destruct Z0 as [Fz Vz]. assert (O : 1 <= B 1023) by (change 1 with (B 0); apply bpow_le; lia).
  assert (L1 : bit false (sub64 (of_Z64 1) (sub64 q (of_Z64 i)))).
  { destruct (sub64_b (of_Z64 1) _ F1 Fz) as [Fs Vs]; [rewrite V1, Vz, Rminus_0_r, Rabs_R1; exact O|]. split; [exact Fs|]. rewrite Vs, V1, Vz, Rminus_0_r. apply rnd64_1. }
  do 2 eexists. split; [reflexivity|]. split; [exact L1|]. destruct L1 as [Fl Vl]. destruct (sub64_b (of_Z64 1) _ F1 Fl) as [Fs Vs]; [rewrite V1, Vl, Rminus_diag_eq by reflexivity; rewrite Rabs_R0; apply bpow_ge_0|].
  split; [exact Fs|]. rewrite Vs, V1, Vl, Rminus_diag_eq by reflexivity. apply rnd64_0.
Qed.
Lemma fold_zeros ts : Forall (fun x => fin x = true /\ val x = 0) ts -> forall t, fin t = true -> Rabs (val t) <= B 1023 -> val (fold_left add64 ts t) = val t.
Proof.
  induction 1 as [|x ts [Fx Vx] _ IH]; intros t Ft Ht; cbn [fold_left]; [reflexivity|]. destruct (add64_b t x Ft Fx) as [F V]; [rewrite Vx, Rplus_0_r; exact Ht|].
  rewrite Vx, Rplus_0_r in V. assert (E : val (add64 t x) = val t) by (rewrite V; apply round_generic; [apply valid_rnd_N|apply format64]). rewrite IH; [exact E|exact F|rewrite E; exact Ht].
Qed.
Lemma value_grid m d x0 x1 x2 M i0 i1 i2 : usable m -> field_ok m d M -> 0 <= M <= B 1000 -> fin x0 = true -> fin x1 = true -> fin x2 = true ->
  (Z.abs i0 <= 2 ^ 52)%Z -> (Z.abs i1 <= 2 ^ 52)%Z -> (Z.abs i2 <= 2 ^ 52)%Z ->
  val x0 = IZR i0 * val (f_grid m) -> val x1 = IZR i1 * val (f_grid m) -> val x2 = IZR i2 * val (f_grid m) ->
  val (f_value_1 m d (x0, x1, x2)) = cell (fm_n m) d i0 i1 i2.
Proof.
  intros U Hd HM F0 F1 F2 I0 I1 I2 X0 X1 X2. destruct (weights_grid m x0 i0 U F0 I0 X0) as (l0 & r0 & E0 & L0 & R0). destruct (weights_grid m x1 i1 U F1 I1 X1) as (l1 & r1 & E1 & L1 & R1).
  destruct (weights_grid m x2 i2 U F2 I2 X2) as (l2 & r2 & E2 & L2 & R2). assert (Hn : (0 < fm_n m)%Z) by (destruct U; lia).
  assert (HB : B 1000 <= B 1023) by (apply bpow_le; lia).
  assert (T : forall c0 c1 c2 (k0 k1 k2 : Z) a b c, bit c0 a -> bit c1 b -> bit c2 c -> let t := f_term (f_at (fm_n m) d (k0 mod fm_n m) (k1 mod fm_n m) (k2 mod fm_n m)) a b c in
    fin t = true /\ val t = if c0 || c1 || c2 then 0 else cell (fm_n m) d k0 k1 k2).
  { intros c0 c1 c2 k0 k1 k2 a b c Ha Hb Hc. destruct (f_at_ok m d M k0 k1 k2 Hn Hd) as [Fv Mv]. exact (term_bits _ c0 c1 c2 a b c M Fv Mv ltac:(lra) Ha Hb Hc). }
  unfold f_value_1, f_terms. rewrite E0, E1, E2.
  rewrite fold_zeros.
  - exact (proj2 (T false false false i0 i1 i2 _ _ _ L0 L1 L2)).
  - repeat apply Forall_cons; try apply Forall_nil; cbn beta;
      [exact (T false false true i0 i1 (i2 + 1)%Z _ _ _ L0 L1 R2)|exact (T false true false i0 (i1 + 1)%Z i2 _ _ _ L0 R1 L2)|exact (T false true true i0 (i1 + 1)%Z (i2 + 1)%Z _ _ _ L0 R1 R2)
      |exact (T true false false (i0 + 1)%Z i1 i2 _ _ _ R0 L1 L2)|exact (T true false true (i0 + 1)%Z i1 (i2 + 1)%Z _ _ _ R0 L1 R2)|exact (T true true false (i0 + 1)%Z (i1 + 1)%Z i2 _ _ _ R0 R1 L2)|exact (T true true true (i0 + 1)%Z (i1 + 1)%Z (i2 + 1)%Z _ _ _ R0 R1 R2)].
  - exact (proj1 (T false false false i0 i1 i2 _ _ _ L0 L1 L2)).
  - rewrite (proj2 (T false false false i0 i1 i2 _ _ _ L0 L1 L2)). cbn [orb]. destruct (f_at_ok m d M i0 i1 i2 Hn Hd) as [_ Mv]. rewrite f_at_cell in Mv. lra.
Qed.
