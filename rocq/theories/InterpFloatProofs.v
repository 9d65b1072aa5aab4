(** Lemmas for the binary64 theorems of InterpFloatProps.v. *)
From Coq Require Import ZArith Reals Lra Lia.
Require Import Flocq.Core.Core Flocq.IEEE754.BinarySingleNaN Flocq.Prop.Relative Flocq.Prop.Plus_error.
From Verif Require Import Base OrderSpec InterpModel InterpProofs ProcFloat InterpFloatModel.
Local Open Scope list_scope.
Local Open Scope R_scope.

(** ** The search sees only the values *)
Lemma at_map {A B} (f : A -> B) xs i : at_ (map f xs) i = rmap f (at_ xs i).
Proof. unfold at_. rewrite nth_error_map. destruct (nth_error xs i); reflexivity. Qed.
Lemma bis_loop_map {A B} (f : A -> B) lt lt' xs q :
  (forall x, In x xs -> lt' (f q) (f x) = lt q x) -> forall fuel l r, bis_loop lt' fuel (map f xs) (f q) l r = bis_loop lt fuel xs q l r.
Proof.
  intros H. induction fuel as [|fuel IH]; intros l r; cbn [bis_loop]; [reflexivity|].
  destruct (Nat.ltb 1 (r - l)); [|reflexivity]. rewrite at_map.
  unfold at_. destruct (nth_error xs ((l + r) / 2)) as [c|] eqn:E; cbn; [|reflexivity].
  rewrite (H c (nth_error_In _ _ E)). destruct (lt q c); apply IH.
Qed.
Lemma bisearch_map {A B} (f : A -> B) lt lt' xs q :
  (forall x, In x xs -> lt' (f q) (f x) = lt q x) -> bisearch lt' (map f xs) (f q) = bisearch lt xs q.
Proof.
  intros H. unfold bisearch. destruct xs as [|x0 t]; [reflexivity|]. cbn [map].
  rewrite (H x0 (or_introl eq_refl)). destruct (lt q x0); [reflexivity|]. change (f x0 :: map f t) with (map f (x0 :: t)).
  rewrite map_length. rewrite (bis_loop_map f lt lt' (x0 :: t) q H). reflexivity.
Qed.
Definition Rltb (a b : R) : bool := Rlt_bool a b.
Lemma R_weak_order : weak_order Rltb.
Proof.
  constructor; unfold Rltb; intros a.
  - apply Rlt_bool_false. lra.
  - intros b c. destruct (Rlt_bool_spec a b), (Rlt_bool_spec b c); try discriminate. intros _ _. apply Rlt_bool_true. lra.
  - intros b c. destruct (Rlt_bool_spec a b), (Rlt_bool_spec b c); try discriminate. intros _ _. apply Rlt_bool_false. lra.
Qed.
Lemma fbisearch_val xs q : fin q = true -> (forall x, In x xs -> fin x = true) -> bisearch Bltb xs q = bisearch Rltb (map val xs) (val q).
Proof.
  intros Fq Fx. symmetry. apply bisearch_map. intros x Hx. unfold Rltb. rewrite (Bltb_correct 53 1024 q x Fq (Fx x Hx)). reflexivity.
Qed.

(** ** The weights *)
Lemma rnd64_pos x : 0 <= x -> 0 <= rnd64 x.
Proof. intros H. rewrite <- rnd64_0. now apply rnd64_le. Qed.
Lemma rnd64_1 : rnd64 1 = 1.
Proof. apply round_generic; [apply valid_rnd_N|]. change 1 with (bpow radix2 0). apply generic_format_bpow. vm_compute. discriminate. Qed.
Lemma val_1 : val (of_Z64 1) = 1 /\ fin (of_Z64 1) = true.
Proof.
  pose proof (@binary_normalize_correct 53 1024 p53 pe53 mode_NE 1 0 false) as C.
  assert (E : F2R (Float radix2 1 0) = 1) by (unfold F2R; cbn; lra).
  rewrite E in C. cbn [round_mode] in C.
  rewrite rnd64_1 in C. rewrite Rlt_bool_true in C.
  - tauto.
  - rewrite Rabs_R1. change 1 with (bpow radix2 0). apply bpow_lt. lia.
Qed.

Lemma bpow64 e : (-1074 <= e)%Z -> rnd64 (bpow radix2 e) = bpow radix2 e.
Proof. intros H. apply round_generic; [apply valid_rnd_N|]. apply generic_format_bpow. unfold SpecFloat.fexp, SpecFloat.emin. lia. Qed.
Lemma lt_emax b e : (e < 1024)%Z -> Rabs b <= bpow radix2 e -> Rlt_bool (Rabs b) (bpow radix2 1024) = true.
Proof. intros He Hb. apply Rlt_bool_true. eapply Rle_lt_trans; [exact Hb|]. now apply bpow_lt. Qed.
Lemma format64 x : generic_format radix2 (SpecFloat.fexp 53 1024) (val x).
Proof. apply generic_format_B2R. Qed.
Lemma sub64_pos x y e : fin x = true -> fin y = true -> 0 <= val x - val y <= bpow radix2 e -> (-1074 <= e < 1024)%Z ->
  fin (sub64 x y) = true /\ val (sub64 x y) = rnd64 (val x - val y) /\ 0 <= val (sub64 x y) <= bpow radix2 e /\
  (0 < val x - val y -> 0 < val (sub64 x y)).
Proof.
  intros Fx Fy [H1 H2] He. pose proof (@Bminus_correct 53 1024 p53 pe53 mode_NE x y Fx Fy) as C. cbn [round_mode] in C.
  fold (val x) (val y) in C. assert (B : 0 <= rnd64 (val x - val y) <= bpow radix2 e).
  { split; [now apply rnd64_pos|]. rewrite <- (bpow64 e) by lia. now apply rnd64_le. }
  rewrite (lt_emax _ e) in C; [|lia|rewrite Rabs_right; lra]. destruct C as (V & F & _).
  change (val (sub64 x y) = rnd64 (val x - val y)) in V. split; [exact F|]. split; [exact V|]. rewrite V. split; [exact B|].
  intros P. destruct (proj1 B) as [L|E]; [exact L|]. exfalso. revert E. apply not_eq_sym.
  unfold Rminus, val. rewrite <- B2R_Bopp. assert (NF : Exp_not_FTZ (SpecFloat.fexp 53 1024)) by (apply monotone_exp_not_FTZ; [exact valid64|exact mono64]).
  apply round_plus_neq_0; [exact valid64|exact NF|apply valid_rnd_N|apply generic_format_B2R|apply generic_format_B2R|].
  rewrite B2R_Bopp. unfold val in P. lra.
Qed.
Lemma add64_pos x y : fin x = true -> fin y = true -> 0 <= val x <= bpow radix2 1022 -> 0 <= val y <= bpow radix2 1022 ->
  fin (add64 x y) = true /\ val (add64 x y) = rnd64 (val x + val y) /\ val x <= val (add64 x y) /\ val y <= val (add64 x y).
Proof.
  intros Fx Fy H1 H2. pose proof (@Bplus_correct 53 1024 p53 pe53 mode_NE x y Fx Fy) as C. cbn [round_mode] in C.
  fold (val x) (val y) in C. assert (B : val x + val y <= bpow radix2 1023).
  { replace (bpow radix2 1023) with (bpow radix2 1022 + bpow radix2 1022); [lra|]. change 1023%Z with (1 + 1022)%Z. rewrite bpow_plus. cbn [bpow]. change (IZR (Z.pow_pos radix2 1)) with 2. lra. }
  assert (B' : 0 <= rnd64 (val x + val y) <= bpow radix2 1023).
  { split; [apply rnd64_pos; lra|]. rewrite <- (bpow64 1023) by lia. now apply rnd64_le. }
  rewrite (lt_emax _ 1023) in C; [|lia|rewrite Rabs_right; lra]. destruct C as (V & F & _).
  change (val (add64 x y) = rnd64 (val x + val y)) in V. split; [exact F|]. split; [exact V|]. rewrite V.
  split; [rewrite <- (rnd64_val x) at 1|rewrite <- (rnd64_val y) at 1]; apply rnd64_le; lra.
Qed.
Lemma div64_unit x y : fin x = true -> fin y = true -> 0 < val y -> 0 <= val x <= val y ->
  fin (div64 x y) = true /\ val (div64 x y) = rnd64 (val x / val y) /\ 0 <= val (div64 x y) <= 1.
Proof.
  intros Fx Fy Hy Hx. pose proof (@Bdiv_correct 53 1024 p53 pe53 mode_NE x y) as C. fold (val y) in C. specialize (C ltac:(lra)).
  cbn [round_mode] in C. fold (val x) in C.
  assert (Q : 0 <= val x / val y <= 1).
  { split; [apply Rmult_le_pos; [lra|left; now apply Rinv_0_lt_compat]|]. apply Rmult_le_reg_r with (val y); [exact Hy|]. unfold Rdiv. rewrite Rmult_assoc, Rinv_l; lra. }
  assert (B : 0 <= rnd64 (val x / val y) <= 1).
  { split; [apply rnd64_pos; lra|]. rewrite <- rnd64_1. apply rnd64_le; lra. }
  rewrite (lt_emax _ 0) in C; [|lia|cbn; rewrite Rabs_right; lra]. destruct C as (V & F & _). change (is_finite (div64 x y) = is_finite x) in F.
  change (val (div64 x y) = rnd64 (val x / val y)) in V. split; [rewrite <- Fx; exact F|]. split; [exact V|]. rewrite V. exact B.
Qed.
Lemma rnd64_unit_error w : 0 <= w <= 1 -> Rabs (rnd64 w - w) <= bpow radix2 (-53).
Proof.
  intros H. eapply Rle_trans; [apply error_le_half_ulp; apply valid64|].
  assert (U : ulp radix2 (SpecFloat.fexp 53 1024) w <= bpow radix2 (-52)).
  { replace (bpow radix2 (-52)) with (ulp radix2 (SpecFloat.fexp 53 1024) 1).
    - apply ulp_le; [apply valid64|apply mono64|]. rewrite !Rabs_right; lra.
    - change 1 with (bpow radix2 0). rewrite ulp_bpow. reflexivity. }
  change (-53)%Z with (-52 + -1)%Z. rewrite bpow_plus. change (bpow radix2 (-1)) with (/ 2). lra.
Qed.
Lemma f_weights x xl xr wl wr : fin x = true -> fin xl = true -> fin xr = true -> val xl <= val x < val xr ->
  val xr - val xl <= bpow radix2 1022 -> f_linear_interp_weight x xl xr = (wl, wr) ->
  fin wl = true /\ fin wr = true /\ 0 <= val wl <= 1 /\ 0 <= val wr <= 1 /\ Rabs (val wl + val wr - 1) <= bpow radix2 (-51) /\
  (val x = val xl -> val wl = 1 /\ val wr = 0).
Proof.
  intros Fx Fl Fr [H1 H2] Hs E. unfold f_linear_interp_weight in E. injection E as <- <-.
  destruct (sub64_pos x xl 1022 Fx Fl) as (F1 & V1 & B1 & _); [lra|lia|].
  destruct (sub64_pos xr x 1022 Fr Fx) as (F2 & V2 & B2 & P2); [lra|lia|]. specialize (P2 ltac:(lra)).
  destruct (add64_pos _ _ F1 F2 B1 B2) as (F3 & V3 & L1 & L2).
  set (dl := sub64 x xl) in *. set (dr := sub64 xr x) in *. set (dx := add64 dl dr) in *.
  destruct (div64_unit dr dx F2 F3) as (F4 & V4 & B4); [lra|lra|].
  destruct (div64_unit dl dx F1 F3) as (F5 & V5 & B5); [lra|lra|].
  split; [exact F4|]. split; [exact F5|]. split; [exact B4|]. split; [exact B5|]. split.
  - destruct (@FLT_plus_error_N_ex radix2 (3 - 1024 - 53) 53 p53 (fun z => negb (Z.even z)) (val dl) (val dr) (format64 dl) (format64 dr)) as (eps & He & Ee).
    change (rnd64 (val dl + val dr) = (val dl + val dr) * (1 + eps)) in Ee. rewrite <- V3 in Ee.
    assert (U : u_ro radix2 53 = bpow radix2 (-53)).
    { unfold u_ro. change (- (53) + 1)%Z with (-52)%Z. change (-53)%Z with (-1 + -52)%Z. rewrite bpow_plus. reflexivity. }
    rewrite U in He. set (u := bpow radix2 (-53)) in *.
    assert (Pu : 0 < u) by apply bpow_gt_0.
    assert (Su : u <= / 16). { change (/16) with (bpow radix2 (-4)). apply bpow_le. lia. }
    assert (He' : Rabs eps <= u).
    { eapply Rle_trans; [exact He|]. apply Rmult_le_reg_r with (1 + u); [lra|]. unfold Rdiv. rewrite Rmult_assoc, Rinv_l by lra. nra. }
    assert (P3 : 0 < val dx) by lra.
    assert (Pe : 0 < 1 + eps). { apply Rabs_le_inv in He'. lra. }
    assert (Q : val dr / val dx + val dl / val dx = / (1 + eps)).
    { rewrite Ee. field. rewrite Ee in P3. split; [lra|]. intros Z. rewrite Z in P3. lra. }
    assert (Qb : Rabs (/ (1 + eps) - 1) <= 2 * u).
    { replace (/ (1 + eps) - 1) with (- eps * / (1 + eps)) by (field; lra). rewrite Rabs_mult, Rabs_Ropp.
      assert (I : Rabs (/ (1 + eps)) <= 2). { rewrite Rabs_right by (left; now apply Rinv_0_lt_compat). apply Rabs_le_inv in He'.
        apply Rmult_le_reg_r with (1 + eps); [lra|]. rewrite Rinv_l; lra. }
      pose proof (Rabs_pos eps). pose proof (Rabs_pos (/ (1 + eps))). nra. }
    assert (Qr : 0 <= val dr / val dx <= 1). { split; [apply Rmult_le_pos; [lra|left; now apply Rinv_0_lt_compat]|]. apply Rmult_le_reg_r with (val dx); [exact P3|]. unfold Rdiv. rewrite Rmult_assoc, Rinv_l; lra. }
    assert (Ql : 0 <= val dl / val dx <= 1). { split; [apply Rmult_le_pos; [lra|left; now apply Rinv_0_lt_compat]|]. apply Rmult_le_reg_r with (val dx); [exact P3|]. unfold Rdiv. rewrite Rmult_assoc, Rinv_l; lra. }
    pose proof (rnd64_unit_error _ Qr) as E1. pose proof (rnd64_unit_error _ Ql) as E2. rewrite <- V4 in E1. rewrite <- V5 in E2. fold u in E1, E2.
    replace (bpow radix2 (-51)) with (4 * u). 2:{ unfold u. change (-51)%Z with (2 + -53)%Z. rewrite bpow_plus. reflexivity. }
    apply Rabs_le. apply Rabs_le_inv in E1. apply Rabs_le_inv in E2. apply Rabs_le_inv in Qb. lra.
  - intros N. assert (D0 : val dl = 0) by (rewrite V1, N, Rminus_diag_eq, rnd64_0; reflexivity).
    assert (Dx : val dx = val dr). { rewrite V3, D0, Rplus_0_l. apply rnd64_val. }
    rewrite V4, V5, D0, Dx. unfold Rdiv. rewrite Rinv_r, rnd64_1, Rmult_0_l, rnd64_0 by lra. split; reflexivity.
Qed.

(** ** Interpolation *)
Lemma nth_map_inv {A B} (f : A -> B) xs i b : nth_error (map f xs) i = Some b -> exists a, nth_error xs i = Some a /\ b = f a.
Proof. rewrite nth_error_map. destruct (nth_error xs i); [|discriminate]. intros [= <-]. eauto. Qed.
Lemma asc_val xs : (forall x, In x xs -> fin x = true) -> ascending Bltb xs -> ascending Rltb (map val xs).
Proof.
  intros Fx H i j a b L Ha Hb. destruct (nth_map_inv _ _ _ _ Ha) as (x & Hx & ->). destruct (nth_map_inv _ _ _ _ Hb) as (y & Hy & ->).
  pose proof (H i j x y L Hx Hy) as E. rewrite Bltb_correct in E; [exact E|apply Fx; eapply nth_error_In; eassumption..].
Qed.
Definition span_ok (xs : list b64) := forall x y, In x xs -> In y xs -> val y - val x <= bpow radix2 1022.
Lemma f_interp_weight_spec xs q : (forall x, In x xs -> fin x = true) -> fin q = true -> ascending Bltb xs -> xs <> [] -> span_ok xs ->
  exists l r wl wr, f_bisearch_interp_weight xs q = Ok (l, r, (wl, wr)) /\ (l < length xs)%nat /\ (r < length xs)%nat /\
    fin wl = true /\ fin wr = true /\ 0 <= val wl <= 1 /\ 0 <= val wr <= 1 /\ Rabs (val wl + val wr - 1) <= bpow radix2 (-51) /\
    ((exists x0, nth_error xs 0 = Some x0 /\ val q < val x0 /\ l = 0%nat /\ r = 0%nat /\ val wl = 0 /\ val wr = 1) \/
     (exists xn, nth_error xs (length xs - 1) = Some xn /\ val xn <= val q /\ l = (length xs - 1)%nat /\ r = (length xs - 1)%nat /\ val wl = 1 /\ val wr = 0) \/
     (exists xl xr, nth_error xs l = Some xl /\ nth_error xs r = Some xr /\ r = S l /\ val xl <= val q < val xr /\
        (val q = val xl -> val wl = 1 /\ val wr = 0))).
Proof.
  intros Fx Fq Ha Hn Hs. unfold f_bisearch_interp_weight. rewrite fbisearch_val by assumption.
  assert (Hn' : map val xs <> []) by (destruct xs; [congruence|discriminate]).
  destruct (bisearch_spec Rltb (map val xs) (val q) R_weak_order (asc_val xs Fx Ha) Hn') as (i & -> & Hi & Hlo & Hhi).
  cbn [bind]. rewrite map_length in Hi.
  assert (Lo : forall j x, nth_error xs j = Some x -> (Z.of_nat j <= i)%Z -> val x <= val q).
  { intros j x E L. assert (E' : nth_error (map val xs) j = Some (val x)) by (rewrite nth_error_map, E; reflexivity).
    pose proof (Hlo j (val x) E' L) as F. unfold Rltb in F. destruct (Rlt_bool_spec (val q) (val x)); [discriminate|assumption]. }
  assert (Hi' : forall j x, nth_error xs j = Some x -> (i < Z.of_nat j)%Z -> val q < val x).
  { intros j x E L. assert (E' : nth_error (map val xs) j = Some (val x)) by (rewrite nth_error_map, E; reflexivity).
    pose proof (Hhi j (val x) E' L) as F. unfold Rltb in F. destruct (Rlt_bool_spec (val q) (val x)); [assumption|discriminate]. }
  destruct val_1 as [V1 F1]. assert (V0 : val (of_Z64 0) = 0 /\ fin (of_Z64 0) = true) by (split; reflexivity). destruct V0 as [V0 F0].
  assert (S1 : Rabs (0 + 1 - 1) <= bpow radix2 (-51)) by (replace (0 + 1 - 1) with 0 by ring; rewrite Rabs_R0; apply bpow_ge_0).
  assert (S2 : Rabs (1 + 0 - 1) <= bpow radix2 (-51)) by (replace (1 + 0 - 1) with 0 by ring; rewrite Rabs_R0; apply bpow_ge_0).
  assert (L0 : (0 < length xs)%nat) by (destruct xs; [congruence|cbn; lia]).
  destruct (i <? 0)%Z eqn:E1.
  - apply Z.ltb_lt in E1. destruct (nth_error xs 0) as [x0|] eqn:E0; [|apply nth_error_None in E0; lia].
    exists 0%nat, 0%nat, (of_Z64 0), (of_Z64 1). rewrite V0, V1. repeat split; try assumption; try lra.
    left. exists x0. repeat split; try reflexivity. apply (Hi' 0%nat x0 E0). lia.
  - apply Z.ltb_ge in E1. destruct (Z.of_nat (length xs) - 1 <? i + 1)%Z eqn:E2.
    + apply Z.ltb_lt in E2. destruct (nth_error xs (length xs - 1)) as [xn|] eqn:E0; [|apply nth_error_None in E0; lia].
      exists (length xs - 1)%nat, (length xs - 1)%nat, (of_Z64 1), (of_Z64 0). rewrite V0, V1. repeat split; try assumption; try lra; try lia.
      right. left. exists xn. repeat split; try reflexivity. apply (Lo (length xs - 1)%nat xn E0). lia.
    + apply Z.ltb_ge in E2. unfold at_.
      destruct (nth_error xs (Z.to_nat i)) as [xl|] eqn:El; [|apply nth_error_None in El; lia].
      destruct (nth_error xs (Z.to_nat (i + 1))) as [xr|] eqn:Er; [|apply nth_error_None in Er; lia].
      cbn [bind]. destruct (f_linear_interp_weight q xl xr) as [wl wr] eqn:W.
      pose proof (nth_error_In _ _ El) as Il. pose proof (nth_error_In _ _ Er) as Ir.
      assert (K1 : val xl <= val q) by (apply (Lo _ _ El); lia). assert (K2 : val q < val xr) by (apply (Hi' _ _ Er); lia).
      destruct (f_weights q xl xr wl wr Fq (Fx _ Il) (Fx _ Ir) (conj K1 K2) (Hs _ _ Il Ir) W) as (A & B & C & D & E & G).
      exists (Z.to_nat i), (Z.to_nat (i + 1)), wl, wr. split; [reflexivity|]. split; [lia|]. split; [lia|]. split; [exact A|]. split; [exact B|]. split; [exact C|]. split; [exact D|]. split; [exact E|].
      right. right. exists xl, xr. split; [exact El|]. split; [exact Er|]. split; [lia|]. split; [split; assumption|exact G].
Qed.
Lemma mul64_1 y w : fin y = true -> fin w = true -> val w = 1 -> fin (mul64 y w) = true /\ val (mul64 y w) = val y.
Proof.
  intros Fy Fw H. pose proof (@Bmult_correct 53 1024 p53 pe53 mode_NE y w) as C. cbn [round_mode] in C. fold (val y) (val w) in C.
  rewrite H, Rmult_1_r, rnd64_val in C. rewrite Rlt_bool_true in C by apply abs_B2R_lt_emax. destruct C as (V & F & _).
  change (val (mul64 y w) = val y) in V. change (fin (mul64 y w) = is_finite y && is_finite w) in F. unfold fin in *. rewrite Fy, Fw in F. split; assumption.
Qed.
Lemma mul64_0 y w : fin y = true -> fin w = true -> val w = 0 -> fin (mul64 y w) = true /\ val (mul64 y w) = 0.
Proof.
  intros Fy Fw H. pose proof (@Bmult_correct 53 1024 p53 pe53 mode_NE y w) as C. cbn [round_mode] in C. fold (val y) (val w) in C.
  rewrite H, Rmult_0_r, rnd64_0 in C. rewrite (lt_emax 0 0) in C; [|lia|rewrite Rabs_R0; cbn; lra]. destruct C as (V & F & _).
  change (val (mul64 y w) = 0) in V. change (fin (mul64 y w) = is_finite y && is_finite w) in F. unfold fin in *. rewrite Fy, Fw in F. split; assumption.
Qed.
Lemma add64_0 x z : fin x = true -> fin z = true -> val z = 0 -> fin (add64 x z) = true /\ val (add64 x z) = val x.
Proof.
  intros Fx Fz H. pose proof (@Bplus_correct 53 1024 p53 pe53 mode_NE x z Fx Fz) as C. cbn [round_mode] in C. fold (val x) (val z) in C.
  rewrite H, Rplus_0_r, rnd64_val in C. rewrite Rlt_bool_true in C by apply abs_B2R_lt_emax. destruct C as (V & F & _). split; assumption.
Qed.
Lemma val_inc xs i j a b : (forall x, In x xs -> fin x = true) -> increasing Bltb xs -> (i < j)%nat -> nth_error xs i = Some a -> nth_error xs j = Some b -> val a < val b.
Proof.
  intros Fx H L Ha Hb. pose proof (H i j a b L Ha Hb) as E. rewrite Bltb_correct in E; [|apply Fx; eapply nth_error_In; eassumption..].
  destruct (Rlt_bool_spec (B2R a) (B2R b)); [assumption|discriminate].
Qed.
Lemma f_interp_node xs ys i x y : (forall x, In x xs -> fin x = true) -> (forall y, In y ys -> fin y = true) -> increasing Bltb xs -> span_ok xs ->
  length ys = length xs -> nth_error xs i = Some x -> nth_error ys i = Some y -> exists v, f_bisearch_interp xs ys x = Ok v /\ fin v = true /\ val v = val y.
Proof.
  intros Fx Fy Hi Hs Hl Ex Ey. assert (Fq : fin x = true) by (apply Fx; eapply nth_error_In; eassumption).
  assert (Ha : ascending Bltb xs).
  { intros a b u v L Eu Ev. pose proof (val_inc xs a b u v Fx Hi L Eu Ev). rewrite Bltb_correct; [|apply Fx; eapply nth_error_In; eassumption..]. apply Rlt_bool_false. unfold val in *. lra. }
  assert (Ne : xs <> []) by (intros ->; destruct i; discriminate).
  destruct (f_interp_weight_spec xs x Fx Fq Ha Ne Hs) as (l & r & wl & wr & E & Ll & Lr & Fwl & Fwr & _ & _ & _ & Cs).
  unfold f_bisearch_interp. rewrite E. cbn [bind]. unfold at_.
  destruct (nth_error ys l) as [yl|] eqn:Eyl; [|apply nth_error_None in Eyl; lia].
  destruct (nth_error ys r) as [yr|] eqn:Eyr; [|apply nth_error_None in Eyr; lia]. cbn [bind].
  pose proof (Fy _ (nth_error_In _ _ Eyl)) as Fyl. pose proof (Fy _ (nth_error_In _ _ Eyr)) as Fyr.
  assert (Main : l = i -> val wl = 1 -> val wr = 0 -> exists v, Ok (add64 (mul64 yl wl) (mul64 yr wr)) = Ok v /\ fin v = true /\ val v = val y).
  { intros -> W1 W0. rewrite Ey in Eyl. injection Eyl as <-. eexists. split; [reflexivity|].
    destruct (mul64_1 y wl Fyl Fwl W1) as [G1 G2]. destruct (mul64_0 yr wr Fyr Fwr W0) as [G3 G4].
    destruct (add64_0 _ _ G1 G3 G4) as [G5 G6]. split; [exact G5|]. rewrite G6. exact G2. }
  assert (Li : (i < length xs)%nat) by (apply nth_error_Some; congruence).
  destruct Cs as [(x0 & E0 & C1 & _)|[(xn & En & C1 & C2 & C3 & C4 & C5)|(xl & xr & El & Er & C1 & C2 & C3)]].
  - destruct i as [|i]; [rewrite E0 in Ex; injection Ex as <-; lra|]. pose proof (val_inc xs 0 (S i) x0 x Fx Hi ltac:(lia) E0 Ex). lra.
  - apply Main; try assumption. destruct (Nat.eq_dec i (length xs - 1)) as [->|D]; [assumption|].
    pose proof (val_inc xs i (length xs - 1) x xn Fx Hi ltac:(lia) Ex En). lra.
  - assert (l = i) as ->.
    { destruct (Nat.lt_trichotomy l i) as [L|[L|L]]; [|exact L|].
      - destruct (Nat.eq_dec r i) as [->|D]; [rewrite Ex in Er; injection Er as <-; lra|]. pose proof (val_inc xs r i xr x Fx Hi ltac:(lia) Er Ex). lra.
      - pose proof (val_inc xs i l x xl Fx Hi L Ex El). lra. }
    rewrite Ex in El. injection El as <-. destruct (C3 eq_refl). now apply Main.
Qed.
