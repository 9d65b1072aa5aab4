(** Proofs for C83. *)
From Coq Require Import ZArith Reals Lra Permutation.
Require Import Flocq.Core.Core Flocq.IEEE754.BinarySingleNaN Flocq.Prop.Sterbenz Flocq.Prop.Relative.
From Verif Require Import Base MeshSpec MeshModel MeshProofs ProcFloat InterpFloatProofs MeshFloatModel MeshFloatSpec.
Local Open Scope list_scope. Local Open Scope R_scope.

Notation B e := (bpow radix2 e).
Lemma fexp_FLT : SpecFloat.fexp 53 1024 = FLT_exp (-1074) 53. Proof. reflexivity. Qed.
Lemma format_FLT x : generic_format radix2 (FLT_exp (-1074) 53) x -> rnd64 x = x.
Proof. intros H. apply round_generic; [apply valid_rnd_N|exact H]. Qed.
(** Rounding error. *)
Lemma err64 x : exists d e, Rabs d <= B (-53) /\ Rabs e <= B (-1075) /\ (B (-1022) <= Rabs x -> e = 0) /\ rnd64 x = x * (1 + d) + e.
Proof.
  rewrite fexp_FLT. destruct (Rle_or_lt (B (-1022)) (Rabs x)) as [H|H].
  - destruct (relative_error_N_FLT_ex radix2 (-1074) 53 p53 (fun z => negb (Z.even z)) x H) as (d & Hd & E).
    exists d, 0. split; [|split; [rewrite Rabs_R0; apply bpow_ge_0|split; [reflexivity|rewrite Rplus_0_r; exact E]]].
    eapply Rle_trans; [exact Hd|]. change (/ 2) with (B (-1)). rewrite <- bpow_plus. apply bpow_le. reflexivity || lia.
  - exists 0, (rnd64 x - x). split; [rewrite Rabs_R0; apply bpow_ge_0|]. split; [|split; [intros ?; lra|rewrite fexp_FLT; lra]].
    eapply Rle_trans; [apply error_le_half_ulp; apply valid64|]. change (B (-1075)) with (B (-1 + -1074)). rewrite bpow_plus.
    change (B (-1)) with (/ 2). apply Rmult_le_compat_l; [lra|].
    assert (U : ulp radix2 (SpecFloat.fexp 53 1024) x = B (-1074)).
    { rewrite fexp_FLT. apply ulp_FLT_small; [exact p53|]. eapply Rlt_le_trans; [exact H|]. apply bpow_le. lia. }
    rewrite U. lra.
Qed.
Lemma rnd64_bound x e : (-1074 <= e)%Z -> Rabs x <= B e -> Rabs (rnd64 x) <= B e.
Proof.
  intros He H. apply Rabs_le_inv in H. apply Rabs_le. split.
  - rewrite <- (bpow64 e) by exact He. rewrite <- round_NE_opp. apply rnd64_le. lra.
  - rewrite <- (bpow64 e) by exact He. apply rnd64_le. lra.
Qed.
Lemma add64_b x y : fin x = true -> fin y = true -> Rabs (val x + val y) <= B 1023 -> fin (add64 x y) = true /\ val (add64 x y) = rnd64 (val x + val y).
Proof.
  intros Fx Fy H. pose proof (@Bplus_correct 53 1024 p53 pe53 mode_NE x y Fx Fy) as C. cbn [round_mode] in C. fold (val x) (val y) in C.
  rewrite (lt_emax _ 1023) in C; [|lia|apply rnd64_bound; [lia|exact H]]. destruct C as (V & F & _). split; [exact F|exact V].
Qed.
Lemma sub64_b x y : fin x = true -> fin y = true -> Rabs (val x - val y) <= B 1023 -> fin (sub64 x y) = true /\ val (sub64 x y) = rnd64 (val x - val y).
Proof.
  intros Fx Fy H. pose proof (@Bminus_correct 53 1024 p53 pe53 mode_NE x y Fx Fy) as C. cbn [round_mode] in C. fold (val x) (val y) in C.
  rewrite (lt_emax _ 1023) in C; [|lia|apply rnd64_bound; [lia|exact H]]. destruct C as (V & F & _). split; [exact F|exact V].
Qed.
Lemma mul64_b x y : fin x = true -> fin y = true -> Rabs (val x * val y) <= B 1023 -> fin (mul64 x y) = true /\ val (mul64 x y) = rnd64 (val x * val y).
Proof.
  intros Fx Fy H. pose proof (@Bmult_correct 53 1024 p53 pe53 mode_NE x y) as C. cbn [round_mode] in C. fold (val x) (val y) in C.
  rewrite (lt_emax _ 1023) in C; [|lia|apply rnd64_bound; [lia|exact H]]. destruct C as (V & F & _). split; [|exact V].
  unfold fin, mul64. rewrite F. unfold fin in Fx, Fy. rewrite Fx, Fy. reflexivity.
Qed.
Lemma div64_b x y : fin x = true -> val y <> 0 -> Rabs (val x / val y) <= B 1023 -> fin (div64 x y) = true /\ val (div64 x y) = rnd64 (val x / val y).
Proof.
  intros Fx Hy H. pose proof (@Bdiv_correct 53 1024 p53 pe53 mode_NE x y Hy) as C. cbn [round_mode] in C. fold (val x) (val y) in C.
  rewrite (lt_emax _ 1023) in C; [|lia|apply rnd64_bound; [lia|exact H]]. destruct C as (V & F & _). split; [|exact V].
  unfold fin, div64. rewrite F. exact Fx.
Qed.
Lemma format_int z e : (Z.abs z <= 2 ^ 53)%Z -> (-1074 <= e)%Z -> rnd64 (IZR z * B e) = IZR z * B e.
Proof.
  intros Hz He. apply format_FLT. destruct (Z.eq_dec (Z.abs z) (2 ^ 53)) as [E|E].
  - assert (Q : IZR z * B e = (if (z <? 0)%Z then -1 else 1) * B (53 + e)).
    { rewrite bpow_plus. change (B 53) with (IZR (2 ^ 53)). destruct (Z.ltb_spec z 0) as [G|G].
      - replace z with (- (2 ^ 53))%Z by lia. rewrite opp_IZR. ring.
      - replace z with (2 ^ 53)%Z by lia. ring. }
    rewrite Q. assert (GF : generic_format radix2 (FLT_exp (-1074) 53) (B (53 + e))) by (apply generic_format_bpow; unfold FLT_exp; lia).
    destruct (z <? 0)%Z; [|rewrite Rmult_1_l; exact GF]. replace (-1 * B (53 + e)) with (- B (53 + e)) by ring. apply generic_format_opp. exact GF.
  - apply generic_format_FLT. exists (Float radix2 z e); [reflexivity|cbn [Fnum]|cbn [Fexp]; exact He]. change (Zpower radix2 53) with (2 ^ 53)%Z. lia.
Qed.
Lemma of_Z64_exact z : (Z.abs z <= 2 ^ 53)%Z -> val (of_Z64 z) = IZR z /\ fin (of_Z64 z) = true.
Proof.
  intros H. pose proof (@binary_normalize_correct 53 1024 p53 pe53 mode_NE z 0 false) as C.
  assert (E : F2R (Float radix2 z 0) = IZR z * B 0) by (unfold F2R; cbn; ring).
  rewrite E in C. cbn [round_mode] in C. rewrite (format_int z 0 H ltac:(lia)) in C. rewrite (lt_emax _ 53) in C; [|lia|].
  - cbn [bpow] in C. rewrite Rmult_1_r in C. tauto.
  - cbn [bpow]. rewrite Rmult_1_r, <- abs_IZR. change (IZR (Z.pow_pos radix2 53)) with (IZR (2 ^ 53)). apply IZR_le. exact H.
Qed.
Lemma ffloor_val x : fin x = true -> ffloor x = Zfloor (val x).
Proof.
  destruct x as [s|s| |s m e h]; try discriminate; intros _.
  - cbn. symmetry. apply (Zfloor_IZR 0).
  - cbn [ffloor val B2R]. unfold val, B2R, F2R. cbn [Fnum Fexp]. set (z := cond_Zopp s (Z.pos m)). destruct (Z.leb_spec 0 e) as [H|H].
    + rewrite <- (IZR_Zpower radix2 e H), <- mult_IZR, Zfloor_IZR. reflexivity.
    + replace (B e) with (/ IZR (2 ^ - e)).
      * rewrite <- (Zfloor_div z (2 ^ - e)); [reflexivity|]. apply Z.pow_nonzero; lia.
      * rewrite <- (Z.opp_involutive e) at 2. rewrite bpow_opp. f_equal. rewrite <- (IZR_Zpower radix2 (- e)) by lia. reflexivity.
Qed.

(** ** the mesh *)
Lemma u_pos e : 0 < B e. Proof. apply bpow_gt_0. Qed.
Lemma grid_facts m : usable m -> fin (f_grid m) = true /\ 0 < val (f_grid m) /\ val (f_grid m) = rnd64 (val (fm_l m) / IZR (fm_n m)) /\
  B (-953) <= val (f_grid m) <= B 900 /\ Rabs (IZR (fm_n m) * val (f_grid m) - val (fm_l m)) <= B (-53) * val (fm_l m).
Proof.
  intros ((Hn & Hn') & FL & HL). destruct (of_Z64_exact (fm_n m) ltac:(lia)) as [Vn Fn]. assert (Pn : 1 <= IZR (fm_n m)) by (apply (IZR_le 1); lia).
  assert (Pn' : IZR (fm_n m) <= B 53) by (change (B 53) with (IZR (2 ^ 53)); apply IZR_le; lia).
  pose proof (u_pos (-900)) as P9. pose proof (u_pos 53) as P53.
  assert (Qb : B (-953) <= val (fm_l m) / IZR (fm_n m) <= B 900).
  { split.
    - apply Rmult_le_reg_r with (IZR (fm_n m)); [lra|]. unfold Rdiv. rewrite Rmult_assoc, Rinv_l, Rmult_1_r by lra.
      apply Rle_trans with (B (-953) * B 53); [apply Rmult_le_compat_l; [apply bpow_ge_0|exact Pn']|]. rewrite <- bpow_plus. exact (proj1 HL).
    - apply Rmult_le_reg_r with (IZR (fm_n m)); [lra|]. unfold Rdiv. rewrite Rmult_assoc, Rinv_l, Rmult_1_r by lra. pose proof (u_pos 900). nra. }
  pose proof (u_pos (-953)) as P953.
  destruct (div64_b (fm_l m) (of_Z64 (fm_n m)) FL) as [F V].
  { rewrite Vn. lra. }
  { rewrite Vn, Rabs_right by lra. apply Rle_trans with (B 900); [lra|]. apply bpow_le. lia. }
  rewrite Vn in V. fold (f_grid m) in F, V. destruct (err64 (val (fm_l m) / IZR (fm_n m))) as (d & e & Hd & He & He0 & E).
  rewrite He0, Rplus_0_r in E; [|rewrite Rabs_right by lra; apply Rle_trans with (B (-953)); [apply bpow_le; lia|lra]].
  assert (Vb : B (-953) <= val (f_grid m) <= B 900).
  { rewrite V. split; [rewrite <- (bpow64 (-953)) by lia|rewrite <- (bpow64 900) by lia]; apply rnd64_le; lra. }
  split; [exact F|]. split; [lra|]. split; [exact V|]. split; [exact Vb|].
  rewrite V, E. replace (IZR (fm_n m) * (val (fm_l m) / IZR (fm_n m) * (1 + d)) - val (fm_l m)) with (val (fm_l m) * d) by (field; lra).
  rewrite Rabs_mult, (Rabs_right (val (fm_l m))) by lra. rewrite Rmult_comm. apply Rmult_le_compat_r; lra.
Qed.
Lemma quot_b m v : usable m -> fin v = true -> Rabs (val v) <= B 61 * val (f_grid m) -> fin (div64 v (f_grid m)) = true /\ val (div64 v (f_grid m)) = rnd64 (val v / val (f_grid m)).
Proof.
  intros U Fv Hv. destruct (grid_facts m U) as (F & P & _). apply div64_b; [exact Fv|lra|].
  unfold Rdiv. rewrite Rabs_mult, Rabs_inv, (Rabs_right (val (f_grid m))) by lra. apply Rle_trans with (B 61); [|apply bpow_le; lia].
  apply Rmult_le_reg_r with (val (f_grid m)); [exact P|]. rewrite Rmult_assoc, Rinv_l, Rmult_1_r by lra. exact Hv.
Qed.
Lemma x2xi_eq m v : usable m -> fin v = true -> Rabs (val v) <= B 61 * val (f_grid m) -> f_x2xi m v = Zfloor (rnd64 (val v / val (f_grid m))).
Proof. intros U Fv Hv. destruct (quot_b m v U Fv Hv) as [F V]. unfold f_x2xi. rewrite (ffloor_val _ F), V. reflexivity. Qed.
(** The two ends of the searched interval. *)
Lemma ends m x r : usable m -> fin x = true -> fin r = true -> 0 <= val r -> Rabs (val x) + val r <= B 60 * val (f_grid m) ->
  f_x2xi m (sub64 x r) = Zfloor (rnd64 (rnd64 (val x - val r) / val (f_grid m))) /\
  f_x2xi m (add64 x r) = Zfloor (rnd64 (rnd64 (val x + val r) / val (f_grid m))).
Proof.
  intros U Fx Fr Hr H. destruct (grid_facts m U) as (F & P & _ & (G1 & G2) & _).
  assert (A1 : Rabs (val x - val r) <= Rabs (val x) + val r) by (unfold Rabs; destruct (Rcase_abs (val x - val r)), (Rcase_abs (val x)); lra).
  assert (A2 : Rabs (val x + val r) <= Rabs (val x) + val r) by (unfold Rabs; destruct (Rcase_abs (val x + val r)), (Rcase_abs (val x)); lra).
  assert (G : B 60 * val (f_grid m) <= B 1023).
  { apply Rle_trans with (B 60 * B 900); [apply Rmult_le_compat_l; [apply bpow_ge_0|exact G2]|]. rewrite <- bpow_plus. apply bpow_le. lia. }
  assert (K : forall z, Rabs z <= B 60 * val (f_grid m) -> Rabs (rnd64 z) <= B 61 * val (f_grid m)).
  { intros z Hz. destruct (err64 z) as (d & e & Hd & He & _ & E). rewrite E. eapply Rle_trans; [apply Rabs_triang|]. rewrite Rabs_mult.
    assert (D : Rabs (1 + d) <= 3 / 2).
    { eapply Rle_trans; [apply Rabs_triang|]. rewrite Rabs_R1. assert (B (-53) <= B (-1)) by (apply bpow_le; lia). change (B (-1)) with (/ 2) in *. lra. }
    assert (E' : Rabs e <= B 59 * val (f_grid m)).
    { eapply Rle_trans; [exact He|]. apply Rle_trans with (B 59 * B (-953)); [rewrite <- bpow_plus; apply bpow_le; lia|apply Rmult_le_compat_l; [apply bpow_ge_0|exact G1]]. }
    assert (T : B 61 = 4 * B 59) by (change 61%Z with (2 + 59)%Z; rewrite bpow_plus; reflexivity).
    assert (T' : B 60 = 2 * B 59) by (change 60%Z with (1 + 59)%Z; rewrite bpow_plus; reflexivity).
    rewrite T' in Hz. rewrite T. pose proof (Rabs_pos z). pose proof (Rabs_pos (1 + d)). nra. }
  destruct (sub64_b x r Fx Fr) as [Fs Vs]; [lra|]. destruct (add64_b x r Fx Fr) as [Fa Va]; [lra|]. split.
  - rewrite (x2xi_eq m _ U Fs); rewrite Vs; [reflexivity|]. apply K. lra.
  - rewrite (x2xi_eq m _ U Fa); rewrite Va; [reflexivity|]. apply K. lra.
Qed.
Lemma div_le_compat a b l : 0 < l -> a <= b -> a / l <= b / l.
Proof. intros L H. apply Rmult_le_compat_r; [left; now apply Rinv_0_lt_compat|exact H]. Qed.
(** Without wrapping around: nothing is lost to rounding. *)
Lemma axis_plain m x y r : usable m -> reachable m y -> fin x = true -> fin r = true -> 0 <= val r -> Rabs (val x) + val r <= B 60 * val (f_grid m) ->
  Rabs (val y - val x) <= val r -> (f_x2xi m (sub64 x r) <= f_x2xi m y <= f_x2xi m (add64 x r))%Z.
Proof.
  intros U (Fy & Hy) Fx Fr Hr H D. destruct (grid_facts m U) as (F & P & _). destruct (ends m x r U Fx Fr Hr H) as [-> ->].
  rewrite (x2xi_eq m y U Fy) by (eapply Rle_trans; [exact Hy|]; apply Rmult_le_compat_r; [lra|]; apply bpow_le; lia).
  apply Rabs_le_inv in D. split; apply Zfloor_le, rnd64_le, div_le_compat; try exact P; rewrite <- (rnd64_val y); apply rnd64_le; lra.
Qed.
Lemma Zfloor_add_Z x k : (Zfloor x + k)%Z = Zfloor (x + IZR k).
Proof. symmetry. apply Zfloor_imp. rewrite !plus_IZR. pose proof (Zfloor_lb x). pose proof (Zfloor_ub x). lra. Qed.
(** Wrapping around: a margin of 2^-50 of the magnitudes involved is enough. *)
Lemma axis_wrap m x y r k : usable m -> reachable m y -> fin x = true -> fin r = true -> 0 <= val r -> Rabs (val x) + val r <= B 60 * val (f_grid m) ->
  (k <> 0)%Z -> Rabs (val y + IZR k * val (fm_l m) - val x) <= val r - B (-50) * (Rabs (val x) + Rabs (val y) + val r) ->
  (f_x2xi m (sub64 x r) <= f_x2xi m y + k * fm_n m <= f_x2xi m (add64 x r))%Z.
Proof.
  intros U (Fy & Hy) Fx Fr Hr H Hk D. destruct (grid_facts m U) as (F & P & _ & (G1 & G2) & GN). destruct (ends m x r U Fx Fr Hr H) as [-> ->].
  rewrite (x2xi_eq m y U Fy) by (eapply Rle_trans; [exact Hy|]; apply Rmult_le_compat_r; [lra|]; apply bpow_le; lia).
  set (l := val (f_grid m)) in *. set (M := Rabs (val x) + Rabs (val y) + val r) in *. set (L := val (fm_l m)) in *.
  set (u := B (-53)) in *. set (t := B (-1075)) in *.
  assert (L0 : 0 < L) by (destruct U as (_ & _ & HL & _); fold L in HL; pose proof (u_pos (-900)); lra).
  assert (N1 : 1 <= IZR (fm_n m)) by (apply (IZR_le 1); destruct U; lia).
  assert (Eu : B (-50) = 8 * u) by (unfold u; change (-50)%Z with (3 + -53)%Z; rewrite bpow_plus; reflexivity). rewrite Eu in D.
  assert (u0 : 0 < u) by apply u_pos. assert (u1 : u <= / 1024) by (change (/ 1024) with (B (-10)); apply bpow_le; lia).
  assert (t0 : 0 < t) by apply u_pos. assert (tu : t <= u * / 1024) by (change (/ 1024) with (B (-10)); unfold u; rewrite <- bpow_plus; apply bpow_le; lia).
  assert (K1 : 1 <= Rabs (IZR k)) by (rewrite <- abs_IZR; apply (IZR_le 1); lia).
  assert (KL : Rabs (IZR k) * L <= M).
  { replace (Rabs (IZR k) * L) with (Rabs (IZR k * L)) by (rewrite Rabs_mult, (Rabs_right L) by lra; reflexivity).
    replace (IZR k * L) with ((val y + IZR k * L - val x) + val x - val y) by ring. unfold M.
    eapply Rle_trans; [apply Rabs_triang|]. rewrite Rabs_Ropp. pose proof (Rabs_triang (val y + IZR k * L - val x) (val x)) as T.
    assert (Rabs (val y + IZR k * L - val x) <= val r) by (assert (0 <= u * M) by (unfold M; pose proof (Rabs_pos (val x)); pose proof (Rabs_pos (val y)); nra); lra). lra. }
  assert (lM : l <= 2 * M).
  { apply Rabs_le_inv in GN. assert (IZR (fm_n m) * l <= L + u * L) by lra. assert (l <= L + u * L) by (assert (0 < l) by exact P; nra). nra. }
  assert (kn : Rabs (IZR k * IZR (fm_n m) * l - IZR k * L) <= u * M).
  { replace (IZR k * IZR (fm_n m) * l - IZR k * L) with (IZR k * (IZR (fm_n m) * l - L)) by ring. rewrite Rabs_mult.
    apply Rle_trans with (Rabs (IZR k) * (u * L)); [apply Rmult_le_compat_l; [apply Rabs_pos|exact GN]|]. nra. }
  assert (My : Rabs (val y) <= M) by (unfold M; pose proof (Rabs_pos (val x)); lra).
  (* the error of one rounded quotient, in units of length *)
  assert (QE : forall z, Rabs z <= M -> Rabs (rnd64 (z / l) * l - z) <= u * M + t * l).
  { intros z Hz. destruct (err64 (z / l)) as (d & e & Hd & He & _ & E). rewrite E.
    replace ((z / l * (1 + d) + e) * l - z) with (z * d + e * l) by (field; lra).
    eapply Rle_trans; [apply Rabs_triang|]. rewrite !Rabs_mult, (Rabs_right l) by lra.
    apply Rplus_le_compat; [|apply Rmult_le_compat_r; [lra|exact He]]. rewrite (Rmult_comm u). apply Rmult_le_compat; try apply Rabs_pos; assumption. }
  assert (tl : t * l <= u * M * / 4) by nra.
  assert (M0 : 0 < M) by lra.
  assert (tM : t <= u * M * / 4).
  { apply Rle_trans with (u * l * / 8); [|nra]. apply Rle_trans with (u * B (-953) * / 8); [|nra]. change (/ 8) with (B (-3)). unfold u. rewrite <- !bpow_plus. apply bpow_le. lia. }
  assert (QE2 : forall z, Rabs z <= 2 * M -> Rabs (rnd64 (z / l) * l - z) <= 2 * u * M + t * l).
  { intros z Hz. destruct (err64 (z / l)) as (d & e & Hd & He & _ & E). rewrite E.
    replace ((z / l * (1 + d) + e) * l - z) with (z * d + e * l) by (field; lra).
    eapply Rle_trans; [apply Rabs_triang|]. rewrite !Rabs_mult, (Rabs_right l) by lra.
    apply Rplus_le_compat; [|apply Rmult_le_compat_r; [lra|exact He]]. replace (2 * u * M) with (2 * M * u) by ring. apply Rmult_le_compat; try apply Rabs_pos; assumption. }
  assert (AE : forall s, Rabs s <= M -> Rabs (rnd64 s - s) <= u * M * 5 / 4).
  { intros s Hs. destruct (err64 s) as (d & e & Hd & He & _ & E). rewrite E. replace (s * (1 + d) + e - s) with (s * d + e) by ring.
    eapply Rle_trans; [apply Rabs_triang|]. rewrite Rabs_mult. assert (Rabs s * Rabs d <= M * u) by (apply Rmult_le_compat; try apply Rabs_pos; assumption). fold t in He. lra. }
  assert (X1 : Rabs (val x - val r) <= M).
  { unfold M. pose proof (Rabs_pos (val y)). unfold Rabs at 1 2. destruct (Rcase_abs (val x - val r)), (Rcase_abs (val x)); lra. }
  assert (X2 : Rabs (val x + val r) <= M).
  { unfold M. pose proof (Rabs_pos (val y)). unfold Rabs at 1 2. destruct (Rcase_abs (val x + val r)), (Rcase_abs (val x)); lra. }
  assert (R2 : forall s, Rabs s <= M -> Rabs (rnd64 s) <= 2 * M).
  { intros s Hs. replace (rnd64 s) with ((rnd64 s - s) + s) by ring. eapply Rle_trans; [apply Rabs_triang|]. pose proof (AE s Hs). nra. }
  pose proof (QE2 _ (R2 _ X1)) as Q1. pose proof (QE2 _ (R2 _ X2)) as Q2. pose proof (AE _ X1) as A1. pose proof (AE _ X2) as A2.
  pose proof (QE _ My) as Qy. apply Rabs_le_inv in D, kn, Q1, Q2, A1, A2, Qy. rewrite Zfloor_add_Z, mult_IZR.
  split; apply Zfloor_le; apply Rmult_le_reg_r with l; try exact P; rewrite Rmult_plus_distr_r; lra.
Qed.
Lemma axis_any m x y r k : usable m -> reachable m y -> fin x = true -> fin r = true -> 0 <= val r -> Rabs (val x) + val r <= B 60 * val (f_grid m) ->
  apart_at_most m (val r - margin x y r k) x y k ->
  exists i, (f_x2xi m (sub64 x r) <= i < f_x2xi m (add64 x r) + 1)%Z /\ (i mod fm_n m = f_x2xi m y mod fm_n m)%Z.
Proof.
  intros U Hy Fx Fr Hr H D. unfold apart_at_most, margin in D. destruct (Z.eqb_spec k 0) as [->|Hk].
  - exists (f_x2xi m y). split; [|reflexivity]. rewrite Rmult_0_l, Rplus_0_r, Rminus_0_r in D. pose proof (axis_plain m x y r U Hy Fx Fr Hr H D). lia.
  - exists (f_x2xi m y + k * fm_n m)%Z. split; [pose proof (axis_wrap m x y r k U Hy Fx Fr Hr H Hk D); lia|]. apply Z_mod_plus_full.
Qed.

(** ** the index *)
Local Open Scope nat_scope.
Lemma f_x2xi_f_range m x : (0 < fm_n m)%Z -> (0 <= f_x2xi_f m x < fm_n m * fm_n m * fm_n m)%Z.
Proof. intros H. destruct x as [[x0 x1] x2]. apply flat_range; apply Z.mod_pos_bound; exact H. Qed.
Lemma f_take_keys m xs args : Permutation args (seq 0 (length xs)) -> take 0%Z args (f_keys m xs) = map (f_x2xi_f m) (take fzero args xs).
Proof.
  intros H. unfold take, f_keys. rewrite map_map. apply map_ext_in. intros i Hi. rewrite (nth_indep _ 0%Z (f_x2xi_f m fzero)).
  - apply map_nth.
  - rewrite map_length. apply (Permutation_in _ H) in Hi. apply in_seq in Hi. lia.
Qed.
Lemma f_index_cell m xs args c : (0 < fm_n m)%Z -> sorts (f_keys m xs) args -> (0 <= c < fm_n m * fm_n m * fm_n m)%Z ->
  let p := f_from_meshing_points m xs args in
  slice (fp_xs p) (nth (Z.to_nat c) (fp_firsts p) 0) (nth (S (Z.to_nat c)) (fp_firsts p) 0) = filter (fun y => (f_x2xi_f m y =? c)%Z) (fp_xs p).
Proof.
  intros Hn Hs Hc p. pose proof Hs as [HP HA]. unfold f_keys in HP. rewrite map_length in HP.
  pose proof (sorts_nondec _ _ Hs) as N. rewrite (f_take_keys m xs args HP) in N.
  assert (P : forall k, In k (map (f_x2xi_f m) (take fzero args xs)) -> (0 <= k)%Z).
  { intros k Hk. apply in_map_iff in Hk. destruct Hk as (y & <- & _). apply f_x2xi_f_range. assumption. }
  destruct (firsts_splits (fm_n m) _ N P) as [_ SP]. unfold p, f_from_meshing_points; cbn [fp_xs fp_firsts]. rewrite (f_take_keys m xs args HP).
  apply slice_filter.
  - pose proof (SP (Z.to_nat c) ltac:(lia)) as S1. rewrite Z2Nat.id in S1 by lia. exact S1.
  - pose proof (SP (S (Z.to_nat c)) ltac:(lia)) as S1. replace (Z.of_nat (S (Z.to_nat c))) with (c + 1)%Z in S1 by lia. exact S1.
Qed.
Lemma f_query_cells_In m x0 x1 x2 r c : In c (f_query_cells m (x0, x1, x2) r) <->
  exists i0 i1 i2, (f_x2xi m (sub64 x0 r) <= i0 < f_x2xi m (add64 x0 r) + 1)%Z /\ (f_x2xi m (sub64 x1 r) <= i1 < f_x2xi m (add64 x1 r) + 1)%Z /\
    (f_x2xi m (sub64 x2 r) <= i2 < f_x2xi m (add64 x2 r) + 1)%Z /\ c = flat (fm_n m) (i0 mod fm_n m) (i1 mod fm_n m) (i2 mod fm_n m).
Proof.
  unfold f_query_cells. rewrite in_flat_map. split.
  - intros (i0 & H0 & H). apply in_flat_map in H. destruct H as (i1 & H1 & H). apply in_map_iff in H. destruct H as (i2 & E & H2).
    apply zrange_In in H0. apply zrange_In in H1. apply zrange_In in H2. exists i0, i1, i2. auto.
  - intros (i0 & i1 & i2 & H0 & H1 & H2 & E). exists i0. split; [apply zrange_In; assumption|]. apply in_flat_map. exists i1. split; [apply zrange_In; assumption|].
    apply in_map_iff. exists i2. split; [auto|apply zrange_In; assumption].
Qed.
Lemma f_query_In m xs args x r y : (0 < fm_n m)%Z -> sorts (f_keys m xs) args ->
  (In y (concat (f_query_points_1 (f_from_meshing_points m xs args) x r)) <-> In y xs /\ In (f_x2xi_f m y) (f_query_cells m x r)).
Proof.
  intros Hn Hs. pose proof Hs as [HP _]. unfold f_keys in HP. rewrite map_length in HP. pose proof (take_perm fzero xs args HP) as TP.
  assert (CR : forall c, In c (f_query_cells m x r) -> (0 <= c < fm_n m * fm_n m * fm_n m)%Z).
  { intros c Hc. destruct x as [[x0 x1] x2]. apply f_query_cells_In in Hc. destruct Hc as (i0 & i1 & i2 & _ & _ & _ & ->). apply flat_range; apply Z.mod_pos_bound; assumption. }
  unfold f_query_points_1. cbn [fp_mesh f_from_meshing_points]. rewrite <- flat_map_concat_map, in_flat_map. split.
  - intros (c & Hc & H). pose proof (f_index_cell m xs args c Hn Hs (CR c Hc)) as E. cbn zeta in E. cbn [fp_xs f_from_meshing_points] in E, H. rewrite E in H.
    apply filter_In in H. destruct H as [H E']. apply Z.eqb_eq in E'. subst c. split; [exact (Permutation_in _ TP H)|exact Hc].
  - intros (Hy & Hc). exists (f_x2xi_f m y). split; [exact Hc|]. pose proof (f_index_cell m xs args _ Hn Hs (CR _ Hc)) as E. cbn zeta in E.
    cbn [fp_xs f_from_meshing_points] in E |- *. rewrite E. apply filter_In. split; [|apply Z.eqb_refl]. exact (Permutation_in _ (Permutation_sym TP) Hy).
Qed.
Lemma f_query_spec m xs args x r y : usable m -> sorts (f_keys m xs) args ->
  all3 (fun v => fin v = true /\ Rabs (val v) + val r <= B 60 * val (f_grid m))%R x -> fin r = true -> (0 <= val r)%R ->
  In y xs -> all3 (reachable m) y -> each_axis (fun a b k => apart_at_most m (val r - margin a b r k) a b k) x y ->
  In y (concat (f_query_points_1 (f_from_meshing_points m xs args) x r)).
Proof.
  intros U Hs Hx Fr Hr Hy Ry D. apply f_query_In; [destruct U; lia|exact Hs|]. split; [exact Hy|].
  destruct x as [[x0 x1] x2], y as [[y0 y1] y2]. destruct Hx as ((F0 & H0) & (F1 & H1) & (F2 & H2)), Ry as (R0 & R1 & R2). destruct D as (k0 & k1 & k2 & D0 & D1 & D2).
  destruct (axis_any m x0 y0 r k0 U R0 F0 Fr Hr H0 D0) as (i0 & I0 & E0). destruct (axis_any m x1 y1 r k1 U R1 F1 Fr Hr H1 D1) as (i1 & I1 & E1).
  destruct (axis_any m x2 y2 r k2 U R2 F2 Fr Hr H2 D2) as (i2 & I2 & E2). apply f_query_cells_In. exists i0, i1, i2. repeat (split; [assumption|]).
  unfold f_x2xi_f. rewrite E0, E1, E2. reflexivity.
Qed.

(** ** the nearest grid point *)
Local Open Scope R_scope.
Lemma half64_val : val half64 = / 2 /\ fin half64 = true.
Proof.
  destruct (of_Z64_exact 1 ltac:(lia)) as [V1 F1]. destruct (of_Z64_exact 2 ltac:(lia)) as [V2 F2].
  destruct (div64_b (of_Z64 1) (of_Z64 2) F1) as [F V]; [rewrite V2; lra|rewrite V1, V2|].
  - replace (1 / 2) with (B (-1)) by (cbn; lra). rewrite Rabs_right by (apply Rle_ge, bpow_ge_0). apply bpow_le. lia.
  - split; [|exact F]. unfold half64. rewrite V, V1, V2. replace (1 / 2) with (B (-1)) by (cbn; lra). rewrite bpow64 by lia. cbn. lra.
Qed.
(** One rounded quotient. *)
Lemma quot_err m x : usable m -> fin x = true -> Rabs (val x) <= B 60 * val (f_grid m) ->
  let q := div64 x (f_grid m) in fin q = true /\ Rabs (val q) <= B 60 /\ Rabs (val q - val x / val (f_grid m)) <= B (-53) * Rabs (val x / val (f_grid m)) + B (-1075).
Proof.
  intros U Fx Hx q. destruct (grid_facts m U) as (F & P & _).
  destruct (quot_b m x U Fx) as [Fq Vq]; [eapply Rle_trans; [exact Hx|]; apply Rmult_le_compat_r; [lra|]; apply bpow_le; lia|]. fold q in Fq, Vq.
  assert (Q : Rabs (val x / val (f_grid m)) <= B 60).
  { unfold Rdiv. rewrite Rabs_mult, Rabs_inv, (Rabs_right (val (f_grid m))) by lra.
    apply Rmult_le_reg_r with (val (f_grid m)); [exact P|]. rewrite Rmult_assoc, Rinv_l, Rmult_1_r by lra. exact Hx. }
  split; [exact Fq|]. rewrite Vq. split; [apply rnd64_bound; [lia|exact Q]|].
  destruct (err64 (val x / val (f_grid m))) as (d & e & Hd & He & _ & E). rewrite E.
  match goal with |- Rabs (?a * (1 + d) + e - ?a) <= _ => replace (a * (1 + d) + e - a) with (a * d + e) by ring end.
  eapply Rle_trans; [apply Rabs_triang|]. apply Rplus_le_compat; [|exact He]. rewrite Rabs_mult, Rmult_comm. apply Rmult_le_compat_r; [apply Rabs_pos|exact Hd].
Qed.
Lemma small_facts : 0 < B (-53) <= / 1024 /\ 0 < B (-1075) <= B (-53) * / 1024 /\ B (-51) = 4 * B (-53) /\ B (-52) = 2 * B (-53) /\ B (-50) = 8 * B (-53) /\ B (-48) = 32 * B (-53).
Proof.
  split; [split; [apply u_pos|change (/ 1024) with (B (-10)); apply bpow_le; lia]|].
  split; [split; [apply u_pos|change (/ 1024) with (B (-10)); rewrite <- bpow_plus; apply bpow_le; lia]|].
  split; [change (-51)%Z with (2 + -53)%Z; rewrite bpow_plus; reflexivity|]. split; [change (-52)%Z with (1 + -53)%Z; rewrite bpow_plus; reflexivity|].
  split; [change (-50)%Z with (3 + -53)%Z; rewrite bpow_plus; reflexivity|change (-48)%Z with (5 + -53)%Z; rewrite bpow_plus; reflexivity].
Qed.
Lemma f_index m x : usable m -> reachable m x -> exists j, f_x_to_xi m x = (j mod fm_n m)%Z /\
  Rabs (val x - IZR j * val (f_grid m)) < / 2 * val (f_grid m) + B (-51) * (Rabs (val x) + val (f_grid m)).
Proof.
  intros U (Fx & Hx). destruct (grid_facts m U) as (F & P & _). destruct (quot_err m x U Fx Hx) as (Fq & Bq & Eq).
  destruct half64_val as [Vh Fh]. set (q := div64 x (f_grid m)) in *.
  assert (B1 : 1 <= B 60) by (change 1 with (B 0); apply bpow_le; lia).
  assert (S1 : Rabs (val q + val half64) <= B 61).
  { rewrite Vh. eapply Rle_trans; [apply Rabs_triang|]. rewrite (Rabs_right (/ 2)) by lra. change 61%Z with (1 + 60)%Z. rewrite bpow_plus. change (B 1) with 2. lra. }
  destruct (add64_b q half64 Fq Fh) as [Fs Vs]; [eapply Rle_trans; [exact S1|]; apply bpow_le; lia|].
  exists (ffloor (add64 q half64)). split; [reflexivity|]. rewrite (ffloor_val _ Fs), Vs, Vh.
  destruct (err64 (val q + / 2)) as (d & e & Hd & He & _ & E). pose proof (Zfloor_lb (rnd64 (val q + / 2))) as Lb. pose proof (Zfloor_ub (rnd64 (val q + / 2))) as Ub.
  set (j := IZR (Zfloor (rnd64 (val q + / 2)))) in *. rewrite E in Lb, Ub. set (l := val (f_grid m)) in *. set (w := val x / l) in *.
  destruct small_facts as ((u0 & u1) & (t0 & tu) & E51 & _). rewrite E51. set (u := B (-53)) in *. set (t := B (-1075)) in *.
  assert (DE : Rabs ((val q + / 2) * d + e) <= u * (Rabs (val q) + / 2) + t).
  { eapply Rle_trans; [apply Rabs_triang|]. apply Rplus_le_compat; [|exact He]. rewrite Rabs_mult, Rmult_comm. apply Rmult_le_compat; try apply Rabs_pos; [exact Hd|].
    eapply Rle_trans; [apply Rabs_triang|]. rewrite (Rabs_right (/ 2)) by lra. lra. }
  assert (QW : Rabs (val q) <= Rabs w + (u * Rabs w + t)).
  { replace (val q) with (w + (val q - w)) by ring. eapply Rle_trans; [apply Rabs_triang|]. lra. }
  assert (G : Rabs (w - j) < / 2 + 4 * u * (Rabs w + 1)).
  { apply Rabs_le_inv in DE, Eq. pose proof (Rabs_pos w). assert (u * u * Rabs w <= / 1024 * u * Rabs w) by (assert (0 <= u * Rabs w) by nra; nra).
    assert (u * Rabs (val q) <= u * (Rabs w + (u * Rabs w + t))) by (apply Rmult_le_compat_l; lra). assert (u * t <= / 1024 * t) by nra.
    apply Rabs_def1; nra. }
  replace (val x - j * l) with ((w - j) * l) by (unfold w; field; lra). rewrite Rabs_mult, (Rabs_right l) by lra.
  replace (Rabs (val x)) with (Rabs w * l); [pose proof (Rmult_lt_compat_r l _ _ P G); lra|]. unfold w, Rdiv. rewrite Rabs_mult, Rabs_inv, (Rabs_right l) by lra. field. lra.
Qed.
Lemma f_index_sharp m x i : usable m -> reachable m x ->
  Rabs (val x - IZR i * val (f_grid m)) <= / 2 * val (f_grid m) - B (-51) * (Rabs (val x) + val (f_grid m)) -> f_x_to_xi m x = (i mod fm_n m)%Z.
Proof.
  intros U Hx H. destruct (f_index m x U Hx) as (j & -> & D). destruct (grid_facts m U) as (_ & P & _). f_equal.
  assert (A : Rabs ((IZR i - IZR j) * val (f_grid m)) < 1 * val (f_grid m)).
  { replace ((IZR i - IZR j) * val (f_grid m)) with ((val x - IZR j * val (f_grid m)) - (val x - IZR i * val (f_grid m))) by ring.
    eapply Rle_lt_trans; [apply Rabs_triang|]. rewrite Rabs_Ropp. lra. }
  rewrite Rabs_mult, (Rabs_right (val (f_grid m))) in A by lra. apply Rmult_lt_reg_r in A; [|exact P]. rewrite <- minus_IZR, <- abs_IZR in A. apply (lt_IZR _ 1) in A. lia.
Qed.
Lemma f_index_grid m i : usable m -> (Z.abs i <= 2 ^ 48)%Z -> f_x_to_xi m (mul64 (of_Z64 i) (f_grid m)) = (i mod fm_n m)%Z.
Proof.
  intros U Hi. destruct (grid_facts m U) as (F & P & _ & (G1 & G2) & _). destruct (of_Z64_exact i ltac:(lia)) as [Vi Fi].
  assert (Bi : Rabs (IZR i) <= B 48) by (rewrite <- abs_IZR; change (B 48) with (IZR (2 ^ 48)); apply IZR_le; exact Hi).
  destruct (mul64_b (of_Z64 i) (f_grid m) Fi F) as [Fm Vm].
  { rewrite Vi, Rabs_mult, (Rabs_right (val (f_grid m))) by lra. apply Rle_trans with (B 48 * B 900); [apply Rmult_le_compat; try apply Rabs_pos; lra|]. rewrite <- bpow_plus. apply bpow_le. lia. }
  rewrite Vi in Vm. set (x := mul64 (of_Z64 i) (f_grid m)) in *. set (l := val (f_grid m)) in *.
  destruct (err64 (IZR i * l)) as (d & e & Hd & He & He0 & E).
  destruct small_facts as ((u0 & u1) & (t0 & tu) & E51 & _).
  assert (D : Rabs (val x - IZR i * l) <= B (-53) * (Rabs (IZR i) * l)).
  { rewrite Vm. destruct (Z.eq_dec i 0) as [->|N].
    - rewrite Rmult_0_l, rnd64_0, Rminus_0_r, Rabs_R0. lra.
    - assert (1 <= Rabs (IZR i)) by (rewrite <- abs_IZR; apply (IZR_le 1); lia). assert (B (-1022) <= B (-953)) by (apply bpow_le; lia).
      rewrite He0 in E; [|rewrite Rabs_mult, (Rabs_right l) by lra; nra]. rewrite E. replace (IZR i * l * (1 + d) + 0 - IZR i * l) with (IZR i * l * d) by ring.
      rewrite !Rabs_mult, (Rabs_right l) by lra. rewrite Rmult_comm. apply Rmult_le_compat_r; [pose proof (Rabs_pos (IZR i)); nra|exact Hd]. }
  assert (S5 : B (-53) * B 48 = / 32) by (rewrite <- bpow_plus; cbn; lra).
  assert (DA : B (-53) * (Rabs (IZR i) * l) <= / 32 * l) by (rewrite <- S5, Rmult_assoc; apply Rmult_le_compat_l; [lra|]; apply Rmult_le_compat_r; lra).
  assert (XA : Rabs (val x) <= (B 48 + 1) * l).
  { replace (val x) with ((val x - IZR i * l) + IZR i * l) by ring. eapply Rle_trans; [apply Rabs_triang|]. rewrite (Rabs_mult (IZR i)), (Rabs_right l) by lra. pose proof (Rabs_pos (IZR i)). nra. }
  apply f_index_sharp; [exact U| |].
  - split; [exact Fm|]. fold l. eapply Rle_trans; [exact XA|]. apply Rmult_le_compat_r; [lra|]. change 60%Z with (12 + 48)%Z. rewrite bpow_plus. change (B 12) with 4096. assert (1 <= B 48) by (change 1 with (B 0); apply bpow_le; lia). lra.
  - fold l. eapply Rle_trans; [exact D|]. rewrite E51. assert (B (-53) * (Rabs (val x) + l) <= / 32 * l + 2 * B (-53) * l) by (rewrite <- S5, Rmult_assoc, <- Rmult_assoc; nra). nra.
Qed.

(** ** cloud-in-cell weights *)
(** A multiple of 2^-53 in [0, 1]. *)
Definition dyadic (w : R) : Prop := exists k, (0 <= k <= 2 ^ 53)%Z /\ w = IZR k * B (-53).
Lemma B53 : IZR (2 ^ 53) * B (-53) = 1.
Proof. change (IZR (2 ^ 53)) with (B 53). rewrite <- bpow_plus. reflexivity. Qed.
Lemma dyadic_range w : dyadic w -> 0 <= w <= 1.
Proof. intros (k & (H1 & H2) & ->). apply IZR_le in H1, H2. pose proof (u_pos (-53)). pose proof B53. split; nra. Qed.
Lemma dyadic_exact w : dyadic w -> rnd64 w = w.
Proof. intros (k & H & ->). apply format_int; lia. Qed.
Lemma dyadic_compl w : dyadic w -> dyadic (1 - w).
Proof. intros (k & H & ->). exists (2 ^ 53 - k)%Z. split; [lia|]. rewrite minus_IZR, Rmult_minus_distr_r, B53. reflexivity. Qed.
Lemma dyadic_min w : dyadic w -> w <> 0 -> B (-53) <= w.
Proof. intros (k & H & ->) N. assert (k <> 0)%Z by (intros ->; apply N; ring). assert (1 <= IZR k) by (apply (IZR_le 1); lia). pose proof (u_pos (-53)). nra. Qed.
Lemma upper_half_dyadic w : generic_format radix2 (SpecFloat.fexp 53 1024) w -> / 2 <= w <= 1 -> dyadic w.
Proof.
  intros G H. destruct (Req_dec w 1) as [->|N]; [exists (2 ^ 53)%Z; split; [lia|symmetry; exact B53]|].
  unfold generic_format in G. assert (C : cexp radix2 (SpecFloat.fexp 53 1024) w = (-53)%Z).
  { unfold cexp. rewrite (mag_unique radix2 w 0); [reflexivity|]. change (B (0 - 1)) with (/ 2). change (B 0) with 1. rewrite Rabs_right; lra. }
  exists (Ztrunc (scaled_mantissa radix2 (SpecFloat.fexp 53 1024) w)). unfold F2R in G. cbn [Fnum Fexp] in G. rewrite C in G. split; [|exact G].
  pose proof (u_pos (-53)) as P. pose proof B53 as E. split; apply le_IZR; apply Rmult_le_reg_r with (B (-53)); try exact P; rewrite <- G; [lra|]. rewrite E. lra.
Qed.
Lemma weight_dyadic f : fin f = true -> 0 <= val f <= 1 -> let w := sub64 (of_Z64 1) f in fin w = true /\ dyadic (val w) /\ Rabs (val w - (1 - val f)) <= B (-53).
Proof.
  intros Ff Hf w. destruct (of_Z64_exact 1 ltac:(lia)) as [V1 F1]. destruct (sub64_b (of_Z64 1) f F1 Ff) as [Fw Vw].
  { rewrite V1, Rabs_right by lra. apply Rle_trans with 1; [lra|]. change 1 with (B 0). apply bpow_le. lia. }
  rewrite V1 in Vw. fold w in Fw, Vw. split; [exact Fw|]. split; [|rewrite Vw; apply rnd64_unit_error; lra].
  rewrite Vw. destruct (Rle_or_lt (/ 2) (val f)) as [H|H].
  - assert (D : dyadic (1 - val f)) by (apply dyadic_compl, upper_half_dyadic; [apply format64|lra]). rewrite (dyadic_exact _ D). exact D.
  - apply upper_half_dyadic; [apply generic_format_round; [exact valid64|apply valid_rnd_N]|].
    assert (H2 : rnd64 (/ 2) = / 2) by (change (/ 2) with (B (-1)); apply bpow64; lia). split; [rewrite <- H2; apply rnd64_le; lra|]. apply Rle_trans with (rnd64 1); [apply rnd64_le; lra|rewrite rnd64_1; lra].
Qed.
Lemma weights_spec m x : usable m -> fin x = true -> Rabs (val x) <= B 52 * val (f_grid m) ->
  exists j w_l w_r, f_weights_at m x = (j mod fm_n m, (j + 1) mod fm_n m, w_l, w_r)%Z /\ fin w_l = true /\ fin w_r = true /\ dyadic (val w_l) /\ dyadic (val w_r) /\
    val w_l + val w_r = 1 /\ Rabs ((IZR j + val w_r) * val (f_grid m) - val x) <= B (-51) * (Rabs (val x) + val (f_grid m)).
Proof.
  intros U Fx Hx. destruct (grid_facts m U) as (F & P & _).
  assert (Hx' : Rabs (val x) <= B 60 * val (f_grid m)) by (eapply Rle_trans; [exact Hx|]; apply Rmult_le_compat_r; [lra|]; apply bpow_le; lia).
  destruct (quot_err m x U Fx Hx') as (Fq & _ & Eq). destruct (quot_b m x U Fx) as [_ Vq]; [eapply Rle_trans; [exact Hx'|]; apply Rmult_le_compat_r; [lra|]; apply bpow_le; lia|].
  unfold f_weights_at. set (q := div64 x (f_grid m)) in *. cbn zeta. set (l := val (f_grid m)) in *. set (w := val x / l) in *.
  assert (Ew : Rabs (val x) = Rabs w * l) by (unfold w, Rdiv; rewrite Rabs_mult, Rabs_inv, (Rabs_right l) by lra; field; lra).
  assert (Wq : Rabs (val q) <= B 52).
  { rewrite Vq. apply rnd64_bound; [lia|]. apply Rmult_le_reg_r with l; [exact P|]. lra. }
  pose proof (Zfloor_lb (val q)) as Lb. pose proof (Zfloor_ub (val q)) as Ub. pose proof (ffloor_val q Fq) as Ej. set (j := ffloor q) in *. rewrite <- Ej in Lb, Ub.
  assert (Hj : (Z.abs j <= 2 ^ 53)%Z).
  { apply Rabs_le_inv in Wq. change (B 52) with (IZR (2 ^ 52)) in Wq. assert (j <= 2 ^ 52)%Z by (apply le_IZR; lra).
    assert (- 2 ^ 52 - 1 < j)%Z by (apply lt_IZR; rewrite minus_IZR, opp_IZR; lra). lia. }
  destruct (of_Z64_exact j Hj) as [Vj Fj]. destruct (sub64_b q (of_Z64 j) Fq Fj) as [Fd Vd].
  { rewrite Vj, Rabs_right by lra. apply Rle_trans with 1; [lra|]. change 1 with (B 0). apply bpow_le. lia. }
  rewrite Vj in Vd. set (f := sub64 q (of_Z64 j)) in *.
  assert (Hf : 0 <= val f <= 1) by (rewrite Vd; split; [apply rnd64_pos; lra|rewrite <- rnd64_1; apply rnd64_le; lra]).
  assert (Ef : Rabs (val f - (val q - IZR j)) <= B (-53)) by (rewrite Vd; apply rnd64_unit_error; lra).
  destruct (weight_dyadic f Fd Hf) as (Fl & Dl & El). cbn zeta in Fl, Dl, El. set (wl := sub64 (of_Z64 1) f) in *.
  destruct (weight_dyadic wl Fl (dyadic_range _ Dl)) as (Fr & Dr & _). cbn zeta in Fr, Dr.
  assert (Vr : val (sub64 (of_Z64 1) wl) = 1 - val wl).
  { destruct (of_Z64_exact 1 ltac:(lia)) as [V1 F1]. destruct (sub64_b (of_Z64 1) wl F1 Fl) as [_ V].
    - rewrite V1, Rabs_right by (pose proof (dyadic_range _ Dl); lra). apply Rle_trans with 1; [pose proof (dyadic_range _ Dl); lra|]. change 1 with (B 0). apply bpow_le. lia.
    - rewrite V, V1. apply dyadic_exact, dyadic_compl, Dl. }
  exists j, wl, (sub64 (of_Z64 1) wl). split; [reflexivity|]. split; [exact Fl|]. split; [exact Fr|]. split; [exact Dl|]. split; [exact Dr|].
  rewrite Vr. split; [ring|]. destruct small_facts as ((u0 & u1) & (t0 & tu) & E51 & _). rewrite E51, Ew.
  replace ((IZR j + (1 - val wl)) * l - val x) with ((IZR j + (1 - val wl) - w) * l) by (unfold w; field; lra). rewrite Rabs_mult, (Rabs_right l) by lra.
  replace (4 * B (-53) * (Rabs w * l + l)) with (4 * B (-53) * (Rabs w + 1) * l) by ring. apply Rmult_le_compat_r; [lra|].
  apply Rabs_le_inv in Eq, Ef, El. pose proof (Rabs_pos w). apply Rabs_le. split; nra.
Qed.

(** ** the eight shares *)
Lemma rel_err x : x = 0 \/ B (-1022) <= Rabs x -> exists d, Rabs d <= B (-53) /\ rnd64 x = x * (1 + d).
Proof.
  intros [->|H].
  - exists 0. rewrite Rabs_R0. split; [apply bpow_ge_0|]. rewrite rnd64_0. ring.
  - destruct (err64 x) as (d & e & Hd & _ & He & E). exists d. split; [exact Hd|]. rewrite (He H), Rplus_0_r in E. exact E.
Qed.
Lemma share_spec a b c w : fin a = true -> fin b = true -> fin c = true -> fin w = true -> dyadic (val a) -> dyadic (val b) -> dyadic (val c) ->
  B (-800) <= val w <= B 900 -> let s := f_share a b c w in
  fin s = true /\ 0 <= val s <= B 900 /\ Rabs (val s - val a * val b * val c * val w) <= 4 * B (-53) * (val a * val b * val c * val w).
Proof.
  intros Fa Fb Fc Fw Da Db Dc Hw s. pose proof (dyadic_range _ Da) as Ra. pose proof (dyadic_range _ Db) as Rb. pose proof (dyadic_range _ Dc) as Rc.
  pose proof (u_pos (-800)) as P8. assert (O : 1 <= B 1023) by (change 1 with (B 0); apply bpow_le; lia).
  destruct (mul64_b a b Fa Fb) as [F1 V1]; [rewrite Rabs_right; nra|]. set (p := mul64 a b) in *.
  assert (C1 : val a * val b = 0 \/ B (-106) <= val a * val b).
  { destruct (Req_dec (val a) 0) as [->|Na]; [left; ring|]. destruct (Req_dec (val b) 0) as [->|Nb]; [left; ring|]. right.
    change (-106)%Z with (-53 + -53)%Z. rewrite bpow_plus. pose proof (dyadic_min _ Da Na). pose proof (dyadic_min _ Db Nb). pose proof (u_pos (-53)). nra. }
  assert (R1 : 0 <= val p <= 1) by (rewrite V1; split; [apply rnd64_pos; nra|rewrite <- rnd64_1; apply rnd64_le; nra]).
  assert (C1' : val p = 0 \/ B (-106) <= val p).
  { rewrite V1. destruct C1 as [-> | C1]; [left; apply rnd64_0|right]. rewrite <- (bpow64 (-106)) by lia. now apply rnd64_le. }
  destruct (rel_err (val a * val b)) as (d1 & H1 & E1).
  { destruct C1 as [C1|C1]; [left; exact C1|right]. rewrite Rabs_right by nra. eapply Rle_trans; [|exact C1]. apply bpow_le. lia. }
  rewrite <- V1 in E1. destruct (mul64_b p c F1 Fc) as [F2 V2]; [rewrite Rabs_right; nra|]. set (p2 := mul64 p c) in *.
  assert (C2 : val p * val c = 0 \/ B (-159) <= val p * val c).
  { destruct C1' as [-> | C1']; [left; ring|]. destruct (Req_dec (val c) 0) as [->|Nc]; [left; ring|]. right.
    change (-159)%Z with (-106 + -53)%Z. rewrite bpow_plus. pose proof (dyadic_min _ Dc Nc). pose proof (u_pos (-53)). pose proof (u_pos (-106)). nra. }
  assert (R2 : 0 <= val p2 <= 1) by (rewrite V2; split; [apply rnd64_pos; nra|rewrite <- rnd64_1; apply rnd64_le; nra]).
  assert (C2' : val p2 = 0 \/ B (-159) <= val p2).
  { rewrite V2. destruct C2 as [-> | C2]; [left; apply rnd64_0|right]. rewrite <- (bpow64 (-159)) by lia. now apply rnd64_le. }
  destruct (rel_err (val p * val c)) as (d2 & H2 & E2).
  { destruct C2 as [C2|C2]; [left; exact C2|right]. rewrite Rabs_right by nra. eapply Rle_trans; [|exact C2]. apply bpow_le. lia. }
  rewrite <- V2 in E2. destruct (mul64_b p2 w F2 Fw) as [F3 V3].
  { rewrite Rabs_right by nra. apply Rle_trans with (B 900); [nra|apply bpow_le; lia]. }
  change (mul64 p2 w) with s in F3, V3.
  assert (R3 : 0 <= val s <= B 900).
  { rewrite V3. split; [apply rnd64_pos; nra|]. rewrite <- (bpow64 900) by lia. apply rnd64_le. nra. }
  destruct (rel_err (val p2 * val w)) as (d3 & H3 & E3).
  { destruct C2' as [-> | C2']; [left; ring|right]. rewrite Rabs_right by nra. apply Rle_trans with (B (-159) * B (-800)); [rewrite <- bpow_plus; apply bpow_le; lia|]. pose proof (u_pos (-159)). nra. }
  rewrite <- V3 in E3. split; [exact F3|]. split; [exact R3|]. rewrite E3, E2, E1.
  set (X := val a * val b * val c * val w). assert (X0 : 0 <= X) by (unfold X; repeat apply Rmult_le_pos; lra).
  replace (val a * val b * (1 + d1) * val c * (1 + d2) * val w * (1 + d3) - X) with (X * ((1 + d1) * (1 + d2) * (1 + d3) - 1)) by (unfold X; ring).
  rewrite Rabs_mult, (Rabs_right X) by lra. rewrite (Rmult_comm _ X). apply Rmult_le_compat_l; [exact X0|].
  destruct small_facts as ((u0 & u1) & _). set (u := B (-53)) in *. apply Rabs_le_inv in H1, H2, H3.
  assert (Q1 : - (9/8 * (2 * u)) <= (1 + d1) * (1 + d2) - 1 <= 9/8 * (2 * u)) by (split; nra). set (g := (1 + d1) * (1 + d2) - 1) in *.
  replace ((1 + d1) * (1 + d2) * (1 + d3) - 1) with (g + d3 + g * d3) by (unfold g; ring). apply Rabs_le. split; nra.
Qed.

Definition dep_ok (e : Z * b64) (N : Z) : Prop := (0 <= fst e < N)%Z /\ fin (snd e) = true /\ 0 <= val (snd e).
Lemma deposits_spec m x w : usable m -> all3 (fun v => fin v = true /\ Rabs (val v) <= B 52 * val (f_grid m)) x -> fin w = true -> B (-800) <= val w <= B 900 ->
  let ds := f_deposits m x w in
  length ds = 8%nat /\ Forall (fun e => dep_ok e (fm_n m * fm_n m * fm_n m)) ds /\
  Rabs (Rtotal (map (fun e => val (snd e)) ds) - val w) <= B (-51) * val w.
Proof.
  intros U Hx Fw Hw. destruct x as [[x0 x1] x2]. destruct Hx as ((F0 & H0) & (F1 & H1) & (F2 & H2)).
  destruct (weights_spec m x0 U F0 H0) as (j0 & l0 & r0 & E0 & Fl0 & Fr0 & Dl0 & Dr0 & S0 & _).
  destruct (weights_spec m x1 U F1 H1) as (j1 & l1 & r1 & E1 & Fl1 & Fr1 & Dl1 & Dr1 & S1 & _).
  destruct (weights_spec m x2 U F2 H2) as (j2 & l2 & r2 & E2 & Fl2 & Fr2 & Dl2 & Dr2 & S2 & _).
  unfold f_deposits. rewrite E0, E1, E2. cbn zeta. assert (Hn : (0 < fm_n m)%Z) by (destruct U; lia).
  assert (Sh : forall a b c, fin a = true -> fin b = true -> fin c = true -> dyadic (val a) -> dyadic (val b) -> dyadic (val c) ->
    fin (f_share a b c w) = true /\ 0 <= val (f_share a b c w) /\ Rabs (val (f_share a b c w) - val a * val b * val c * val w) <= B (-51) * (val a * val b * val c * val w)).
  { intros a b c Fa Fb Fc Da Db Dc. destruct (share_spec a b c w Fa Fb Fc Fw Da Db Dc Hw) as (F & R & D). destruct small_facts as (_ & _ & E51 & _). rewrite E51. repeat split; [exact F|lra|exact D]. }
  split; [reflexivity|]. split.
  - repeat apply Forall_cons; try apply Forall_nil; unfold dep_ok; cbn [fst snd]; (split; [apply flat_range; apply Z.mod_pos_bound; exact Hn|]);
      (split; [|]); apply Sh; assumption.
  - pose proof (Sh l0 l1 l2 Fl0 Fl1 Fl2 Dl0 Dl1 Dl2) as (_ & _ & A0). pose proof (Sh l0 l1 r2 Fl0 Fl1 Fr2 Dl0 Dl1 Dr2) as (_ & _ & A1).
    pose proof (Sh l0 r1 l2 Fl0 Fr1 Fl2 Dl0 Dr1 Dl2) as (_ & _ & A2). pose proof (Sh l0 r1 r2 Fl0 Fr1 Fr2 Dl0 Dr1 Dr2) as (_ & _ & A3).
    pose proof (Sh r0 l1 l2 Fr0 Fl1 Fl2 Dr0 Dl1 Dl2) as (_ & _ & A4). pose proof (Sh r0 l1 r2 Fr0 Fl1 Fr2 Dr0 Dl1 Dr2) as (_ & _ & A5).
    pose proof (Sh r0 r1 l2 Fr0 Fr1 Fl2 Dr0 Dr1 Dl2) as (_ & _ & A6). pose proof (Sh r0 r1 r2 Fr0 Fr1 Fr2 Dr0 Dr1 Dr2) as (_ & _ & A7).
    unfold Rtotal. cbn [map fold_right snd]. apply Rabs_le_inv in A0, A1, A2, A3, A4, A5, A6, A7.
    assert (T : val w = (val l0 + val r0) * (val l1 + val r1) * (val l2 + val r2) * val w) by (rewrite S0, S1, S2; ring).
    set (a0 := val l0) in *. set (b0 := val r0) in *. set (a1 := val l1) in *. set (b1 := val r1) in *. set (a2 := val l2) in *. set (b2 := val r2) in *.
    set (g := B (-51)) in *. set (W := val w) in *. 
    match goal with |- Rabs (?S - W) <= _ => assert (G : Rabs (S - (a0 + b0) * (a1 + b1) * (a2 + b2) * W) <= g * ((a0 + b0) * (a1 + b1) * (a2 + b2) * W)) end.
    { apply Rabs_le. split; lra. }
    rewrite <- T in G. exact G.
Qed.

(** ** accumulating *)
Lemma Rtotal_ge0 l : Forall (fun a => 0 <= a) l -> 0 <= Rtotal l.
Proof. induction 1 as [|a l H _ IH]; unfold Rtotal in *; cbn [fold_right]; lra. Qed.
Lemma Rtotal_app a b : Rtotal (a ++ b) = Rtotal a + Rtotal b.
Proof. unfold Rtotal. induction a as [|x a IH]; cbn [app fold_right]; [ring|]. rewrite IH. ring. Qed.
Lemma plus_rel x y : exists d, Rabs d <= B (-53) /\ rnd64 (val x + val y) = (val x + val y) * (1 + d).
Proof.
  destruct (Rle_or_lt (B (-1022)) (Rabs (val x + val y))) as [H|H]; [apply rel_err; right; exact H|].
  exists 0. split; [rewrite Rabs_R0; apply bpow_ge_0|]. rewrite Rplus_0_r, Rmult_1_r. apply format_FLT.
  pose proof (format64 x) as Gx. pose proof (format64 y) as Gy. rewrite fexp_FLT in Gx, Gy.
  destruct (Req_dec (val x + val y) 0) as [E|N]; [rewrite E; apply generic_format_0|].
  apply generic_format_FLT_FIX; [exact p53| |].
  - eapply Rle_trans; [left; exact H|]. apply bpow_le. lia.
  - apply generic_format_FIX. apply generic_format_FIX_FLT in Gx, Gy. apply FIX_format_generic in Gx, Gy.
    destruct Gx as [[m1 e1] Ex ?], Gy as [[m2 e2] Ey ?]. cbn [Fexp] in *. subst. exists (Float radix2 (m1 + m2) (-1074)); [|reflexivity].
    rewrite Ex, Ey. unfold F2R. cbn [Fnum Fexp]. rewrite plus_IZR. ring.
Qed.
Lemma grown_refl d : grown d d.
Proof. induction d; constructor; [lra|assumption]. Qed.
Lemma grown_trans a b c : grown a b -> grown b c -> grown a c.
Proof. unfold grown. intros H. revert c. induction H as [|x y a b E H IH]; intros c K; inversion K; subst; constructor; [lra|auto]. Qed.
Lemma fsum_ge0 d : cells_ok d -> 0 <= fsum d.
Proof. intros H. apply Rtotal_ge0. apply Forall_map. eapply Forall_impl; [|exact H]. cbn. tauto. Qed.
Lemma add_cell_spec d i w : cells_ok d -> (0 <= i < Z.of_nat (length d))%Z -> fin w = true -> 0 <= val w -> fsum d + val w <= B 1023 ->
  let d' := f_add_cell d i w in
  length d' = length d /\ cells_ok d' /\ grown d d' /\ Rabs (fsum d' - fsum d - val w) <= B (-53) * (fsum d + val w).
Proof.
  intros Hd Hi Fw Hw Hs. unfold f_add_cell. destruct (nth_error d (Z.to_nat i)) as [v|] eqn:E; [|apply nth_error_None in E; lia].
  assert (Li : (Z.to_nat i < length d)%nat) by lia. revert E Li. generalize (Z.to_nat i) as k. clear Hi i.
  induction Hd as [|v0 d (Fv & Pv) Hd IH]; intros k E Li; [cbn in Li; lia|]. pose proof (fsum_ge0 d Hd) as S0.
  unfold fsum in *. cbn [map Rtotal fold_right] in Hs |- *. fold (Rtotal (map val d)) in *. destruct k as [|k]; cbn [nth_error upd_nth] in *.
  - injection E as ->. destruct (add64_b v w Fv Fw) as [Fa Va]; [rewrite Rabs_right; lra|]. destruct (plus_rel v w) as (e & He & Ee).
    assert (M : val v <= val (add64 v w)) by (rewrite Va; rewrite <- (rnd64_val v) at 1; apply rnd64_le; lra).
    split; [reflexivity|]. split; [constructor; [split; [exact Fa|lra]|exact Hd]|]. split; [constructor; [exact M|apply grown_refl]|].
    cbn [map Rtotal fold_right]. fold (Rtotal (map val d)). rewrite Va, Ee.
    replace ((val v + val w) * (1 + e) + Rtotal (map val d) - (val v + Rtotal (map val d)) - val w) with ((val v + val w) * e) by ring.
    rewrite Rabs_mult, (Rabs_right (val v + val w)), Rmult_comm by lra. apply Rmult_le_compat; try apply Rabs_pos; lra.
  - destruct (IH ltac:(lra) k E ltac:(cbn in Li; lia)) as (L & C & G & D). cbn [length]. split; [f_equal; exact L|]. split; [constructor; [split; assumption|exact C]|].
    split; [constructor; [lra|exact G]|]. cbn [map Rtotal fold_right]. fold (Rtotal (map val (upd_nth d k (add64 v w)))).
    replace (val v0 + Rtotal (map val (upd_nth d k (add64 v w))) - (val v0 + Rtotal (map val d)) - val w) with (Rtotal (map val (upd_nth d k (add64 v w))) - Rtotal (map val d) - val w) by ring.
    eapply Rle_trans; [exact D|]. apply Rmult_le_compat_l; [apply bpow_ge_0|lra].
Qed.
Definition wsum (ds : list (Z * b64)) : R := Rtotal (map (fun e => val (snd e)) ds).
Lemma wsum_ge0 ds N : Forall (fun e => dep_ok e N) ds -> 0 <= wsum ds.
Proof. intros H. apply Rtotal_ge0. apply Forall_map. eapply Forall_impl; [|exact H]. unfold dep_ok. cbn. tauto. Qed.
Lemma fold_add_spec ds : forall d, cells_ok d -> Forall (fun e => dep_ok e (Z.of_nat (length d))) ds -> 2 * INR (length ds) * B (-53) <= 1 ->
  fsum d + wsum ds <= B 1022 ->
  let d' := fold_left (fun d c => f_add_cell d (fst c) (snd c)) ds d in
  length d' = length d /\ cells_ok d' /\ grown d d' /\ Rabs (fsum d' - fsum d - wsum ds) <= 2 * INR (length ds) * B (-53) * (fsum d + wsum ds).
Proof.
  induction ds as [|e ds IH] using rev_ind; intros d Hd He HN Hs.
  - cbn [fold_left]. split; [reflexivity|]. split; [exact Hd|]. split; [apply grown_refl|]. unfold wsum. cbn. rewrite !Rminus_diag_eq by ring. rewrite Rabs_R0. lra.
  - cbn zeta. rewrite fold_left_app. cbn [fold_left]. apply Forall_app in He. destruct He as [He E]. inversion E as [|? ? (I & Fe & Pe) _]; subst.
    assert (W : wsum (ds ++ [e]) = wsum ds + val (snd e)) by (unfold wsum; rewrite map_app, Rtotal_app; cbn; ring). rewrite W in *.
    rewrite app_length in *. cbn [length] in *. rewrite plus_INR in *. cbn [INR] in *. pose proof (pos_INR (length ds)) as N0. pose proof (u_pos (-53)) as u0.
    destruct (IH d Hd He) as (L & C & G & D); [nra|lra|]. set (d1 := fold_left _ ds d) in *. pose proof (fsum_ge0 d Hd) as S0. pose proof (wsum_ge0 _ _ He) as W0.
    set (n := INR (length ds)) in *. set (u := B (-53)) in *.
    assert (X : 2 * n * u * (fsum d + wsum ds) <= fsum d + wsum ds) by nra.
    assert (T1 : fsum d1 <= 2 * (fsum d + wsum ds)) by (apply Rabs_le_inv in D; lra).
    destruct (add_cell_spec d1 (fst e) (snd e) C) as (L2 & C2 & G2 & D2); [rewrite L; exact I|exact Fe|exact Pe| |].
    { change 1023%Z with (1 + 1022)%Z. rewrite bpow_plus. change (B 1) with 2. lra. }
    split; [rewrite L2; exact L|]. split; [exact C2|]. split; [exact (grown_trans _ _ _ G G2)|].
    set (d2 := f_add_cell d1 (fst e) (snd e)) in *. apply Rabs_le_inv in D, D2. assert (u * fsum d1 <= 2 * u * (fsum d + wsum ds)) by nra.
    apply Rabs_le. fold u in D2. assert (0 <= u * val (snd e)) by nra. assert (0 <= n * (u * val (snd e))) by nra. split; nra.
Qed.
Lemma lin_add_flat m ps : forall d, fold_left (fun d p => f_add_1 m d (fst p) (snd p)) ps d =
  fold_left (fun d c => f_add_cell d (fst c) (snd c)) (flat_map (fun p => f_deposits m (fst p) (snd p)) ps) d.
Proof. induction ps as [|p ps IH]; intros d; [reflexivity|]. cbn [fold_left flat_map]. rewrite fold_left_app. apply IH. Qed.
Lemma lin_add_particles m d xs ws : f_lin_add m d xs ws = fold_left (fun d p => f_add_1 m d (fst p) (snd p)) (fparticles xs ws) d.
Proof.
  destruct ws as [ws|]; [reflexivity|]. cbn [f_lin_add fparticles]. revert d. induction xs as [|x xs IH]; intros d; [reflexivity|]. cbn [map fold_left fst snd]. apply IH.
Qed.
Lemma deposits_total m ps : usable m -> Forall (particle_ok m) ps -> let ds := flat_map (fun p => f_deposits m (fst p) (snd p)) ps in
  length ds = (8 * length ps)%nat /\ Forall (fun e => dep_ok e (fm_n m * fm_n m * fm_n m)) ds /\ 0 <= Rtotal (map (fun p => val (snd p)) ps) /\
  Rabs (wsum ds - Rtotal (map (fun p => val (snd p)) ps)) <= B (-51) * Rtotal (map (fun p => val (snd p)) ps).
Proof.
  intros U H. induction H as [|p ps (H1 & H2 & H3) _ IH]; cbn zeta; cbn [flat_map map].
  - split; [reflexivity|]. split; [constructor|]. cbn. split; [lra|]. rewrite Rminus_0_r, Rabs_R0. lra.
  - destruct IH as (L & O & P & D). destruct (deposits_spec m (fst p) (snd p) U H1 H2 H3) as (L1 & O1 & D1).
    split; [rewrite app_length, L1, L; cbn [length]; lia|]. split; [apply Forall_app; split; assumption|].
    unfold wsum. rewrite map_app, Rtotal_app. cbn [Rtotal fold_right]. fold (Rtotal (map (fun p => val (snd p)) ps)). fold (wsum (flat_map (fun p => f_deposits m (fst p) (snd p)) ps)).
    pose proof (u_pos (-800)). split; [lra|]. apply Rabs_le_inv in D, D1. apply Rabs_le. split; lra.
Qed.
Lemma lin_add_spec m d xs ws : usable m -> length d = Z.to_nat (fm_n m * fm_n m * fm_n m) -> cells_ok d -> Forall (particle_ok m) (fparticles xs ws) ->
  let W := Rtotal (map (fun p => val (snd p)) (fparticles xs ws)) in let N := INR (length (fparticles xs ws)) in
  N <= B 48 -> fsum d + W <= B 1000 ->
  let d' := f_lin_add m d xs ws in
  length d' = length d /\ cells_ok d' /\ grown d d' /\ Rabs (fsum d' - fsum d - W) <= N * B (-48) * (fsum d + W).
Proof.
  intros U L Hd HP W N HN HS d'. destruct (deposits_total m _ U HP) as (Ld & Od & P & D). fold W in P, D.
  unfold d'. rewrite lin_add_particles, lin_add_flat. set (ds := flat_map _ (fparticles xs ws)) in *.
  assert (LN : INR (length ds) = 8 * N) by (rewrite Ld, mult_INR; unfold N; cbn; ring).
  destruct small_facts as ((u0 & u1) & _ & E51 & _ & _ & E48). rewrite E51 in D. rewrite E48. pose proof (fsum_ge0 d Hd) as S0.
  assert (WD : wsum ds <= 2 * W) by (apply Rabs_le_inv in D; nra).
  assert (NU : N * B (-53) <= / 32) by (apply Rle_trans with (B 48 * B (-53)); [apply Rmult_le_compat_r; lra|rewrite <- bpow_plus; cbn; lra]).
  assert (n3 : (0 <= fm_n m * fm_n m * fm_n m)%Z) by (destruct U as (Hn & _); assert (0 < fm_n m)%Z by lia; apply Z.mul_nonneg_nonneg; [apply Z.mul_nonneg_nonneg|]; lia).
  destruct (fold_add_spec ds d Hd) as (L2 & C2 & G2 & D2).
  - rewrite L, Z2Nat.id by exact n3. exact Od.
  - rewrite LN. lra.
  - apply Rle_trans with (B 1 * B 1000); [change (B 1) with 2; lra|]. rewrite <- bpow_plus. apply bpow_le. lia.
  - split; [exact L2|]. split; [exact C2|]. split; [exact G2|]. rewrite LN in D2. set (u := B (-53)) in *. set (T := fsum d) in *. set (D' := wsum ds) in *.
    assert (N0 : N = 0 \/ 1 <= N) by (unfold N; destruct (length (fparticles xs ws)); [left; reflexivity|right; rewrite S_INR; pose proof (pos_INR n); lra]).
    destruct N0 as [N0|N0].
    + assert (W = 0).
      { unfold W. unfold N in N0. apply (INR_eq _ 0) in N0. destruct (fparticles xs ws); [reflexivity|discriminate]. }
      assert (D' = 0) by (apply Rabs_le_inv in D; nra). rewrite N0 in *. apply Rabs_le_inv in D2. apply Rabs_le. split; nra.
    + apply Rabs_le_inv in D, D2. assert (A : 0 <= u * W) by nra. assert (A2 : 0 <= u * T) by nra. assert (A3 : u * W <= N * (u * W)) by nra. assert (A4 : u * T <= N * (u * T)) by nra.
      assert (A5 : u * (u * W) <= / 1024 * (u * W)) by nra. assert (A6 : N * (u * D') <= N * (u * W) * 5 / 4).
      { assert (D' <= W * 5 / 4) by nra. assert (0 <= N * u) by nra. nra. }
      apply Rabs_le. split; nra.
Qed.

(** ** nothing far away is returned *)
Lemma axis_far m x y r i : usable m -> reachable m y -> fin x = true -> fin r = true -> 0 <= val r -> Rabs (val x) + val r <= B 60 * val (f_grid m) ->
  (f_x2xi m (sub64 x r) <= i < f_x2xi m (add64 x r) + 1)%Z -> (f_x2xi m y mod fm_n m = i mod fm_n m)%Z ->
  exists k, apart_at_most m (val r + val (f_grid m) + B (-49) * (Rabs (val x) + Rabs (val y) + val r + val (f_grid m))) x y k.
Proof.
  intros U (Fy & Hy) Fx Fr Hr H Hi E. destruct (grid_facts m U) as (F & P & _ & (G1 & G2) & GN). destruct (ends m x r U Fx Fr Hr H) as [E1 E2]. rewrite E1, E2 in Hi.
  rewrite (x2xi_eq m y U Fy) in E by (eapply Rle_trans; [exact Hy|]; apply Rmult_le_compat_r; [lra|]; apply bpow_le; lia).
  set (c := Zfloor (rnd64 (val y / val (f_grid m)))) in *. assert (Hn : (0 < fm_n m)%Z) by (destruct U; lia).
  assert (K : exists k, i = (c + k * fm_n m)%Z).
  { exists (i / fm_n m - c / fm_n m)%Z. pose proof (Z.div_mod i (fm_n m) ltac:(lia)). pose proof (Z.div_mod c (fm_n m) ltac:(lia)). lia. }
  destruct K as [k ->]. exists k. unfold apart_at_most. set (l := val (f_grid m)) in *. set (L := val (fm_l m)) in *.
  set (M := Rabs (val x) + Rabs (val y) + val r + l). pose proof (Rabs_pos (val x)) as X0. pose proof (Rabs_pos (val y)) as Y0.
  destruct small_facts as ((u0 & u1) & (t0 & tu) & _). assert (E49 : B (-49) = 16 * B (-53)) by (change (-49)%Z with (4 + -53)%Z; rewrite bpow_plus; reflexivity).
  rewrite E49. assert (tM : B (-1075) <= B (-53) * l * / 1024).
  { apply Rle_trans with (B (-53) * B (-953) * / 1024); [|nra]. change (/ 1024) with (B (-10)). rewrite <- !bpow_plus. apply bpow_le. lia. }
  set (u := B (-53)) in *. set (t := B (-1075)) in *. assert (L0 : 0 < L) by (destruct U as (_ & _ & HL & _); fold L in HL; pose proof (u_pos (-900)); lra).
  assert (N1 : 1 <= IZR (fm_n m)) by (apply (IZR_le 1); lia).
  assert (QE : forall z b, 0 <= b -> Rabs z <= b -> Rabs (rnd64 (z / l) * l - z) <= u * b + t * l).
  { intros z b Hb Hz. destruct (err64 (z / l)) as (d & e & Hd & He & _ & Ee). rewrite Ee.
    replace ((z / l * (1 + d) + e) * l - z) with (z * d + e * l) by (field; lra).
    eapply Rle_trans; [apply Rabs_triang|]. rewrite !Rabs_mult, (Rabs_right l) by lra.
    apply Rplus_le_compat; [|apply Rmult_le_compat_r; [lra|exact He]]. rewrite (Rmult_comm u). apply Rmult_le_compat; try apply Rabs_pos; assumption. }
  assert (AE : forall s b, Rabs s <= b -> Rabs (rnd64 s - s) <= u * b + t).
  { intros s b Hs. destruct (err64 s) as (d & e & Hd & He & _ & Ee). rewrite Ee. replace (s * (1 + d) + e - s) with (s * d + e) by ring.
    eapply Rle_trans; [apply Rabs_triang|]. rewrite Rabs_mult. assert (Rabs s * Rabs d <= b * u) by (apply Rmult_le_compat; try apply Rabs_pos; assumption). fold t in He. lra. }
  set (X := Rabs (val x) + val r) in *.
  assert (X1 : Rabs (val x - val r) <= X) by (unfold X; unfold Rabs at 1 2; destruct (Rcase_abs (val x - val r)), (Rcase_abs (val x)); lra).
  assert (X2 : Rabs (val x + val r) <= X) by (unfold X; unfold Rabs at 1 2; destruct (Rcase_abs (val x + val r)), (Rcase_abs (val x)); lra).
  assert (R2 : forall s, Rabs s <= X -> Rabs (rnd64 s) <= X * 9 / 8 + l / 8).
  { intros s Hs. replace (rnd64 s) with ((rnd64 s - s) + s) by ring. eapply Rle_trans; [apply Rabs_triang|]. pose proof (AE s X Hs). pose proof (Rabs_pos s). nra. }
  assert (XX : 0 <= X) by (unfold X; lra).
  pose proof (QE _ (X * 9 / 8 + l / 8) ltac:(lra) (R2 _ X1)) as Q1. pose proof (QE _ (X * 9 / 8 + l / 8) ltac:(lra) (R2 _ X2)) as Q2. pose proof (AE _ X X1) as A1. pose proof (AE _ X X2) as A2.
  pose proof (QE (val y) (Rabs (val y)) Y0 (Rle_refl _)) as Qy. apply Rabs_le_inv in Q1, Q2, A1, A2, Qy.
  pose proof (Zfloor_lb (rnd64 (val y / l))) as Lc. pose proof (Zfloor_ub (rnd64 (val y / l))) as Uc. fold c in Lc, Uc.
  destruct Hi as [I1 I2]. assert (I2' : (c + k * fm_n m <= Zfloor (rnd64 (rnd64 (val x + val r) / l)))%Z) by lia. apply IZR_le in I1, I2'. rewrite plus_IZR, mult_IZR in I1, I2'.
  pose proof (Zfloor_ub (rnd64 (rnd64 (val x - val r) / l))) as Ua. pose proof (Zfloor_lb (rnd64 (rnd64 (val x + val r) / l))) as Lb'.
  set (kn := IZR k * IZR (fm_n m)) in *.
  (* everything in units of length *)
  assert (J1 : rnd64 (rnd64 (val x - val r) / l) * l - l <= (IZR c + kn) * l) by nra.
  assert (J2 : (IZR c + kn) * l <= rnd64 (rnd64 (val x + val r) / l) * l) by nra.
  assert (J3 : IZR c * l <= rnd64 (val y / l) * l) by nra. assert (J4 : rnd64 (val y / l) * l <= IZR c * l + l) by nra.
  assert (EM : X + Rabs (val y) + l = M) by (unfold M, X; ring). assert (tl : t * l <= u * l * / 1024) by nra.
  assert (uX : 0 <= u * X) by nra. assert (uY : 0 <= u * Rabs (val y)) by nra. assert (ul : 0 < u * l) by nra.
  assert (uuX : u * (X * 9 / 8 + l / 8) = u * X * 9 / 8 + u * l / 8) by field. rewrite uuX in Q1, Q2.
  assert (KB : Rabs (kn * l) <= 2 * M).
  { rewrite <- EM. assert (Rabs (val y) - val y >= 0 /\ Rabs (val y) + val y >= 0) by (unfold Rabs; destruct (Rcase_abs (val y)); lra).
    apply Rabs_le_inv in X1, X2. assert (UU : forall a, 0 <= a -> u * a <= a * / 1024) by (intros a Ha; rewrite Rmult_comm; apply Rmult_le_compat_l; [exact Ha|exact u1]).
    pose proof (UU X XX). pose proof (UU _ Y0). pose proof (UU l ltac:(lra)). rewrite Rmult_plus_distr_r in J1, J2.
    apply Rabs_le. split; lra. }
  assert (KE : Rabs (kn * l - IZR k * L) <= 4 * (u * M)).
  { replace (kn * l - IZR k * L) with (IZR k * (IZR (fm_n m) * l - L)) by (unfold kn; ring). rewrite Rabs_mult.
    assert (A : IZR (fm_n m) * l >= L * / 2) by (apply Rabs_le_inv in GN; nra).
    assert (Bk : Rabs (IZR k) * L <= 4 * M).
    { assert (Rabs (kn * l) = Rabs (IZR k) * (IZR (fm_n m) * l)) by (unfold kn; rewrite Rmult_assoc, Rabs_mult, (Rabs_right (IZR (fm_n m) * l)) by nra; reflexivity).
      pose proof (Rabs_pos (IZR k)). nra. }
    apply Rle_trans with (Rabs (IZR k) * (u * L)); [apply Rmult_le_compat_l; [apply Rabs_pos|exact GN]|]. nra. }
  assert (uM : u * M = u * X + u * Rabs (val y) + u * l) by (rewrite <- EM; ring). rewrite uM in KE. apply Rabs_le_inv in KE.
  fold M. rewrite (Rmult_assoc 16 u M), uM.
  try rewrite Rmult_plus_distr_r in J1, J2. apply Rabs_le. split; lra.
Qed.
Lemma f_query_far m xs args x r y : usable m -> sorts (f_keys m xs) args ->
  all3 (fun v => fin v = true /\ Rabs (val v) + val r <= B 60 * val (f_grid m))%R x -> fin r = true -> (0 <= val r)%R -> all3 (reachable m) y ->
  In y (concat (f_query_points_1 (f_from_meshing_points m xs args) x r)) ->
  In y xs /\ each_axis (fun a b => apart_at_most m (val r + val (f_grid m) + B (-49) * (Rabs (val a) + Rabs (val b) + val r + val (f_grid m))) a b) x y.
Proof.
  intros U Hs Hx Fr Hr Ry H. assert (Hn : (0 < fm_n m)%Z) by (destruct U; lia). apply f_query_In in H; [|exact Hn|exact Hs]. destruct H as [Hy Hc]. split; [exact Hy|].
  destruct x as [[x0 x1] x2], y as [[y0 y1] y2]. destruct Hx as ((F0 & H0) & (F1 & H1) & (F2 & H2)), Ry as (R0 & R1 & R2).
  apply f_query_cells_In in Hc. destruct Hc as (i0 & i1 & i2 & I0 & I1 & I2 & E). unfold f_x2xi_f in E.
  apply flat_inj in E; try (apply Z.mod_pos_bound; exact Hn). destruct E as (E0 & E1 & E2).
  destruct (axis_far m x0 y0 r i0 U R0 F0 Fr Hr H0 I0 E0) as [k0 K0]. destruct (axis_far m x1 y1 r i1 U R1 F1 Fr Hr H1 I1 E1) as [k1 K1]. destruct (axis_far m x2 y2 r i2 U R2 F2 Fr Hr H2 I2 E2) as [k2 K2].
  exists k0, k1, k2. auto.
Qed.
