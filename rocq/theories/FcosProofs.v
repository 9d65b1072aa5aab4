(** Proofs for C102. *)
From Coq Require Import ZArith Reals Lra Lia List Bool.
Require Import Flocq.Core.Core Flocq.IEEE754.BinarySingleNaN.
From Verif Require Import Base ProcFloat InterpFloatProofs MeshFloatModel MeshFloatProofs FredModel FredSpec FredProofs FredProofs3 FknnProofs2 PiBound FdenModel FdenSpec FdenProofs FdenProofs2 FcosModel FcosSpec.
Local Open Scope R_scope.
Notation B e := (bpow radix2 e).
Notation ee := (bpow radix2 (-52)).

Lemma fac_max n m f g X Y : fac n f -> fac m g -> 0 <= X -> 0 <= Y -> exists q, fac (Nat.max n m) q /\ X * f + Y * g = (X + Y) * q.
Proof.
  intros F G Hx Hy. apply (fac_more n (Nat.max n m)) in F; [|lia]. apply (fac_more m (Nat.max n m)) in G; [|lia]. destruct (Req_dec (X + Y) 0) as [Z|N].
  - exists 1. split; [apply fac_1|]. assert (X = 0 /\ Y = 0) as [-> ->] by lra. ring.
  - exists ((X * f + Y * g) / (X + Y)). split; [|field; exact N]. destruct F as [F1 F2], G as [G1 G2]. unfold fac. set (lo := / (1 + ee) ^ Nat.max n m) in *. set (hi := (1 + ee) ^ Nat.max n m) in *. clearbody lo hi.
    assert (X * lo <= X * f) by (apply Rmult_le_compat_l; lra). assert (Y * lo <= Y * g) by (apply Rmult_le_compat_l; lra). assert (X * f <= X * hi) by (apply Rmult_le_compat_l; lra). assert (Y * g <= Y * hi) by (apply Rmult_le_compat_l; lra).
    assert (P : 0 < X + Y) by (destruct (Rle_lt_or_eq_dec 0 (X + Y) ltac:(lra)) as [Q|Q]; [exact Q|congruence]). assert (E : (X * f + Y * g) / (X + Y) * (X + Y) = X * f + Y * g) by (field; exact N). split; apply Rmult_le_reg_r with (X + Y); try exact P; rewrite E; lra.
Qed.
Lemma close_add k n m x y X Y : close n x X -> close m y Y -> 0 <= X -> 0 <= Y -> medium k (X + Y) -> (k <= 1010)%Z -> (Z.of_nat (Nat.max n m) <= 2 ^ 50)%Z -> close (Nat.max n m + 1) (add64 x y) (X + Y).
Proof.
  intros (Fx & f & Vx & F) (Fy & g & Vy & G) Hx Hy M Hk Hn. destruct (fac_max n m f g X Y F G Hx Hy) as (q & Q & E). assert (E' : val x + val y = (X + Y) * q) by (rewrite Vx, Vy; exact E).
  pose proof (scaled k _ _ _ M Hn Q) as S. destruct (add64_b x y Fx Fy) as [Fm Vm]; [rewrite E'; apply (in_range (k + 1) _ S); lia|]. rewrite E' in Vm. exact (round_close k _ _ _ _ M Hk Hn Q Fm Vm).
Qed.
Lemma fac_sqrt n f : fac n f -> fac n (sqrt f).
Proof.
  intros H. pose proof (fac_pos _ _ H) as P. destruct H as [A1 A2]. pose proof (sqrt_lt_R0 f P) as S. pose proof (sqrt_sqrt f (Rlt_le _ _ P)) as E. pose proof (pw n) as W. pose proof (pw_inv n) as W'. split.
  - apply Rnot_lt_le. intros C. assert (sqrt f < 1) by lra. assert (sqrt f * sqrt f <= sqrt f * 1) by (apply Rmult_le_compat_l; lra). lra.
  - apply Rnot_lt_le. intros C. assert (1 < sqrt f) by lra. assert (sqrt f * 1 <= sqrt f * sqrt f) by (apply Rmult_le_compat_l; lra). lra.
Qed.
Lemma medium_sqrt k X : (0 <= k)%Z -> medium k X -> medium k (sqrt X).
Proof.
  intros Hk [->|[H1 H2]]; [left; apply sqrt_0|right]. pose proof (bpow_gt_0 radix2 (- k)) as P. assert (P0 : 0 < X) by lra. pose proof (sqrt_lt_R0 X P0) as S. pose proof (sqrt_sqrt X (Rlt_le _ _ P0)) as E.
  assert (K1 : 1 <= B k) by (apply (bpow_le radix2 0 k); lia). assert (K2 : B (- k) <= 1) by (apply (bpow_le radix2 (- k) 0); lia). split; apply Rnot_lt_le; intros C.
  - assert (sqrt X * sqrt X <= sqrt X * 1) by (apply Rmult_le_compat_l; lra). lra.
  - assert (sqrt X * 1 <= sqrt X * sqrt X) by (apply Rmult_le_compat_l; lra). lra.
Qed.
Lemma close_sqrt k n x X : (0 <= k)%Z -> close n x X -> medium k X -> (k <= 1010)%Z -> (Z.of_nat n <= 2 ^ 50)%Z -> close (n + 1) (sqrt64 x) (sqrt X).
Proof.
  intros K (Fx & f & Vx & F) M Hk Hn. pose proof (medium_pos _ _ M) as Px. pose proof (fac_pos _ _ F) as Pf. destruct (sqrt64_val x Fx) as [Fs Vs]; [rewrite Vx; apply Rmult_le_pos; lra|].
  rewrite Vx, sqrt_mult in Vs by lra. exact (round_close k _ _ _ _ (medium_sqrt k X K M) Hk Hn (fac_sqrt _ _ F) Fs Vs).
Qed.
(** One rounding. *)
Lemma close_int z : (Z.abs z <= 2 ^ 53)%Z -> close 0 (of_Z64 z) (IZR z).
Proof. intros H. destruct (of_Z64_exact z H) as [V F]. rewrite <- V. apply close_exact, F. Qed.
Lemma medium_c k X : B (- k) <= X <= B k -> medium k X.
Proof. intros H. right. exact H. Qed.

(** ** Literals *)
Lemma mpc_close : close 1 mpc64 (3085677581491367 * 10 ^ 7) /\ medium 75 (3085677581491367 * 10 ^ 7).
Proof.
  assert (M : medium 75 (3085677581491367 * 10 ^ 7)) by (right; change (bpow radix2 75) with 37778931862957161709568; split; [apply Rle_trans with (B 0); [apply bpow_le; lia|cbn; lra]|lra]). split; [|exact M].
  pose proof (close_mul 75 0 0 _ _ _ _ (close_int 3085677581491367 ltac:(lia)) (close_int (10 ^ 7) ltac:(lia))) as C. replace (IZR (10 ^ 7)) with (10 ^ 7) in C by (change (10 ^ 7)%Z with 10000000%Z; lra). apply C; [exact M|lia|lia].
Qed.
Lemma gyr_close : close 1 gyr64 (315576 * 10 ^ 11) /\ medium 55 (315576 * 10 ^ 11).
Proof.
  assert (M : medium 55 (315576 * 10 ^ 11)) by (right; change (bpow radix2 55) with 36028797018963968; split; [apply Rle_trans with (B 0); [apply bpow_le; lia|cbn; lra]|lra]). split; [|exact M].
  pose proof (close_mul 55 0 0 _ _ _ _ (close_int 315576 ltac:(lia)) (close_int (10 ^ 11) ltac:(lia))) as C. replace (IZR (10 ^ 11)) with (10 ^ 11) in C by (change (10 ^ 11)%Z with 100000000000%Z; lra). apply C; [exact M|lia|lia].
Qed.
Lemma msun_close : close 2 (mul64 msun64 (of_Z64 (10 ^ 10))) (1988409870698051 * 10 ^ 15 * 10 ^ 10) /\ medium 134 (1988409870698051 * 10 ^ 15 * 10 ^ 10).
Proof.
  assert (M : medium 134 (1988409870698051 * 10 ^ 15 * 10 ^ 10)) by (right; change (bpow radix2 134) with 21778071482940061661655974875633165533184; split; [apply Rle_trans with (B 0); [apply bpow_le; lia|cbn; lra]|lra]). split; [|exact M].
  assert (M1 : medium 101 (1988409870698051 * 10 ^ 15)) by (right; change (bpow radix2 101) with 2535301200456458802993406410752; split; [apply Rle_trans with (B 0); [apply bpow_le; lia|cbn; lra]|lra]).
  pose proof (close_mul 101 0 0 _ _ _ _ (close_int 1988409870698051 ltac:(lia)) (close_int (10 ^ 15) ltac:(lia))) as C. replace (IZR (10 ^ 15)) with (10 ^ 15) in C by (change (10 ^ 15)%Z with 1000000000000000%Z; lra). specialize (C M1 ltac:(lia) ltac:(lia)).
  pose proof (close_mul 134 _ 0 _ _ _ _ C (close_int (10 ^ 10) ltac:(lia))) as C2. replace (IZR (10 ^ 10)) with (10 ^ 10) in C2 by (change (10 ^ 10)%Z with 10000000000%Z; lra). apply C2; [exact M|lia|lia].
Qed.
Lemma bigG_close : close 1 bigG64 (66743 / 10 ^ 15) /\ medium 34 (66743 / 10 ^ 15).
Proof.
  assert (M : medium 34 (66743 / 10 ^ 15)). { right. change (bpow radix2 (- (34))) with (/ 17179869184). split; [lra|apply Rle_trans with (B 0); [cbn; lra|apply bpow_le; lia]]. } split; [|exact M].
  pose proof (close_div 34 0 0 _ _ _ _ (close_int 66743 ltac:(lia)) (close_int (10 ^ 15) ltac:(lia))) as C. replace (IZR (10 ^ 15)) with (10 ^ 15) in C by (change (10 ^ 15)%Z with 1000000000000000%Z; lra). apply C; [lra|exact M|lia|lia].
Qed.
Lemma hub0_close : close 1 hub0_64 exact_H0 /\ medium 4 exact_H0 /\ 0 < exact_H0.
Proof.
  assert (M : medium 4 exact_H0). { right. unfold exact_H0. change (bpow radix2 (- (4))) with (/ 16). split; [lra|apply Rle_trans with (B 0); [cbn; lra|apply bpow_le; lia]]. } split; [|split; [exact M|unfold exact_H0; lra]].
  pose proof (close_div 4 0 0 _ _ _ _ (close_int 204542433009139 ltac:(lia)) (close_int (2 * 10 ^ 15) ltac:(lia))) as C. replace (204542433009139 / IZR (2 * 10 ^ 15)) with exact_H0 in C by (change (2 * 10 ^ 15)%Z with 2000000000000000%Z; unfold exact_H0; lra). apply C; [change (2 * 10 ^ 15)%Z with 2000000000000000%Z; lra|exact M|lia|lia].
Qed.
(** ** Powers *)
Lemma close_cube k n x X : close n x X -> medium k X -> (3 * k <= 1010)%Z -> (0 <= k)%Z -> (Z.of_nat n <= 1000)%Z -> close (3 * n + 2) (cube64 x) (X ^ 3) /\ medium (3 * k) (X ^ 3).
Proof.
  intros C M Hk K Hn. pose proof (medium_mul _ _ _ _ M M) as M2. pose proof (medium_mul _ _ _ _ M M2) as M3. replace (X * (X * X)) with (X ^ 3) in M3 by ring. replace (k + (k + k))%Z with (3 * k)%Z in M3 by ring. split; [|exact M3].
  pose proof (close_mul _ _ _ _ _ _ _ C C M2 ltac:(lia) ltac:(lia)) as C2. pose proof (close_mul (3 * k) _ _ _ _ _ _ C C2) as C3. replace (X * (X * X)) with (X ^ 3) in C3 by ring. unfold cube64. replace (3 * n + 2)%nat with (n + (n + n + 1) + 1)%nat by lia. apply C3; [exact M3|lia|lia].
Qed.
Lemma close_sq k n x X : close n x X -> medium k X -> (2 * k <= 1010)%Z -> (0 <= k)%Z -> (Z.of_nat n <= 1000)%Z -> close (2 * n + 1) (sq64 x) (X ^ 2) /\ medium (2 * k) (X ^ 2).
Proof.
  intros C M Hk K Hn. pose proof (medium_mul _ _ _ _ M M) as M2. replace (X * X) with (X ^ 2) in M2 by ring. replace (k + k)%Z with (2 * k)%Z in M2 by ring. split; [|exact M2].
  pose proof (close_mul (2 * k) _ _ _ _ _ _ C C) as C2. replace (X * X) with (X ^ 2) in C2 by ring. unfold sq64. replace (2 * n + 1)%nat with (n + n + 1)%nat by lia. apply C2; [exact M2|lia|lia].
Qed.
(** ** Densities today *)
Section Hubble.
Context (h : b64).
Hypothesis Hh : sized 10 h.
Notation H := (val h).
Lemma h_pos : 0 < H. Proof. destruct Hh as (_ & A & _). pose proof (bpow_gt_0 radix2 (- (10))). lra. Qed.
Lemma h_med : medium 10 H. Proof. right. apply Hh. Qed.
Lemma h_close : close 0 h H. Proof. apply close_exact, Hh. Qed.
Lemma grav_close : close 20 (grav64 h) (exact_G H) /\ medium 600 (exact_G H) /\ 0 < exact_G H.
Proof.
  pose proof h_pos as P. assert (N : H <> 0) by lra. destruct mpc_close as [Cl Ml]. destruct gyr_close as [Ct Mt]. destruct msun_close as [Cm Mm]. destruct bigG_close as [Cg Mg]. pose proof h_med as Mh.
  pose proof (medium_div _ _ _ _ Ml Mh N) as Nl. pose proof (close_div _ _ _ _ _ _ _ Cl h_close N Nl ltac:(lia) ltac:(lia)) as Dl.
  pose proof (medium_div _ _ _ _ Mt Mh N) as Nt. pose proof (close_div _ _ _ _ _ _ _ Ct h_close N Nt ltac:(lia) ltac:(lia)) as Dt.
  pose proof (medium_div _ _ _ _ Mm Mh N) as Nm. pose proof (close_div _ _ _ _ _ _ _ Cm h_close N Nm ltac:(lia) ltac:(lia)) as Dm.
  assert (Pl : 0 < 3085677581491367 * 10 ^ 7 / H) by (apply Rmult_lt_0_compat; [lra|apply Rinv_0_lt_compat; exact P]). assert (Pt : 0 < 315576 * 10 ^ 11 / H) by (apply Rmult_lt_0_compat; [lra|apply Rinv_0_lt_compat; exact P]). assert (Pm : 0 < 1988409870698051 * 10 ^ 15 * 10 ^ 10 / H) by (apply Rmult_lt_0_compat; [lra|apply Rinv_0_lt_compat; exact P]).
  unfold exact_G. cbn zeta. set (L := 3085677581491367 * 10 ^ 7 / H) in *. set (T := 315576 * 10 ^ 11 / H) in *. set (M := 1988409870698051 * 10 ^ 15 * 10 ^ 10 / H) in *. clearbody L T M.
  destruct (close_cube _ _ _ _ Dl Nl ltac:(lia) ltac:(lia) ltac:(lia)) as [C3 N3]. destruct (close_sq _ _ _ _ Dt Nt ltac:(lia) ltac:(lia) ltac:(lia)) as [C2 N2].
  assert (P2 : 0 < T ^ 2) by (apply pow_lt; exact Pt). assert (P3 : 0 < L ^ 3) by (apply pow_lt; exact Pl). pose proof (medium_div _ _ _ _ N3 N2 ltac:(lra)) as N4. pose proof (close_div _ _ _ _ _ _ _ C3 C2 ltac:(lra) N4 ltac:(lia) ltac:(lia)) as C4.
  pose proof (medium_div _ _ _ _ N4 Nm ltac:(lra)) as N5. pose proof (close_div _ _ _ _ _ _ _ C4 Dm ltac:(lra) N5 ltac:(lia) ltac:(lia)) as C5.
  assert (P5 : 0 < L ^ 3 / T ^ 2 / M) by (apply Rmult_lt_0_compat; [apply Rmult_lt_0_compat; [exact P3|apply Rinv_0_lt_compat; exact P2]|apply Rinv_0_lt_compat; exact Pm]).
  pose proof (medium_div _ _ _ _ Mg N5 ltac:(lra)) as N6. pose proof (close_div _ _ _ _ _ _ _ Cg C5 ltac:(lra) N6 ltac:(lia) ltac:(lia)) as C6. split; [exact C6|]. split; [eapply medium_more; [|exact N6]; lia|].
  apply Rmult_lt_0_compat; [lra|apply Rinv_0_lt_compat; exact P5].
Qed.
Lemma crit0_close : close 28 (crit0_64 h) (exact_crit0 H) /\ medium 620 (exact_crit0 H) /\ 0 < exact_crit0 H.
Proof.
  destruct grav_close as (Cg & Mg & Pg). destruct hub0_close as (Ch & Mh & Ph). pose proof PI_20 as Pp. destruct (close_sq _ _ _ _ Ch Mh ltac:(lia) ltac:(lia) ltac:(lia)) as [C2 M2].
  assert (M3 : medium 2 3) by (right; change (bpow radix2 2) with 4; change (bpow radix2 (- (2))) with (/ 4); lra). assert (M8 : medium 3 8) by (right; change (bpow radix2 3) with 8; change (bpow radix2 (- (3))) with (/ 8); lra). assert (Mp : medium 2 PI) by (right; change (bpow radix2 2) with 4; change (bpow radix2 (- (2))) with (/ 4); lra).
  pose proof (medium_mul _ _ _ _ M3 M2) as N1. pose proof (close_mul _ _ _ _ _ _ _ (close_int 3 ltac:(lia)) C2 N1 ltac:(lia) ltac:(lia)) as D1.
  pose proof (medium_mul _ _ _ _ M8 Mp) as N2. pose proof (close_mul _ _ _ _ _ _ _ (close_int 8 ltac:(lia)) pi_close N2 ltac:(lia) ltac:(lia)) as D2.
  pose proof (medium_mul _ _ _ _ N2 Mg) as N3. pose proof (close_mul _ _ _ _ _ _ _ D2 Cg N3 ltac:(lia) ltac:(lia)) as D3.
  assert (P3 : 0 < 8 * PI * exact_G H) by (apply Rmult_lt_0_compat; [lra|exact Pg]). pose proof (medium_div _ _ _ _ N1 N3 ltac:(lra)) as N4. pose proof (close_div _ _ _ _ _ _ _ D1 D3 ltac:(lra) N4 ltac:(lia) ltac:(lia)) as D4.
  split; [exact D4|]. split; [eapply medium_more; [|exact N4]; lia|]. unfold exact_crit0. apply Rmult_lt_0_compat; [|apply Rinv_0_lt_compat; exact P3]. apply Rmult_lt_0_compat; [lra|apply pow_lt; exact Ph].
Qed.
End Hubble.
