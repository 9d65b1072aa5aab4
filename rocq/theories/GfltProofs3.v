(** Proofs for C92: slices. *)
From Coq Require Import ZArith Reals Lra Lia List Bool.
Require Import Flocq.Core.Core Flocq.IEEE754.BinarySingleNaN.
From Verif Require Import Base ProcFloat InterpFloatProofs MeshFloatModel MeshFloatProofs BinFloatProofs FredModel FredSpec FredProofs FredProofs2 FredProofs3 FredProofs4 FquaModel FquaSpec FquaProofs FquaProofs2 GfltModel GfltSpec GfltProofs GfltProofs2.
Import ListNotations. Local Open Scope list_scope. Local Open Scope R_scope.

Lemma div_nonneg a b : 0 <= a -> 0 < b -> 0 <= a / b.
Proof. intros H1 H2. apply Rmult_le_pos; [exact H1|]. apply Rlt_le, Rinv_0_lt_compat, H2. Qed.
Lemma rel_grid x k : x = IZR k * B (-1074) -> exists d, Rabs d <= B (-53) /\ rnd64 x = x * (1 + d).
Proof.
  intros E. destruct (Rle_or_lt (B (-1022)) (Rabs x)) as [H|H]; [apply rel_err; right; exact H|].
  exists 0. split; [rewrite Rabs_R0; apply bpow_ge_0|]. rewrite Rplus_0_r, Rmult_1_r, E. apply format_int; [|lia].
  apply Znot_gt_le. intros C. apply Rlt_not_le in H. apply H. rewrite E, Rabs_mult, (Rabs_right (B (-1074))), <- abs_IZR by (pose proof (u_pos (-1074)); lra).
  apply Rle_trans with (IZR (2 ^ 53) * B (-1074)).
  - change (IZR (2 ^ 53)) with (B 53). rewrite <- bpow_plus. apply bpow_le. lia.
  - apply Rmult_le_compat_r; [apply bpow_ge_0|]. apply IZR_le. lia.
Qed.
Lemma int_rel (k : nat) x : exists d, Rabs d <= B (-53) /\ rnd64 (INR k * val x) = INR k * val x * (1 + d).
Proof. destruct (val_grid x) as [z E]. apply (rel_grid _ (Z.of_nat k * z)). rewrite mult_IZR, <- INR_IZR_INZ, E. ring. Qed.
Lemma of_nat64 k : (Z.of_nat k <= 2 ^ 53)%Z -> val (of_Z64 (Z.of_nat k)) = INR k /\ fin (of_Z64 (Z.of_nat k)) = true.
Proof. intros H. rewrite INR_IZR_INZ. apply of_Z64_exact. lia. Qed.
Lemma of_pred64 n : (1 <= n)%nat -> (Z.of_nat n <= 2 ^ 53)%Z -> val (of_Z64 (Z.of_nat n - 1)) = INR (n - 1) /\ fin (of_Z64 (Z.of_nat n - 1)) = true.
Proof. intros H1 H2. replace (Z.of_nat n - 1)%Z with (Z.of_nat (n - 1)) by lia. apply of_nat64. lia. Qed.
Lemma rnd_nonneg x : 0 <= x -> 0 <= rnd64 x.
Proof. intros H. rewrite <- rnd64_0. apply rnd64_le. exact H. Qed.
Lemma rnd_nonpos x : x <= 0 -> rnd64 x <= 0.
Proof. intros H. rewrite <- rnd64_0. apply rnd64_le. exact H. Qed.
Lemma INR_small k : (Z.of_nat k <= 2 ^ 53)%Z -> 0 <= INR k <= B 53.
Proof. intros H. split; [apply pos_INR|]. change (B 53) with (IZR (2 ^ 53)). rewrite INR_IZR_INZ. apply IZR_le. exact H. Qed.
(** A progression fl(fl(k * step) + start) *)
Definition prog (start step : b64) (k : nat) : b64 := add64 (mul64 (of_Z64 (Z.of_nat k)) step) start.
Lemma prog_ok start step k : fin start = true -> fin step = true -> Rabs (val start) <= B 900 -> Rabs (val step) <= B 902 -> (Z.of_nat k <= 2 ^ 53)%Z ->
  fin (prog start step k) = true /\ val (prog start step k) = rnd64 (rnd64 (INR k * val step) + val start) /\ Rabs (rnd64 (INR k * val step)) <= B 955.
Proof.
  intros Fs Ft Hs Ht Hk. destruct (of_nat64 k Hk) as [VK FK]. pose proof (INR_small k Hk) as [K0 K1].
  assert (P : Rabs (INR k * val step) <= B 955).
  { rewrite Rabs_mult, (Rabs_right (INR k)) by lra. change 955%Z with (53 + 902)%Z. rewrite bpow_plus. apply Rmult_le_compat; [lra|apply Rabs_pos|lra|exact Ht]. }
  assert (PR := rnd64_bound _ 955 ltac:(lia) P).
  destruct (mul64_b (of_Z64 (Z.of_nat k)) step FK Ft) as [F1 V1]. { rewrite VK. eapply Rle_trans; [exact P|]. apply bpow_le. lia. }
  rewrite VK in V1. assert (S : Rabs (val (mul64 (of_Z64 (Z.of_nat k)) step) + val start) <= B 1023).
  { rewrite V1. eapply Rle_trans; [apply Rabs_triang|]. pose proof (bpow_le radix2 900 955 ltac:(lia)). pose proof (bpow_le radix2 956 1023 ltac:(lia)). assert (B 956 = 2 * B 955) by (change 956%Z with (1 + 955)%Z; rewrite bpow_plus; reflexivity). lra. }
  destruct (add64_b _ start F1 Fs S) as [F2 V2]. unfold prog. split; [exact F2|]. split; [rewrite V2, V1; reflexivity|exact PR].
Qed.
Lemma prog_mono start step i j : fin start = true -> fin step = true -> Rabs (val start) <= B 900 -> Rabs (val step) <= B 902 -> 0 <= val step -> (i <= j)%nat -> (Z.of_nat j <= 2 ^ 53)%Z ->
  val (prog start step i) <= val (prog start step j).
Proof.
  intros Fs Ft Hs Ht P L Hj. destruct (prog_ok start step i) as (_ & -> & _); try assumption; [lia|]. destruct (prog_ok start step j) as (_ & -> & _); try assumption.
  apply rnd64_le. apply Rplus_le_compat_r. apply rnd64_le. apply Rmult_le_compat_r; [exact P|]. apply le_INR. exact L.
Qed.
Lemma prog_0 start step : fin start = true -> fin step = true -> Rabs (val start) <= B 900 -> Rabs (val step) <= B 902 -> val (prog start step 0) = val start.
Proof. intros. destruct (prog_ok start step 0) as (_ & -> & _); try assumption; [cbn; lia|]. cbn [INR]. rewrite Rmult_0_l, rnd64_0, Rplus_0_l. apply rnd64_val. Qed.
(** The step of a slice with n points. *)
Lemma slice_step start stop n : fin start = true -> fin stop = true -> Rabs (val start) <= B 900 -> Rabs (val stop) <= B 900 -> (2 <= n)%nat -> (Z.of_nat n <= 2 ^ 53)%Z ->
  let t := div64 (sub64 stop start) (of_Z64 (Z.of_nat n - 1)) in
  fin t = true /\ val t = rnd64 (rnd64 (val stop - val start) / INR (n - 1)) /\ Rabs (val t) <= B 902 /\ Rabs (rnd64 (val stop - val start)) <= B 901.
Proof.
  intros Fs Ft Hs Ht H1 H2 t. destruct (of_pred64 n ltac:(lia) H2) as [VN FN]. assert (E901 : B 901 = 2 * B 900) by (change 901%Z with (1 + 900)%Z; rewrite bpow_plus; reflexivity).
  assert (W : Rabs (val stop - val start) <= B 901). { unfold Rminus. eapply Rle_trans; [apply Rabs_triang|]. rewrite Rabs_Ropp. lra. }
  assert (WR := rnd64_bound _ 901 ltac:(lia) W).
  destruct (sub64_b stop start Ft Fs) as [F1 V1]. { eapply Rle_trans; [exact W|]. apply bpow_le. lia. }
  assert (N1 : 1 <= INR (n - 1)) by (apply (le_INR 1); lia).
  assert (Q : Rabs (rnd64 (val stop - val start) / INR (n - 1)) <= B 901).
  { unfold Rdiv. rewrite Rabs_mult. rewrite (Rabs_right (/ INR (n - 1))) by (apply Rle_ge, Rlt_le, Rinv_0_lt_compat; lra).
    rewrite <- (Rmult_1_r (B 901)). apply Rmult_le_compat; [apply Rabs_pos|apply Rlt_le, Rinv_0_lt_compat; lra|exact WR|]. rewrite <- Rinv_1. apply Rinv_le_contravar; lra. }
  destruct (div64_b (sub64 stop start) (of_Z64 (Z.of_nat n - 1)) F1) as [F2 V2]; [rewrite VN; lra|rewrite VN, V1; eapply Rle_trans; [exact Q|]; apply bpow_le; lia|].
  rewrite VN, V1 in V2. unfold t. split; [exact F2|]. split; [exact V2|]. split; [|exact WR]. rewrite V2. eapply Rle_trans; [apply (rnd64_bound _ 901 ltac:(lia) Q)|]. apply bpow_le. lia.
Qed.
Lemma mgrid_nth start stop n k v : nth_error (f_mgrid start stop n) k = Some v <-> (k < n)%nat /\ v = prog start (f_mgrid_step start stop n) k.
Proof.
  unfold f_mgrid. rewrite nth_error_map. destruct (Nat.lt_ge_cases k n) as [L|L].
  - rewrite (nth_error_nth' _ 0%nat) by (rewrite seq_length; exact L). rewrite seq_nth by exact L. cbn [option_map Nat.add]. unfold prog. split; [intros [= <-]; auto|intros [_ ->]; reflexivity].
  - replace (nth_error (seq 0 n) k) with (@None nat) by (symmetry; apply nth_error_None; rewrite seq_length; exact L). split; [discriminate|intros [? _]; lia].
Qed.
Lemma mgrid_step_ok start stop n : fin start = true -> fin stop = true -> Rabs (val start) <= B 900 -> Rabs (val stop) <= B 900 -> (1 <= n)%nat -> (Z.of_nat n <= 2 ^ 53)%Z ->
  fin (f_mgrid_step start stop n) = true /\ Rabs (val (f_mgrid_step start stop n)) <= B 902 /\ (val start <= val stop -> 0 <= val (f_mgrid_step start stop n)).
Proof.
  intros Fs Ft Hs Ht H1 H2. unfold f_mgrid_step. destruct (Nat.eqb_spec n 1) as [->|N].
  - destruct (of_Z64_exact 1 ltac:(lia)) as [V F]. rewrite V. split; [exact F|]. split; [rewrite Rabs_R1; change 1 with (B 0); apply bpow_le; lia|intros _; lra].
  - destruct (slice_step start stop n) as (F & V & A & _); try assumption; [lia|]. split; [exact F|]. split; [exact A|]. intros L. rewrite V. apply rnd_nonneg.
    apply div_nonneg; [apply rnd_nonneg; lra|]. apply (lt_INR 0). lia.
Qed.
Lemma mgrid_ascending start stop n : fin start = true -> fin stop = true -> Rabs (val start) <= B 900 -> Rabs (val stop) <= B 900 -> (1 <= n)%nat -> (Z.of_nat n <= 2 ^ 53)%Z ->
  val start <= val stop -> ascending (f_mgrid start stop n).
Proof.
  intros Fs Ft Hs Ht H1 H2 L. destruct (mgrid_step_ok start stop n) as (F & A & P); try assumption. specialize (P L). split.
  - apply Forall_forall. intros v I. apply In_nth_error in I. destruct I as [k I]. apply mgrid_nth in I. destruct I as [K ->]. apply prog_ok; try assumption. lia.
  - intros i j a b Lij I J. apply mgrid_nth in I, J. destruct I as [I ->], J as [J ->]. apply prog_mono; try assumption. lia.
Qed.
Lemma mgrid_finite start stop n : fin start = true -> fin stop = true -> Rabs (val start) <= B 900 -> Rabs (val stop) <= B 900 -> (1 <= n)%nat -> (Z.of_nat n <= 2 ^ 53)%Z -> Forall (fun v => fin v = true) (f_mgrid start stop n).
Proof.
  intros Fs Ft Hs Ht H1 H2. destruct (mgrid_step_ok start stop n) as (F & A & _); try assumption.
  apply Forall_forall. intros v I. apply In_nth_error in I. destruct I as [k I]. apply mgrid_nth in I. destruct I as [K ->]. apply prog_ok; try assumption. lia.
Qed.
(** Accuracy of a progression whose step is the rounded quotient. *)
Lemma small_prod a b c : Rabs a <= B (-53) -> Rabs b <= B (-53) -> Rabs c <= B (-53) -> Rabs ((1 + a) * (1 + b) * (1 + c) - 1) <= 3 * B (-53) + B (-53) * / 128.
Proof.
  intros A C D. pose proof small_facts as ((U0 & U1) & _). set (u := B (-53)) in *.
  replace ((1 + a) * (1 + b) * (1 + c) - 1) with (a + b + c + a * b + a * c + b * c + a * (b * c)) by ring.
  assert (Pab : Rabs (a * b) <= u * / 1024) by (rewrite Rabs_mult; apply Rmult_le_compat; try apply Rabs_pos; lra).
  assert (Pac : Rabs (a * c) <= u * / 1024) by (rewrite Rabs_mult; apply Rmult_le_compat; try apply Rabs_pos; lra).
  assert (Pbc : Rabs (b * c) <= u * / 1024) by (rewrite Rabs_mult; apply Rmult_le_compat; try apply Rabs_pos; lra).
  assert (Pabc : Rabs (a * (b * c)) <= u * / 1024) by (rewrite Rabs_mult; apply Rmult_le_compat; try apply Rabs_pos; lra).
  apply Rabs_le_inv in A, C, D, Pab, Pac, Pbc, Pabc. apply Rabs_le. lra.
Qed.
Lemma slice_err start stop n k : fin start = true -> fin stop = true -> Rabs (val start) <= B 900 -> Rabs (val stop) <= B 900 -> (2 <= n)%nat -> (Z.of_nat n <= 2 ^ 53)%Z -> (k < n)%nat ->
  let t := rnd64 (rnd64 (val stop - val start) / INR (n - 1)) in
  Rabs (rnd64 (INR k * t) - INR k * ((val stop - val start) / INR (n - 1))) <= 4 * B (-53) * (INR k / INR (n - 1) * Rabs (val stop - val start)) + INR k * B (-1074).
Proof.
  intros Fs Ft Hs Ht H1 H2 Hk t. destruct (slice_step start stop n) as (FT & VT & _); try assumption.
  fold t in VT. destruct (int_rel k (div64 (sub64 stop start) (of_Z64 (Z.of_nat n - 1)))) as (d3 & D3 & E3). rewrite VT in E3. rewrite E3.
  destruct (minus_rel stop start) as (d1 & D1 & E1). unfold t. rewrite E1. destruct (err64 ((val stop - val start) * (1 + d1) / INR (n - 1))) as (d2 & e2 & D2 & E2 & _ & ->).
  pose proof small_facts as ((U0 & U1) & _). assert (N1 : 1 <= INR (n - 1)) by (apply (le_INR 1); lia).
  set (w := val stop - val start) in *. set (N := INR (n - 1)) in *. set (K := INR k) in *. assert (K0 : 0 <= K) by apply pos_INR.
  replace (K * (w * (1 + d1) / N * (1 + d2) + e2) * (1 + d3) - K * (w / N)) with (K / N * w * ((1 + d1) * (1 + d2) * (1 + d3) - 1) + K * (e2 * (1 + d3))) by (field; lra).
  pose proof (small_prod d1 d2 d3 D1 D2 D3) as SP. assert (Q : 0 <= K / N * Rabs w) by (apply Rmult_le_pos; [apply div_nonneg; lra|apply Rabs_pos]).
  eapply Rle_trans; [apply Rabs_triang|]. apply Rplus_le_compat.
  - rewrite Rabs_mult, Rabs_mult, (Rabs_right (K / N)) by (apply Rle_ge, div_nonneg; lra). rewrite Rmult_comm. apply Rmult_le_compat_r; [exact Q|]. lra.
  - rewrite Rabs_mult, (Rabs_right K) by lra. apply Rmult_le_compat_l; [exact K0|]. rewrite Rabs_mult. assert (T : B (-1074) = B (-1075) * 2) by (change (-1074)%Z with (-1075 + 1)%Z; rewrite bpow_plus; reflexivity). rewrite T.
    apply Rmult_le_compat; [apply Rabs_pos|apply Rabs_pos|exact E2|]. apply Rabs_le_inv in D3. apply Rabs_le. lra.
Qed.
Lemma slice_accuracy start stop n k : fin start = true -> fin stop = true -> Rabs (val start) <= B 900 -> Rabs (val stop) <= B 900 -> (2 <= n)%nat -> (Z.of_nat n <= 2 ^ 53)%Z -> (k < n)%nat ->
  Rabs (val (prog start (div64 (sub64 stop start) (of_Z64 (Z.of_nat n - 1))) k) - exact_point (val start) (val stop) n k) <= B (-50) * (Rabs (val start) + Rabs (val stop)) + INR n * B (-1073).
Proof.
  intros Fs Ft Hs Ht H1 H2 Hk. destruct (slice_step start stop n) as (FT & VT & AT & _); try assumption.
  destruct (prog_ok start (div64 (sub64 stop start) (of_Z64 (Z.of_nat n - 1))) k) as (_ & -> & _); try assumption; [lia|]. rewrite VT.
  pose proof (slice_err start stop n k Fs Ft Hs Ht H1 H2 Hk) as SE. cbv zeta in SE.
  assert (PR : exists d, Rabs d <= B (-53) /\ rnd64 (rnd64 (INR k * rnd64 (rnd64 (val stop - val start) / INR (n - 1))) + val start) = (rnd64 (INR k * rnd64 (rnd64 (val stop - val start) / INR (n - 1))) + val start) * (1 + d)).
  { rewrite <- VT. destruct (of_nat64 k ltac:(lia)) as [VK FK]. destruct (mul64_b (of_Z64 (Z.of_nat k)) (div64 (sub64 stop start) (of_Z64 (Z.of_nat n - 1))) FK FT) as [F1 V1].
    - rewrite VK, Rabs_mult. pose proof (INR_small k ltac:(lia)). rewrite (Rabs_right (INR k)) by lra. apply Rle_trans with (B 53 * B 902); [apply Rmult_le_compat; [lra|apply Rabs_pos|lra|exact AT]|]. rewrite <- bpow_plus. apply bpow_le. lia.
    - rewrite VK in V1. rewrite <- V1. apply plus_rel. }
  destruct PR as (d & D & ->). set (p := rnd64 (INR k * _)) in *. unfold exact_point.
  set (w := val stop - val start) in *. set (x := INR k * (w / INR (n - 1))) in *.
  assert (N1 : 1 <= INR (n - 1)) by (apply (le_INR 1); lia). assert (KN : 0 <= INR k / INR (n - 1) <= 1).
  { split; [apply div_nonneg; [apply pos_INR|lra]|]. apply Rmult_le_reg_r with (INR (n - 1)); [lra|]. unfold Rdiv. rewrite Rmult_assoc, Rinv_l, Rmult_1_r, Rmult_1_l by lra. apply le_INR. lia. }
  set (T := Rabs (val start) + Rabs (val stop)) in *. assert (T0 : 0 <= T) by (unfold T; pose proof (Rabs_pos (val start)); pose proof (Rabs_pos (val stop)); lra).
  assert (WT : Rabs w <= T) by (unfold w, T, Rminus; eapply Rle_trans; [apply Rabs_triang|]; rewrite Rabs_Ropp; lra).
  assert (KW : INR k / INR (n - 1) * Rabs w <= T) by (rewrite <- (Rmult_1_l T); apply Rmult_le_compat; [lra|apply Rabs_pos|lra|exact WT]).
  assert (X : Rabs (val start + x) <= T).
  { (* a convex combination *) unfold x. replace (val start + INR k * (w / INR (n - 1))) with ((1 - INR k / INR (n - 1)) * val start + INR k / INR (n - 1) * val stop) by (unfold w; field; lra).
    set (q := INR k / INR (n - 1)) in *. eapply Rle_trans; [apply Rabs_triang|]. rewrite !Rabs_mult, (Rabs_right (1 - q)), (Rabs_right q) by lra. unfold T.
    apply Rplus_le_compat; [rewrite <- (Rmult_1_l (Rabs (val start))) at 2|rewrite <- (Rmult_1_l (Rabs (val stop))) at 2]; (apply Rmult_le_compat_r; [apply Rabs_pos|lra]). }
  pose proof small_facts as ((U0 & U1) & _ & _ & _ & -> & _). set (uu := B (-53)) in *.
  assert (KB : INR k * B (-1074) <= INR n * B (-1074)) by (apply Rmult_le_compat_r; [apply bpow_ge_0|apply le_INR; lia]).
  assert (E73 : B (-1073) = 2 * B (-1074)) by (change (-1073)%Z with (1 + -1074)%Z; rewrite bpow_plus; reflexivity). rewrite E73.
  assert (nb : 0 <= INR n * B (-1074)) by (apply Rmult_le_pos; [apply pos_INR|apply bpow_ge_0]). set (nn := INR n * B (-1074)) in *.
  assert (ER : Rabs (p - x) <= 4 * uu * T + nn). { eapply Rle_trans; [exact SE|]. apply Rplus_le_compat; [|exact KB]. apply Rmult_le_compat_l; [lra|exact KW]. }
  replace ((p + val start) * (1 + d) - (val start + x)) with ((p - x) + d * ((val start + x) + (p - x))) by ring.
  assert (uT : uu * T <= / 1024 * T) by (apply Rmult_le_compat_r; lra). assert (uT0 : 0 <= uu * T) by (apply Rmult_le_pos; lra).
  assert (Z : Rabs (d * ((val start + x) + (p - x))) <= uu * (T + (4 * uu * T + nn))).
  { rewrite Rabs_mult. apply Rmult_le_compat; [apply Rabs_pos|apply Rabs_pos|exact D|]. eapply Rle_trans; [apply Rabs_triang|]. lra. }
  eapply Rle_trans; [apply Rabs_triang|]. assert (u4 : 4 * uu * (uu * T) <= uu * T) by (rewrite <- (Rmult_1_l (uu * T)) at 2; apply Rmult_le_compat_r; lra).
  assert (un : uu * nn <= nn) by (rewrite <- (Rmult_1_l nn) at 2; apply Rmult_le_compat_r; lra).
  replace (uu * (T + (4 * uu * T + nn))) with (uu * T + 4 * uu * (uu * T) + uu * nn) in Z by ring. replace (INR n * (2 * B (-1074))) with (2 * nn) by (unfold nn; ring). lra.
Qed.
(** Going down: the last point is below the first. *)
Lemma nearest_rnd x f : generic_format radix2 FX f -> Rabs (rnd64 x - x) <= Rabs (f - x).
Proof. intros G. rewrite fexp_FLT. exact (proj2 (round_N_pt radix2 FX _ x) f G). Qed.
Lemma slice_down start stop n : fin start = true -> fin stop = true -> Rabs (val start) <= B 900 -> Rabs (val stop) <= B 900 -> (2 <= n)%nat -> (Z.of_nat n <= 2 ^ 53)%Z ->
  B (-900) <= val start - val stop -> val (prog start (div64 (sub64 stop start) (of_Z64 (Z.of_nat n - 1))) (n - 1)) < val start.
Proof.
  intros Fs Ft Hs Ht H1 H2 L. destruct (slice_step start stop n) as (FT & VT & AT & _); try assumption.
  destruct (prog_ok start (div64 (sub64 stop start) (of_Z64 (Z.of_nat n - 1))) (n - 1)) as (_ & -> & _); try assumption; [lia|]. rewrite VT.
  pose proof (slice_err start stop n (n - 1) Fs Ft Hs Ht H1 H2 ltac:(lia)) as SE. cbv zeta in SE. assert (N1 : 1 <= INR (n - 1)) by (apply (le_INR 1); lia).
  set (p := rnd64 (INR (n - 1) * _)) in *. replace (INR (n - 1) * ((val stop - val start) / INR (n - 1))) with (val stop - val start) in SE by (field; lra).
  replace (INR (n - 1) / INR (n - 1)) with 1 in SE by (field; lra). rewrite Rmult_1_l in SE.
  pose proof (u_pos (-900)). set (w := val start - val stop) in *. replace (Rabs (val stop - val start)) with w in SE by (rewrite Rabs_minus_sym; fold w; rewrite Rabs_right; lra).
  assert (SM : INR (n - 1) * B (-1074) <= B (-53) * w).
  { apply Rle_trans with (B 53 * B (-1074)); [apply Rmult_le_compat_r; [apply bpow_ge_0|]; apply INR_small; lia|]. apply Rle_trans with (B (-53) * B (-900)); [|apply Rmult_le_compat_l; [apply bpow_ge_0|exact L]].
    rewrite <- !bpow_plus. apply bpow_le. lia. }
  pose proof (format64 stop) as G. rewrite fexp_FLT in G. pose proof (nearest_rnd (p + val start) (val stop) G) as NR.
  assert (NR2 : Rabs (val stop - (p + val start)) <= 5 * B (-53) * w).
  { replace (val stop - (p + val start)) with (- (p - (val stop - val start))) by ring. rewrite Rabs_Ropp. eapply Rle_trans; [exact SE|]. lra. }
  pose proof small_facts as ((U0 & U1) & _). assert (uw : B (-53) * w <= / 1024 * w) by (apply Rmult_le_compat_r; lra).
  assert (NR3 := Rle_trans _ _ _ NR NR2). apply Rabs_le_inv in NR3. assert (P : p <= (val stop - val start) + 5 * (B (-53) * w)).
  { apply Rabs_le_inv in SE. lra. }
  unfold w in *. lra.
Qed.
