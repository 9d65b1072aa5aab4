From Coq Require Import Reals Lra Lia.
From Coquelicot Require Import Coquelicot.
From Verif Require Import Base CosmModel CosmProps PowModel PowProofs PowProofs2.
Local Open Scope R_scope.

(** ** EH99: no square root of a negative number is taken *)
Lemma sqrt24 f : 1 / 8 < f <= 1 -> 2 < sqrt (1 + 24 * f) <= 5.
Proof.
  intros [H1 H2]. split.
  - rewrite <- (sqrt_square 2) by lra. apply sqrt_lt_1; lra.
  - rewrite <- (sqrt_square 5) by lra. apply sqrt_le_1; lra.
Qed.
Lemma sqrt_le1 x : 0 <= x <= 1 -> 0 <= sqrt x <= 1.
Proof. intros [A B]. split; [apply sqrt_pos|]. rewrite <- sqrt_1. apply sqrt_le_1; lra. Qed.
Lemma nr_alpha c : sane c -> 0 < g_alpha_gamma (nr_eh99 c).
Proof.
  intros ([H1 H2] & [H3 H4] & H5 & H6). unfold nr_eh99, eh99_params, omega_l0. cbv zeta. cbn [g_alpha_gamma].
  destruct (Rle_dec 0 0) as [_|N]; [|lra].
  set (ob := if Rle_dec (omega_b0 c) 0 then 1 / 100000 else omega_b0 c). assert (Hob : 0 < ob <= omega_m0 c / 2) by (unfold ob; destruct (Rle_dec (omega_b0 c) 0); lra).
  assert (F1 : 0 < ob / omega_m0 c <= 1 / 2) by (split; [apply Rdiv_lt_0_compat; lra|apply (Rmult_le_reg_r (omega_m0 c)); [lra|unfold Rdiv; rewrite Rmult_assoc, Rinv_l by lra; lra]]).
  assert (F2 : 0 < 1 / 100000 / omega_m0 c <= 1 / 100) by (split; [apply Rdiv_lt_0_compat; lra|apply (Rmult_le_reg_r (omega_m0 c)); [lra|unfold Rdiv; rewrite Rmult_assoc, Rinv_l by lra; lra]]).
  assert (O : 0 < omega_m0 c * (hubble c * hubble c)) by (repeat apply Rmult_lt_0_compat; lra).
  set (fb := ob / omega_m0 c) in *. set (fh := 1 / 100000 / omega_m0 c) in *. set (om := omega_m0 c * (hubble c * hubble c)) in *. set (obh := ob * (hubble c * hubble c)) in *.
  match goal with |- context [1 + ?z / (1 + ?d)] => set (y := z / (1 + d)) end.
  assert (Y : 0 < y).
  { unfold y. apply Rdiv_lt_0_compat.
    - apply Rdiv_lt_0_compat; [lra|]. apply pow_lt, pow_lt. lra.
    - match goal with |- 0 < 1 + ?e => assert (0 <= e); [|lra] end. apply Rmult_le_pos.
      + apply Rmult_le_pos; [pose proof (npow_nonneg om (251 / 1000)); lra|]. left. apply Rinv_0_lt_compat. pose proof (npow_nonneg om (828 / 1000)). lra.
      + match goal with |- 0 <= 1 + ?e => assert (0 <= e); [|lra] end. apply Rmult_le_pos; [|apply npow_nonneg]. apply Rmult_le_pos; [pose proof (npow_nonneg om (- (419 / 1000))); lra|].
        pose proof (npow_nonneg om (674 / 1000)). lra. }
  clearbody y. clearbody fb fh.
  replace (1 - fb - fh + fb) with (1 - fh) by ring.
  destruct (sqrt24 (1 - fb - fh) ltac:(lra)) as [A1 A2]. destruct (sqrt24 (1 - fh) ltac:(lra)) as [B1 B2].
  assert (AB : sqrt (1 + 24 * (1 - fb - fh)) <= sqrt (1 + 24 * (1 - fh))) by (apply sqrt_le_1; lra).
  set (p := sqrt (1 + 24 * (1 - fb - fh))) in *. set (q := sqrt (1 + 24 * (1 - fh))) in *. clearbody p q.
  apply sqrt_lt_R0. destruct (sqrt_le1 (fh * 1) ltac:(lra)) as [S1 S2]. set (sh := sqrt (fh * 1)) in *. clearbody sh.
  rewrite npow_1. apply Rmult_lt_0_compat; [apply Rdiv_lt_0_compat; [apply Rmult_lt_0_compat; [apply Rmult_lt_0_compat|]|]|].
  - apply Rdiv_lt_0_compat; [|lra]. apply Rmult_lt_0_compat; [apply Rdiv_lt_0_compat; lra|lra].
  - apply npow_gt. lra.
  - nra.
  - lra.
  - assert (D : 0 < 1 / (3 - 4 * (1 / 4 * (5 - p))) / (7 - 4 * (1 / 4 * (5 - q)))) by (apply Rdiv_lt_0_compat; [apply Rdiv_lt_0_compat; lra|lra]).
    match goal with |- 0 < 1 + ?e => assert (0 <= e); [|lra] end. apply Rmult_le_pos; [|left; apply Rinv_0_lt_compat; lra]. apply Rmult_le_pos; lra.
Qed.

(** ** EH98 *)
(** The logarithm's series: ln((w+1)/(w-1)) > 2/w + 2/(3w^3) + 2/(5w^5). *)
Lemma ln_series t : 0 <= t < 1 -> 2 * t + 2 / 3 * t ^ 3 + 2 / 5 * t ^ 5 <= ln ((1 + t) / (1 - t)).
Proof.
  intros [H1 H2]. destruct (Req_dec t 0) as [->|N]; [replace ((1 + 0) / (1 - 0)) with 1 by field; rewrite ln_1; lra|].
  set (f := fun t => ln ((1 + t) / (1 - t)) - (2 * t + 2 / 3 * t ^ 3 + 2 / 5 * t ^ 5)).
  destruct (MVT_cor2 f (fun t => 2 * t ^ 6 / ((1 + t) * (1 - t))) 0 t ltac:(lra)) as (c & E & Hc).
  - intros c Hc. apply is_derive_Reals. unfold f. auto_derive; [split; [lra|split; [|trivial]]; apply Rdiv_lt_0_compat; lra|]. field. lra.
  - assert (F0 : f 0 = 0) by (unfold f; replace ((1 + 0) / (1 - 0)) with 1 by field; rewrite ln_1; ring). rewrite F0 in E.
    assert (0 <= 2 * c ^ 6 / ((1 + c) * (1 - c))). { unfold Rdiv. apply Rmult_le_pos; [|left; apply Rinv_0_lt_compat; apply Rmult_lt_0_compat; lra]. replace (c ^ 6) with ((c ^ 3) ^ 2) by ring. pose proof (sq_nonneg (c ^ 3)). lra. }
    unfold f in E. nra.
Qed.
Lemma G_pos y : 0 < y -> 0 < y * (- (6) * sqrt (1 + y) + (2 + 3 * y) * ln ((sqrt (1 + y) + 1) / (sqrt (1 + y) - 1))).
Proof.
  intros Hy. apply Rmult_lt_0_compat; [exact Hy|]. set (w := sqrt (1 + y)). assert (W2 : w * w = 1 + y) by (apply sqrt_sqrt; lra).
  assert (W1 : 1 < w) by (rewrite <- sqrt_1; unfold w; apply sqrt_lt_1; lra). replace (2 + 3 * y) with (3 * (w * w) - 1) by lra. clearbody w.
  assert (I : 0 < / w) by (apply Rinv_0_lt_compat; lra). assert (I1 : / w < 1) by (rewrite <- Rinv_1; apply Rinv_lt_contravar; lra).
  pose proof (ln_series (/ w) ltac:(lra)) as S. replace ((1 + / w) / (1 - / w)) with ((w + 1) / (w - 1)) in S by (field; lra).
  set (t := / w) in *. assert (WT : w * t = 1) by (unfold t; apply Rinv_r; lra).
  assert (B : (3 * (w * w) - 1) * (2 * t + 2 / 3 * t ^ 3 + 2 / 5 * t ^ 5) <= (3 * (w * w) - 1) * ln ((w + 1) / (w - 1))) by (apply Rmult_le_compat_l; [nra|exact S]).
  assert (E : (3 * (w * w) - 1) * (2 * t + 2 / 3 * t ^ 3 + 2 / 5 * t ^ 5) = 6 * w + 8 / 15 * t ^ 3 - 2 / 5 * t ^ 5).
  { replace (2 * t + 2 / 3 * t ^ 3 + 2 / 5 * t ^ 5) with (t * (2 + 2 / 3 * t ^ 2 + 2 / 5 * t ^ 4)) by ring.
    transitivity (6 * w * (w * t) + 2 * t * ((w * t) ^ 2 - 1) + 8 / 15 * t ^ 3 - 2 / 5 * t ^ 5 + (6 / 5 * t ^ 3 - 2 / 3 * t ^ 3 - 8 / 15 * t ^ 3) + 6 / 5 * t ^ 3 * ((w * t) ^ 2 - 1)); [|rewrite WT; field].
    field. }
  assert (T3 : 0 < t ^ 3) by (apply pow_lt; exact I). assert (T2 : t ^ 2 < 1) by nra. assert (t ^ 5 = t ^ 3 * t ^ 2) by ring.
  assert (t ^ 5 < t ^ 3) by nra. lra.
Qed.
