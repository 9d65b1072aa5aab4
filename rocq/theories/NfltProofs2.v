(** Proofs for C94: accuracy of norms and of normalized vectors. *)
From Coq Require Import ZArith Reals Lra Lia List Permutation.
Require Import Flocq.Core.Core Flocq.IEEE754.BinarySingleNaN.
From Verif Require Import Base ProcFloat InterpFloatProofs MeshFloatProofs BinFloatProofs FredModel FredSpec FredProofs FredProofs2 FredProofs3 FredProofs4 FquaProofs NfltModel NfltSpec NfltProofs.
Import ListNotations. Local Open Scope list_scope. Local Open Scope R_scope.

Lemma sq_sum_ge0 x : 0 <= sq_sum x.
Proof. unfold sq_sum, Rsum. induction x as [|v x IH]; cbn; [lra|]. pose proof (Rle_0_sqr (val v)) as H. unfold Rsqr in H. lra. Qed.
Lemma sq_contrib x : contributions x (Some x) None = map (fun v => val v * val v) x.
Proof. unfold contributions, chosen. induction x as [|v x IH]; [reflexivity|]. cbn. f_equal. exact IH. Qed.
Lemma sq_size x : Rsize (contributions x (Some x) None) = sq_sum x.
Proof. rewrite sq_contrib. apply Rsum_nonneg. apply Forall_forall. intros r I. apply in_map_iff in I. destruct I as (v & <- & _). apply Rle_0_sqr. Qed.

Section Norm.
  Variables (total : list b64 -> b64) (D : nat -> nat) (x : list b64).
  Hypothesis A : adds total D.
  Hypothesis F : finite x.
  Hypothesis Hn : (Z.of_nat (length x) <= 2 ^ 53)%Z.
  Hypothesis Hd : INR (D (length x)) * eps <= / 8.
  Hypothesis Hs : sq_sum x <= B 1020.
  Let d := INR (D (length x)).
  Lemma d_ge0 : 0 <= d. Proof. apply pos_INR. Qed.
  Lemma sum_facts : fin (total (times x x)) = true /\ 0 <= val (total (times x x)) /\ Rabs (val (total (times x x)) - sq_sum x) <= (d + 1) * eps * sq_sum x + B (-1021).
  Proof.
    assert (W : well_formed x (Some x) None). { split; [exact F|]. split; [intros w E; injection E as <-; split; [exact F|reflexivity]|intros m E; discriminate E]. }
    assert (Q : f_sum total x (Some x) None = total (times x x)) by reflexivity.
    destruct (sum_weighted total D x (Some x) None A W Hn) as [Fs Es]; [lra|rewrite sq_size; exact Hs|]. rewrite Q in *. rewrite sq_size in Es.
    assert (E2 : Rsum (contributions x (Some x) None) = sq_sum x) by (rewrite sq_contrib; reflexivity). rewrite E2 in Es.
    split; [exact Fs|]. split.
    - destruct (nneg_sums _ _ _ (A (times x x)) (nneg_squares x F)) as [[[_ P]|P] _]; [exact P|]. rewrite P in Fs. discriminate Fs.
    - apply Rle_trans with (1 := Es). apply Rplus_le_compat_l. apply Rle_trans with (B 53 * B (-1074)); [|rewrite <- bpow_plus; apply Rle_refl].
      apply Rmult_le_compat_r; [apply bpow_ge_0|]. rewrite INR_IZR_INZ. change (B 53) with (IZR (2 ^ 53)). apply IZR_le, Hn.
  Qed.
  Lemma eps_facts : 0 < eps <= / 512.
  Proof. rewrite eps_u. pose proof small_facts as ([U1 U2] & _). lra. Qed.
  Lemma norm_close : B (-900) <= sq_sum x -> fin (f_norm total x) = true /\ Rabs (val (f_norm total x) - sqrt (sq_sum x)) <= (d + 3) * eps * sqrt (sq_sum x).
  Proof.
    intros L. destruct sum_facts as (Fs & Ps & Es). destruct (sqrt64_val _ Fs Ps) as [Fr Vr]. unfold f_norm. split; [exact Fr|]. rewrite Vr. clear Vr Fr.
    set (w := val (total (times x x))) in *. set (S := sq_sum x) in *. pose proof eps_facts as [E0 E1]. pose proof d_ge0 as D0. assert (B9 : 0 < B (-900)) by apply bpow_gt_0.
    assert (Tiny : B (-1021) <= / 4 * eps * S).
    { apply Rle_trans with (/ 4 * eps * B (-900)); [|apply Rmult_le_compat_l; lra]. replace (/ 4) with (B (-2)) by reflexivity. unfold eps. rewrite <- !bpow_plus. apply bpow_le. lia. }
    assert (Ew : Rabs (w - S) <= (d + 5 / 4) * eps * S) by lra. clear Es Tiny.
    assert (De : (d + 5 / 4) * eps <= / 4) by (unfold d in *; lra).
    assert (S0 : 0 < S) by lra. assert (Sq : 0 < sqrt S) by (apply sqrt_lt_R0, S0).
    assert (W0 : / 2 * S <= w). { apply Rabs_le_inv in Ew. assert ((d + 5 / 4) * eps * S <= / 4 * S) by (apply Rmult_le_compat_r; lra). lra. }
    assert (Q : Rabs (sqrt w - sqrt S) <= (d + 5 / 4) * eps * sqrt S).
    { assert (X : (sqrt w - sqrt S) * (sqrt w + sqrt S) = w - S). { rewrite <- (sqrt_sqrt w) at 3 by lra. rewrite <- (sqrt_sqrt S) at 3 by lra. ring. }
      pose proof (sqrt_pos w) as P. assert (Y : Rabs (sqrt w - sqrt S) * (sqrt w + sqrt S) = Rabs (w - S)) by (rewrite <- X, Rabs_mult, (Rabs_right (sqrt w + sqrt S)) by lra; reflexivity).
      apply (Rmult_le_reg_r (sqrt S)); [exact Sq|]. apply Rle_trans with (Rabs (sqrt w - sqrt S) * (sqrt w + sqrt S)); [apply Rmult_le_compat_l; [apply Rabs_pos|lra]|]. rewrite Y, Rmult_assoc, sqrt_sqrt by lra. exact Ew. }
    assert (R0 : B (-1022) <= sqrt w).
    { rewrite <- (Rmult_1_l (B (-1022))). apply Rle_trans with (B (-460)); [rewrite Rmult_1_l; apply bpow_le; lia|]. rewrite <- (R_sqrt.sqrt_square (B (-460))) by apply bpow_ge_0. apply sqrt_le_1_alt. rewrite <- bpow_plus. apply Rle_trans with (2 := W0).
      apply Rle_trans with (/ 2 * B (-900)); [|apply Rmult_le_compat_l; lra]. change (/ 2) with (B (-1)). rewrite <- bpow_plus. apply bpow_le. lia. }
    destruct (rel_err (sqrt w)) as (t & T & R); [right; rewrite Rabs_right by (apply Rle_ge, sqrt_pos); exact R0|]. rewrite R.
    assert (Bq : sqrt w <= 5 / 4 * sqrt S). { apply Rabs_le_inv in Q. assert ((d + 5 / 4) * eps * sqrt S <= / 4 * sqrt S) by (apply Rmult_le_compat_r; lra). lra. }
    replace (sqrt w * (1 + t) - sqrt S) with ((sqrt w - sqrt S) + sqrt w * t) by ring. apply Rle_trans with (1 := Rabs_triang _ _). rewrite Rabs_mult, (Rabs_right (sqrt w)) by (apply Rle_ge, sqrt_pos).
    assert (Z : sqrt w * Rabs t <= 5 / 4 * sqrt S * eps). { apply Rmult_le_compat; [apply sqrt_pos|apply Rabs_pos|exact Bq|]. apply Rle_trans with (1 := T). rewrite eps_u. pose proof u0. lra. }
    assert (0 <= eps * sqrt S) by (apply Rmult_le_pos; lra). replace ((d + 3) * eps * sqrt S) with ((d + 5 / 4) * eps * sqrt S + 7 / 4 * (eps * sqrt S)) by field. lra.
  Qed.
  Lemma norm_small : sq_sum x <= B (-900) -> fin (f_norm total x) = true /\ 0 <= val (f_norm total x) <= B (-449).
  Proof.
    intros L. destruct sum_facts as (Fs & Ps & Es). destruct (sqrt64_val _ Fs Ps) as [Fr Vr]. unfold f_norm. split; [exact Fr|]. rewrite Vr. split; [rewrite <- rnd64_0; apply rnd64_le, sqrt_pos|].
    rewrite <- (format_pow (-449)) by lia. apply rnd64_le. rewrite <- (R_sqrt.sqrt_square (B (-449))) by apply bpow_ge_0. apply sqrt_le_1_alt. rewrite <- bpow_plus.
    pose proof eps_facts as [E0 E1]. pose proof (sq_sum_ge0 x) as S0. assert (De : (d + 1) * eps <= 1) by (unfold d in *; lra). apply Rabs_le_inv in Es.
    assert ((d + 1) * eps * sq_sum x <= 1 * sq_sum x) by (apply Rmult_le_compat_r; lra). assert (B (-1021) <= B (-900)) by (apply bpow_le; lia).
    replace (B (-449 + -449)) with (4 * B (-900)) by (change 4 with (B 2); rewrite <- bpow_plus; reflexivity). lra.
  Qed.

  Variable lo : b64.
  Hypothesis Fl : fin lo = true.
  Hypothesis Hl : B (-400) <= val lo <= B 900.
  (** The divisor. *)
  Definition divisor := if Bltb (f_norm total x) lo then lo else f_norm total x.
  Let N := Rmax (sqrt (sq_sum x)) (val lo).
  Lemma k_small : 0 < (d + 3) * eps <= / 4.
  Proof. pose proof eps_facts as [E0 E1]. pose proof d_ge0. split; [apply Rmult_lt_0_compat; lra|unfold d in *; lra]. Qed.
  Lemma divisor_close : fin divisor = true /\ Rabs (val divisor - N) <= (d + 3) * eps * N /\ B (-400) <= N.
  Proof.
    pose proof k_small as [K0 K1]. assert (B4 : 0 < B (-400)) by apply bpow_gt_0. unfold N. pose proof (Rmax_r (sqrt (sq_sum x)) (val lo)) as M2. split; [|split; [|lra]].
    - unfold divisor. destruct (Bltb _ _); [exact Fl|]. destruct (Rle_or_lt (B (-900)) (sq_sum x)) as [H|H]; [apply norm_close, H|apply norm_small; lra].
    - destruct (Rle_or_lt (B (-900)) (sq_sum x)) as [H|H].
      + destruct (norm_close H) as [Fn Cn]. unfold divisor. rewrite lt_bool by assumption. set (n := val (f_norm total x)) in *. set (s := sqrt (sq_sum x)) in *. pose proof (sqrt_pos (sq_sum x)) as P. fold s in P. apply Rabs_le_inv in Cn.
        set (k := (d + 3) * eps) in *. clearbody k. unfold Rmax. destruct (Rle_dec s (val lo)) as [Q|Q]; case Rlt_bool_spec; intros G.
        * rewrite Rminus_eq_0, Rabs_R0. apply Rmult_le_pos; lra.
        * fold n. rewrite Rabs_right by lra. assert (k * s <= k * val lo) by (apply Rmult_le_compat_l; lra). lra.
        * assert (k * val lo <= k * s) by (apply Rmult_le_compat_l; lra). apply Rabs_le. lra.
        * fold n. apply Rabs_le. lra.
      + destruct (norm_small ltac:(lra)) as [Fn [P1 P2]]. assert (B (-449) < B (-400)) by (apply bpow_lt; lia). unfold divisor. rewrite lt_bool by assumption. case Rlt_bool_spec; intros G; [|lra].
        assert (Q : sqrt (sq_sum x) <= val lo).
        { apply Rle_trans with (B (-449)); [|lra]. rewrite <- (R_sqrt.sqrt_square (B (-449))) by apply bpow_ge_0. apply sqrt_le_1_alt. rewrite <- bpow_plus. assert (B (-900) <= B (-449 + -449)) by (apply bpow_le; lia). lra. }
        rewrite Rmax_right by exact Q. rewrite Rminus_eq_0, Rabs_R0. apply Rmult_le_pos; lra.
  Qed.
  Lemma component v : In v x -> fin (div64 v divisor) = true /\ Rabs (val (div64 v divisor) - val v / N) <= (2 * d + 8) * eps * (Rabs (val v) / N) + B (-1075).
  Proof.
    intros I. destruct divisor_close as (Fn & Cn & Nl). pose proof k_small as [K0 K1]. pose proof eps_facts as [E0 E1]. pose proof d_ge0 as D0. set (k := (d + 3) * eps) in *. assert (B4 : 0 < B (-400)) by apply bpow_gt_0.
    assert (Fv : fin v = true) by (unfold finite in F; rewrite Forall_forall in F; apply F, I). set (n := val divisor) in *.
    assert (N0 : 0 < N) by lra. apply Rabs_le_inv in Cn. assert (kN : k * N <= / 4 * N) by (apply Rmult_le_compat_r; lra). assert (n0 : 3 / 4 * N <= n) by lra.
    assert (V1 : Rabs (val v) <= N).
    { unfold N. apply Rle_trans with (2 := Rmax_l _ _). rewrite <- (sqrt_Rsqr_abs (val v)). apply sqrt_le_1_alt. unfold Rsqr, sq_sum. clear -I. induction x as [|w l IH]; [destruct I|].
      cbn [map]. unfold Rsum in *. cbn [fold_right]. pose proof (sq_sum_ge0 l) as P. unfold sq_sum, Rsum in P. pose proof (Rle_0_sqr (val w)) as P2. unfold Rsqr in P2. destruct I as [->|I]; [lra|]. specialize (IH I). lra. }
    pose proof (Rabs_pos (val v)) as V0.
    assert (Rq : Rabs (val v / n - val v / N) <= 4 / 3 * k * (Rabs (val v) / N)).
    { replace (val v / n - val v / N) with (val v / N * ((N - n) / n)) by (field; lra). rewrite Rabs_mult. unfold Rdiv at 1. rewrite Rabs_mult, (Rabs_right (/ N)) by (left; apply Rinv_0_lt_compat; lra).
      rewrite (Rmult_comm (4 / 3 * k)). apply Rmult_le_compat_l; [apply Rmult_le_pos; [lra|left; apply Rinv_0_lt_compat; lra]|]. unfold Rdiv. rewrite Rabs_mult, (Rabs_right (/ n)) by (left; apply Rinv_0_lt_compat; lra).
      apply (Rmult_le_reg_r n); [lra|]. rewrite Rmult_assoc, Rinv_l, Rmult_1_r by lra. apply Rle_trans with (k * N); [apply Rabs_le; lra|]. assert (k * (3 / 4 * N) <= k * n) by (apply Rmult_le_compat_l; lra). lra. }
    set (q := Rabs (val v) / N) in *. assert (q0 : 0 <= q <= 1). { unfold q. split; [apply Rmult_le_pos; [lra|left; apply Rinv_0_lt_compat; lra]|]. apply (Rmult_le_reg_r N); [lra|]. unfold Rdiv. rewrite Rmult_assoc, Rinv_l by lra. lra. }
    assert (qa : Rabs (val v / N) = q) by (unfold q, Rdiv; rewrite Rabs_mult, (Rabs_right (/ N)) by (left; apply Rinv_0_lt_compat; lra); reflexivity).
    assert (Vn : Rabs (val v / n) <= 4 / 3 * q). { replace (val v / n) with ((val v / n - val v / N) + val v / N) by ring. apply Rle_trans with (1 := Rabs_triang _ _). rewrite qa. assert (4 / 3 * k * q <= 4 / 3 * / 4 * q) by (apply Rmult_le_compat_r; lra). lra. }
    destruct (div64_b v divisor Fv) as [Fd Vd]; [fold n; lra|fold n; apply Rle_trans with 2; [lra|]; change 2 with (B 1); apply bpow_le; lia|]. fold n in Vd. split; [exact Fd|]. rewrite Vd.
    destruct (err64 (val v / n)) as (t & e & T & E & _ & R). rewrite R. replace (val v / n * (1 + t) + e - val v / N) with ((val v / n - val v / N) + (val v / n * t + e)) by ring.
    apply Rle_trans with (1 := Rabs_triang _ _). assert (Z : Rabs (val v / n * t + e) <= 2 / 3 * eps * q + B (-1075)).
    { apply Rle_trans with (1 := Rabs_triang _ _). apply Rplus_le_compat; [|exact E]. rewrite Rabs_mult. apply Rle_trans with (4 / 3 * q * u); [apply Rmult_le_compat; [apply Rabs_pos|apply Rabs_pos|exact Vn|exact T]|]. rewrite eps_u. lra. }
    assert (Eq : 0 <= eps * q) by (apply Rmult_le_pos; lra). assert (Dq : 0 <= d * (eps * q)) by (apply Rmult_le_pos; lra). replace (4 / 3 * k * q) with (4 / 3 * (d * (eps * q)) + 4 * (eps * q)) in Rq by (unfold k; field).
    replace ((2 * d + 8) * eps * q) with (2 * (d * (eps * q)) + 8 * (eps * q)) by ring. lra.
  Qed.
End Norm.
