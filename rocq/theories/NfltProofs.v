(** Proofs for C94: the square root of a rounded square; sums of magnitudes that may overflow. *)
From Coq Require Import ZArith Reals Lra Lia List Permutation.
Require Import Flocq.Core.Core Flocq.IEEE754.BinarySingleNaN.
From Verif Require Import Base ProcFloat InterpFloatProofs MeshFloatProofs BinFloatProofs FredModel FredSpec FredProofs FredProofs2 FredProofs3 FredProofs4 FquaProofs NfltModel.
Import ListNotations. Local Open Scope list_scope. Local Open Scope R_scope.

Lemma format_pow e : (-1074 <= e)%Z -> rnd64 (B e) = B e.
Proof. intros H. apply format_FLT. apply generic_format_bpow. unfold FLT_exp. lia. Qed.
Lemma B53r : IZR (2 ^ 53) * u = 1.
Proof. exact B53. Qed.
(** In binary the rounded square root of a rounded square is the number itself. *)
Lemma sqrt_of_square x : generic_format radix2 FX x -> B (-510) <= x -> rnd64 (sqrt (rnd64 (x * x))) = x.
Proof.
  intros G H. assert (B0 : 0 < B (-510)) by apply bpow_gt_0.
  destruct (decompose x G) as (m & e & E & M & He); [apply Rle_trans with (2 := H); apply bpow_le; lia|].
  assert (Be : 0 < B e) by apply bpow_gt_0. assert (X0 : 0 < x) by lra.
  destruct (Z.eq_dec m (2 ^ 52)) as [->|Nm].
  - assert (Ex : x = B (52 + e)) by (rewrite E, bpow_plus; f_equal). assert (Q : x * x = B (2 * (52 + e))) by (rewrite Ex, <- bpow_plus; f_equal; lia).
    assert (L : (-510 <= 52 + e)%Z). { apply (le_bpow radix2). rewrite <- Ex. exact H. }
    rewrite Q, format_pow by lia. rewrite <- Q, sqrt_square by lra. rewrite fexp_FLT. apply round_generic; [apply valid_rnd_N|exact G].
  - assert (Mr : IZR (2 ^ 52) + 1 <= IZR m <= IZR (2 ^ 53) - 1). { split; [rewrite <- plus_IZR|rewrite <- minus_IZR]; apply IZR_le; lia. }
    assert (P52 : IZR (2 ^ 52) * u = / 2). { pose proof B53r as Q. replace (2 ^ 53)%Z with (2 * 2 ^ 52)%Z in Q by reflexivity. rewrite mult_IZR in Q. lra. }
    pose proof B53r as P53. pose proof u0 as U.
    assert (Sq : B (-1022) <= x * x).
    { apply Rle_trans with (B (-510) * B (-510)); [rewrite <- bpow_plus; apply bpow_le; lia|]. apply Rmult_le_compat; lra. }
    destruct (rel_err (x * x)) as (d & D & R); [right; rewrite Rabs_right by (apply Rle_ge, Rmult_le_pos; lra); exact Sq|]. rewrite R. set (w := x * x * (1 + d)). apply Rabs_le_inv in D.
    assert (M1 : 1 <= IZR (2 ^ 52)) by (apply IZR_le; lia). assert (B52 : B 52 = IZR (2 ^ 52)) by reflexivity. assert (B53' : B 53 = IZR (2 ^ 53)) by reflexivity.
    set (c52 := IZR (2 ^ 52)) in *. set (c53 := IZR (2 ^ 53)) in *. clearbody c52 c53.
    assert (MU : / 2 < IZR m * u <= 1 - u) by (split; [apply Rlt_le_trans with ((c52 + 1) * u); [lra|apply Rmult_le_compat_r; lra]|apply Rle_trans with ((c53 - 1) * u); [apply Rmult_le_compat_r; lra|lra]]).
    set (M2 := IZR m) in *.
    assert (W : (M2 - / 2) * (M2 - / 2) < M2 * M2 * (1 + d) < (M2 + / 2) * (M2 + / 2)).
    { assert (A : - (M2 * M2 * u) <= M2 * M2 * d <= M2 * M2 * u) by (assert (0 <= M2 * M2) by (apply Rmult_le_pos; lra); split; [replace (- (M2 * M2 * u)) with (M2 * M2 * - u) by ring|]; apply Rmult_le_compat_l; lra).
      assert (C : M2 * M2 * u <= M2 - / 2). { replace (M2 * M2 * u) with (M2 * (M2 * u)) by ring. apply Rle_trans with (M2 * (1 - u)); [apply Rmult_le_compat_l; lra|]. lra. }
      split; lra. }
    assert (Sw : sqrt w = B e * sqrt (M2 * M2 * (1 + d))).
    { unfold w. rewrite E. replace (M2 * B e * (M2 * B e) * (1 + d)) with (B e * B e * (M2 * M2 * (1 + d))) by ring. rewrite sqrt_mult_alt by (apply Rmult_le_pos; lra). rewrite sqrt_square by lra. reflexivity. }
    assert (Ub : M2 - / 2 < sqrt (M2 * M2 * (1 + d)) < M2 + / 2).
    { split.
      - rewrite <- (sqrt_square (M2 - / 2)) by lra. apply sqrt_lt_1_alt. split; [apply Rmult_le_pos; lra|apply W].
      - rewrite <- (sqrt_square (M2 + / 2)) by lra. apply sqrt_lt_1_alt. split; [apply Rle_trans with (2 := Rlt_le _ _ (proj1 W)); apply Rmult_le_pos; lra|apply W]. }
    set (r := sqrt (M2 * M2 * (1 + d))) in *. rewrite Sw.
    assert (Mg : mag radix2 (B e * r) = (e + 53)%Z :> Z).
    { apply mag_unique_pos. replace (e + 53 - 1)%Z with (e + 52)%Z by lia. rewrite !bpow_plus. rewrite B52, B53'. split; [apply Rmult_le_compat_l; lra|apply Rmult_lt_compat_l; lra]. }
    rewrite fexp_FLT. unfold round, scaled_mantissa, cexp. rewrite Mg. replace (FX (e + 53)%Z) with e by (unfold FLT_exp; lia).
    replace (B e * r * B (- e)) with r by (rewrite bpow_opp; field; lra).
    rewrite (Znearest_imp _ r m) by (fold M2; apply Rabs_def1; lra). unfold F2R. cbn [Fnum Fexp]. fold M2. rewrite E. reflexivity.
Qed.

Definition inf64 : b64 := B754_infinity false.
(** Not negative, not NaN; perhaps infinite. *)
Definition nneg (y : b64) : Prop := (fin y = true /\ 0 <= val y) \/ y = inf64.
Lemma nneg_add x y : nneg x -> nneg y -> nneg (add64 x y) /\ (add64 x y = inf64 \/ (fin x = true /\ fin y = true /\ fin (add64 x y) = true /\ val (add64 x y) = rnd64 (val x + val y))).
Proof.
  intros [[Fx Px]| ->] [[Fy Py]| ->].
  - pose proof (@Bplus_correct 53 1024 p53 pe53 mode_NE x y Fx Fy) as C. fold (add64 x y) in C. destruct (Rlt_bool _ _).
    + destruct C as (V & F & _). change (val (add64 x y) = rnd64 (val x + val y)) in V. assert (0 <= rnd64 (val x + val y)) by (rewrite <- rnd64_0; apply rnd64_le; lra).
      split; [left; split; [exact F|rewrite V; assumption]|right; repeat split; assumption].
    + destruct C as (V & S). assert (Sg : Bsign x = false \/ Bsign y = false).
      { destruct x as [[]|[]| |[] m e h]; try (left; reflexivity); try discriminate Fx; destruct y as [[]|[]| |[] m' e' h']; try (right; reflexivity); try discriminate Fy;
          try (exfalso; unfold add64 in V; cbn in V; discriminate V).
        all: exfalso; apply (Rlt_not_le _ _ (F2R_lt_0 radix2 (Float radix2 (Zneg m) e) ltac:(reflexivity))); exact Px. }
      assert (Sx : Bsign x = false) by (destruct Sg; congruence). rewrite Sx in V.
      assert (Q : add64 x y = inf64) by (apply B2SF_inj; exact V). rewrite Q. split; [right; reflexivity|left; reflexivity].
  - assert (Q : add64 x inf64 = inf64) by (destruct x as [[]|[]| |[] m e h]; try discriminate Fx; reflexivity). rewrite Q. split; [right; reflexivity|left; reflexivity].
  - assert (Q : add64 inf64 y = inf64) by (destruct y as [[]|[]| |[] m e h]; try discriminate Fy; reflexivity). rewrite Q. split; [right; reflexivity|left; reflexivity].
  - split; [right; reflexivity|left; reflexivity].
Qed.
Lemma nneg_sums d l s : sums d l s -> Forall nneg l -> nneg s /\ (s = inf64 \/ forall x, In x l -> fin x = true /\ val x <= val s).
Proof.
  induction 1 as [z F Z|x|d l s l' s' H IH H' IH'|d l l' s H IH P|d d' l s H IH L]; intros N.
  - split; [left; split; [exact F|lra]|right; intros x []].
  - inversion N as [|? ? N1 _]; subst. split; [exact N1|]. destruct N1 as [[F _]| ->]; [right|left; reflexivity]. intros y [<-|[]]. split; [exact F|lra].
  - apply Forall_app in N. destruct N as [N N']. destruct (IH N) as [A A1]. destruct (IH' N') as [A' A1']. destruct (nneg_add s s' A A') as [C C1]. split; [exact C|].
    destruct C1 as [C1|(F & F' & _ & V)]; [left; exact C1|right]. destruct A1 as [->|A1]; [discriminate F|]. destruct A1' as [->|A1']; [discriminate F'|]. destruct A as [[_ A]| ->]; [|discriminate F]. destruct A' as [[_ A']| ->]; [|discriminate F'].
    rewrite V. intros x I. apply in_app_or in I. destruct I as [I|I].
    + destruct (A1 x I) as [Fx Lx]. split; [exact Fx|]. rewrite <- (rnd64_val x). apply rnd64_le. lra.
    + destruct (A1' x I) as [Fx Lx]. split; [exact Fx|]. rewrite <- (rnd64_val x). apply rnd64_le. lra.
  - destruct IH as [A B']. { apply Forall_forall. intros x I. rewrite Forall_forall in N. apply N. apply (Permutation_in x P I). }
    split; [exact A|]. destruct B' as [B'|B']; [left; exact B'|right]. intros x I. apply B'. apply (Permutation_in x (Permutation_sym P) I).
  - apply IH, N.
Qed.
Lemma nneg_square v : fin v = true -> nneg (mul64 v v) /\ (mul64 v v = inf64 \/ (fin (mul64 v v) = true /\ val (mul64 v v) = rnd64 (val v * val v))).
Proof.
  intros F. pose proof (@Bmult_correct 53 1024 p53 pe53 mode_NE v v) as C. fold (mul64 v v) in C. destruct (Rlt_bool _ _).
  - destruct C as (V & Fm & _). change (is_finite v) with (fin v) in Fm. rewrite F in Fm. change (val (mul64 v v) = rnd64 (val v * val v)) in V. assert (0 <= rnd64 (val v * val v)) by (rewrite <- rnd64_0; apply rnd64_le; apply Rle_0_sqr).
    split; [left; split; [exact Fm|rewrite V; assumption]|right; split; assumption].
  - rewrite Bool.xorb_nilpotent in C. assert (Q : mul64 v v = inf64) by (apply B2SF_inj; exact C). rewrite Q. split; [right; reflexivity|left; reflexivity].
Qed.
Lemma nneg_squares x : finite x -> Forall nneg (times x x).
Proof. intros F. rewrite squares_map. apply Forall_forall. intros y I. apply in_map_iff in I. destruct I as (v & <- & I). unfold finite in F. rewrite Forall_forall in F. apply nneg_square, F, I. Qed.

(** The norm is at least each component (in magnitude), or infinite. *)
Lemma norm_ge total D x : adds total D -> finite x -> f_norm total x = inf64 \/
  (fin (f_norm total x) = true /\ 0 <= val (f_norm total x) /\ forall v, In v x -> B (-510) <= Rabs (val v) -> Rabs (val v) <= val (f_norm total x)).
Proof.
  intros A F. unfold f_norm. destruct (nneg_sums _ _ _ (A (times x x)) (nneg_squares x F)) as [[[Fs Ps]|Q] C]; [|left; rewrite Q; reflexivity].
  destruct C as [C|C]; [left; rewrite C; reflexivity|right]. destruct (sqrt64_val _ Fs Ps) as [Fr Vr]. split; [exact Fr|]. split; [rewrite Vr, <- rnd64_0; apply rnd64_le, sqrt_pos|].
  intros v I L. assert (Iv : In (mul64 v v) (times x x)) by (rewrite squares_map; apply (in_map (fun v => mul64 v v)); exact I). destruct (C _ Iv) as [Fm Lm].
  assert (Fv : fin v = true) by (unfold finite in F; rewrite Forall_forall in F; apply F, I). destruct (nneg_square v Fv) as [_ [Q|[_ Vm]]]; [rewrite Q in Fm; discriminate Fm|].
  rewrite Vr. assert (G : generic_format radix2 FX (Rabs (val v))) by (apply generic_format_abs; rewrite <- fexp_FLT; apply format64).
  rewrite <- (sqrt_of_square _ G L) at 1. apply rnd64_le. apply sqrt_le_1_alt. replace (Rabs (val v) * Rabs (val v)) with (val v * val v) by (rewrite <- Rabs_mult, Rabs_right; [reflexivity|apply Rle_ge, Rle_0_sqr]). rewrite <- Vm. exact Lm.
Qed.

Lemma div_inf v : fin v = true -> fin (div64 v inf64) = true /\ val (div64 v inf64) = 0.
Proof. destruct v as [[]|[]| |[] m e h]; intros F; try discriminate F; split; reflexivity. Qed.
Lemma lt_bool x y : fin x = true -> fin y = true -> Bltb x y = Rlt_bool (val x) (val y).
Proof. intros Fx Fy. exact (@Bltb_correct 53 1024 x y Fx Fy). Qed.
Lemma inf_lt y : fin y = true -> Bltb inf64 y = false.
Proof. destruct y as [[]|[]| |[] m e h]; intros F; try discriminate F; reflexivity. Qed.
(** No component leaves [-1, 1], and none changes its sign, whatever finite numbers come in. *)
Lemma normalize_range total D lo x : adds total D -> finite x -> fin lo = true -> B (-510) <= val lo ->
  Forall2 (fun v r => fin r = true /\ Rabs (val r) <= 1 /\ 0 <= val v * val r) x (f_normalize total lo x).
Proof.
  intros A F Fl Ll. assert (Bp : 0 < B (-510)) by apply bpow_gt_0. change (f_normalize total lo x) with (map (fun v => div64 v (if Bltb (f_norm total x) lo then lo else f_norm total x)) x). set (n := f_norm total x). set (n' := if Bltb n lo then lo else n).
  assert (N : n' = inf64 \/ (fin n' = true /\ 0 < val n' /\ forall v, In v x -> Rabs (val v) <= val n')).
  { destruct (norm_ge total D x A F) as [Q|(Fn & Pn & Gn)]; fold n in Q || fold n in Fn, Pn, Gn.
    - left. unfold n'. rewrite Q, inf_lt by exact Fl. reflexivity.
    - right. unfold n'. rewrite lt_bool by assumption. case Rlt_bool_spec; intros H.
      + split; [exact Fl|]. split; [lra|]. intros v I. destruct (Rle_or_lt (B (-510)) (Rabs (val v))) as [K|K]; [specialize (Gn v I K); lra|lra].
      + split; [exact Fn|]. split; [lra|]. intros v I. destruct (Rle_or_lt (B (-510)) (Rabs (val v))) as [K|K]; [apply (Gn v I K)|lra]. }
  clearbody n'. clear n. assert (G : forall v, In v x -> fin (div64 v n') = true /\ Rabs (val (div64 v n')) <= 1 /\ 0 <= val v * val (div64 v n')).
  { intros v I. assert (Fv : fin v = true) by (unfold finite in F; rewrite Forall_forall in F; apply F, I).
    destruct N as [->|(Fn & Pn & Gn)]; [destruct (div_inf v Fv) as [Fd Vd]; rewrite Vd, Rabs_R0; repeat split; [exact Fd|lra|lra]|].
    specialize (Gn v I). assert (Q : Rabs (val v / val n') <= 1) by (unfold Rdiv; rewrite Rabs_mult, (Rabs_right (/ val n')) by (left; apply Rinv_0_lt_compat; exact Pn); apply (Rmult_le_reg_r (val n')); [exact Pn|]; rewrite Rmult_assoc, Rinv_l by lra; lra).
    destruct (div64_b v n' Fv) as [Fd Vd]; [lra|apply Rle_trans with (1 := Q); change 1 with (B 0); apply bpow_le; lia|]. split; [exact Fd|]. rewrite Vd. split; [change 1 with (B 0) in Q |- *; apply rnd64_bound; [lia|exact Q]|].
    destruct (Rle_or_lt 0 (val v)) as [S|S].
    - apply Rmult_le_pos; [exact S|]. rewrite <- rnd64_0. apply rnd64_le. apply Rmult_le_pos; [exact S|left; apply Rinv_0_lt_compat, Pn].
    - assert (rnd64 (val v / val n') <= 0). { rewrite <- rnd64_0. apply rnd64_le. replace 0 with (0 * / val n') by ring. apply Rmult_le_compat_r; [left; apply Rinv_0_lt_compat, Pn|lra]. }
      replace (val v * rnd64 (val v / val n')) with ((- val v) * - rnd64 (val v / val n')) by ring. apply Rmult_le_pos; lra. }
  clear -G. induction x as [|v x IH]; constructor; [apply G; left; reflexivity|]. apply IH. intros w I. apply G. right. exact I.
Qed.
