(** Proofs for C92: np.arange, np.linspace and from_data_range. *)
From Coq Require Import ZArith Reals Lra Lia List Bool.
Require Import Flocq.Core.Core Flocq.IEEE754.BinarySingleNaN.
From Verif Require Import Base ProcFloat InterpFloatProofs MeshFloatModel MeshFloatProofs BinFloatModel BinFloatSpec BinFloatProofs FredModel FredSpec FredProofs FredProofs2 FredProofs3 FredProofs4 FquaModel FquaSpec FquaProofs FquaProofs2 GfltModel GfltSpec GfltProofs GfltProofs2 GfltProofs3 BinFloatProps FquaProps.
Import ListNotations. Local Open Scope list_scope. Local Open Scope R_scope.

Section arange.
Variables start step : b64.
Hypothesis Fs : fin start = true.
Hypothesis Ft : fin step = true.
Hypothesis Hs : Rabs (val start) <= B 900.
Hypothesis Ht : 0 < val step <= B 900.
Let s := add64 start step.
Let d := sub64 s start.
Lemma E901 k k' : k' = (1 + k)%Z -> B k' = 2 * B k. Proof. intros ->. rewrite bpow_plus. reflexivity. Qed.
Lemma second_ok : fin s = true /\ val s = rnd64 (val start + val step) /\ val start <= val s /\ Rabs (val s) <= B 901.
Proof.
  assert (S : Rabs (val start + val step) <= B 901) by (eapply Rle_trans; [apply Rabs_triang|]; rewrite (Rabs_right (val step)) by lra; rewrite (E901 900 901 eq_refl); lra).
  destruct (add64_b start step Fs Ft) as [F V]; [eapply Rle_trans; [exact S|]; apply bpow_le; lia|]. split; [exact F|]. split; [exact V|]. split.
  - unfold s. rewrite V. rewrite <- (rnd64_val start) at 1. apply rnd64_le. lra.
  - unfold s. rewrite V. apply rnd64_bound; [lia|exact S].
Qed.
Lemma delta_ok : fin d = true /\ val d = rnd64 (val s - val start) /\ 0 <= val d <= B 902 /\ val s - val start <= 2 * val d.
Proof.
  destruct second_ok as (F & V & L & A). assert (W : Rabs (val s - val start) <= B 902).
  { unfold Rminus. eapply Rle_trans; [apply Rabs_triang|]. rewrite Rabs_Ropp, (E901 901 902 eq_refl). pose proof (bpow_le radix2 900 901 ltac:(lia)). lra. }
  destruct (sub64_b s start F Fs) as [F2 V2]; [eapply Rle_trans; [exact W|]; apply bpow_le; lia|]. split; [exact F2|]. split; [exact V2|].
  assert (P : 0 <= val d) by (unfold d; rewrite V2; apply rnd_nonneg; lra). split; [split; [exact P|]|].
  - unfold d in *. rewrite V2 in *. pose proof (rnd64_bound _ 902 ltac:(lia) W) as Q. rewrite Rabs_right in Q by lra. exact Q.
  - unfold d. rewrite V2. destruct (minus_rel s start) as (e & He & ->). pose proof small_facts as ((U0 & U1) & _). apply Rabs_le_inv in He.
    assert (K : (val s - val start) * 1 <= (val s - val start) * (2 * (1 + e))) by (apply Rmult_le_compat_l; lra). lra.
Qed.
Lemma arange_ok i : (Z.of_nat i <= 2 ^ 53)%Z -> fin (f_arange_at start step i) = true /\ ((2 <= i)%nat -> val (f_arange_at start step i) = rnd64 (val start + rnd64 (INR i * val d))).
Proof.
  intros Hi. destruct second_ok as (F1 & _). destruct delta_ok as (F2 & _ & D & _). destruct i as [|[|i]]; [split; [exact Fs|lia]|split; [exact F1|lia]|].
  set (j := S (S i)) in *. change (f_arange_at start step j) with (add64 start (mul64 (of_Z64 (Z.of_nat j)) d)).
  destruct (of_nat64 j Hi) as [VK FK]. pose proof (INR_small j Hi) as [K0 K1].
  assert (P : Rabs (INR j * val d) <= B 955).
  { rewrite Rabs_mult, (Rabs_right (INR j)), (Rabs_right (val d)) by lra. change 955%Z with (53 + 902)%Z. rewrite bpow_plus. apply Rmult_le_compat; lra. }
  assert (PR := rnd64_bound _ 955 ltac:(lia) P).
  destruct (mul64_b (of_Z64 (Z.of_nat j)) d FK F2) as [G1 V1]. { rewrite VK. eapply Rle_trans; [exact P|]. apply bpow_le. lia. }
  rewrite VK in V1. destruct (add64_b start _ Fs G1) as [G2 V2].
  { rewrite V1. eapply Rle_trans; [apply Rabs_triang|]. pose proof (bpow_le radix2 900 955 ltac:(lia)). pose proof (bpow_le radix2 956 1023 ltac:(lia)). pose proof (E901 955 956 eq_refl). lra. }
  split; [exact G2|]. intros _. rewrite V2, V1. reflexivity.
Qed.
Lemma arange_step i : (Z.of_nat (S i) <= 2 ^ 53)%Z -> val (f_arange_at start step i) <= val (f_arange_at start step (S i)).
Proof.
  intros Hi. destruct second_ok as (F1 & V1 & L1 & A1). destruct delta_ok as (F2 & V2 & D & D2). destruct i as [|[|i]].
  - exact L1.
  - destruct (arange_ok 2 ltac:(lia)) as [_ V]. rewrite (V ltac:(lia)). change (f_arange_at start step 1) with s.
    assert (T : rnd64 (INR 2 * val d) = 2 * val d). { change (INR 2) with 2. apply rnd_twice; [exact F2|]. rewrite Rabs_right by lra. eapply Rle_trans; [apply D|]. apply bpow_le. lia. }
    rewrite T. rewrite <- (rnd64_val s). apply rnd64_le. lra.
  - destruct (arange_ok (S (S i)) ltac:(lia)) as [_ Va]. destruct (arange_ok (S (S (S i))) ltac:(lia)) as [_ Vb]. rewrite (Va ltac:(lia)), (Vb ltac:(lia)).
    apply rnd64_le, Rplus_le_compat_l, rnd64_le, Rmult_le_compat_r; [lra|]. apply le_INR. lia.
Qed.
Lemma arange_accuracy i : (1 <= i)%nat -> (Z.of_nat i <= 2 ^ 53)%Z ->
  Rabs (val (f_arange_at start step i) - (val start + INR i * val step)) <= B (-50) * (INR i * (Rabs (val start) + val step)).
Proof.
  intros H1 Hi. destruct second_ok as (F1 & V1 & _). destruct delta_ok as (F2 & V2 & D & _). pose proof small_facts as ((U0 & U1) & _ & _ & _ & -> & _).
  destruct (plus_rel start step) as (d1 & D1 & E1). rewrite E1 in V1. set (T := Rabs (val start) + val step). pose proof (Rabs_pos (val start)).
  assert (T0 : 0 < T) by (unfold T; lra). assert (AS : Rabs (val start + val step) <= T) by (unfold T; eapply Rle_trans; [apply Rabs_triang|]; rewrite (Rabs_right (val step)); lra).
  set (u := B (-53)) in *. assert (uT : 0 < u * T) by (apply Rmult_lt_0_compat; lra). assert (uuT : u * (u * T) <= / 1024 * (u * T)) by (apply Rmult_le_compat_r; lra).
  destruct i as [|[|i]]; [lia| |].
  - change (f_arange_at start step 1) with s. cbn [INR]. rewrite V1. replace (_ - _) with ((val start + val step) * d1) by ring. rewrite Rabs_mult.
    assert (Rabs (val start + val step) * Rabs d1 <= T * u) by (apply Rmult_le_compat; try apply Rabs_pos; assumption). lra.
  - set (j := S (S i)) in *. destruct (arange_ok j Hi) as [_ V]. rewrite (V ltac:(lia)). clear V.
    destruct (minus_rel s start) as (d2 & D2 & E2). rewrite E2, V1 in V2. destruct (int_rel j d) as (d3 & D3 & E3).
    assert (PR : exists d4, Rabs d4 <= u /\ rnd64 (val start + rnd64 (INR j * val d)) = (val start + rnd64 (INR j * val d)) * (1 + d4)).
    { destruct (of_nat64 j Hi) as [VK FK]. pose proof (INR_small j Hi) as [K0 K1]. destruct (mul64_b (of_Z64 (Z.of_nat j)) d FK F2) as [G1 W1].
      - rewrite VK, Rabs_mult, (Rabs_right (INR j)), (Rabs_right (val d)) by lra. apply Rle_trans with (B 53 * B 902); [apply Rmult_le_compat; lra|]. rewrite <- bpow_plus. apply bpow_le. lia.
      - rewrite VK in W1. rewrite <- W1. apply plus_rel. }
    destruct PR as (d4 & D4 & ->). rewrite E3. clear E1 E2 E3. assert (J1 : 2 <= INR j) by (apply (le_INR 2); lia). set (J := INR j) in *.
    (* delta *)
    assert (ED : Rabs (val d - val step) <= 2 * (u * T) + u * (u * T)).
    { rewrite V2. replace (((val start + val step) * (1 + d1) - val start) * (1 + d2) - val step) with (val step * d2 + (val start + val step) * d1 + (val start + val step) * d1 * d2) by ring.
      assert (Q1 : Rabs (val step * d2) <= T * u) by (rewrite Rabs_mult, (Rabs_right (val step)) by lra; apply Rmult_le_compat; [lra|apply Rabs_pos|unfold T; lra|exact D2]).
      assert (Q2 : Rabs ((val start + val step) * d1) <= T * u) by (rewrite Rabs_mult; apply Rmult_le_compat; try apply Rabs_pos; assumption).
      assert (Q3 : Rabs ((val start + val step) * d1 * d2) <= T * u * u) by (rewrite Rabs_mult; apply Rmult_le_compat; try apply Rabs_pos; assumption).
      eapply Rle_trans; [apply Rabs_triang|]. eapply Rle_trans; [apply Rplus_le_compat_r, Rabs_triang|]. lra. }
    assert (ED' : Rabs (val d - val step) <= (2 + / 1024) * (u * T)) by lra. clear ED V2.
    assert (DT : Rabs (val d) <= T + / 256 * T).
    { replace (val d) with (val step + (val d - val step)) by ring. eapply Rle_trans; [apply Rabs_triang|]. rewrite (Rabs_right (val step)) by lra. assert (u * T <= / 1024 * T) by (apply Rmult_le_compat_r; lra). unfold T in *. lra. }
    (* product *)
    assert (EP : Rabs (J * val d * (1 + d3) - J * val step) <= J * ((3 + / 64) * (u * T))).
    { replace (J * val d * (1 + d3) - J * val step) with (J * ((val d - val step) + val d * d3)) by ring. rewrite Rabs_mult, (Rabs_right J) by lra. apply Rmult_le_compat_l; [lra|].
      eapply Rle_trans; [apply Rabs_triang|]. assert (Q : Rabs (val d * d3) <= (T + / 256 * T) * u) by (rewrite Rabs_mult; apply Rmult_le_compat; try apply Rabs_pos; assumption). lra. }
    set (p := J * val d * (1 + d3)) in *.
    assert (JT : 0 < J * (u * T)) by (apply Rmult_lt_0_compat; lra).
    assert (AX : Rabs (val start + J * val step) <= J * T).
    { eapply Rle_trans; [apply Rabs_triang|]. rewrite (Rabs_right (J * val step)) by (apply Rle_ge, Rmult_le_pos; lra). unfold T. rewrite Rmult_plus_distr_l. apply Rplus_le_compat_r.
      rewrite <- (Rmult_1_l (Rabs (val start))) at 1. apply Rmult_le_compat_r; lra. }
    replace ((val start + p) * (1 + d4) - (val start + J * val step)) with ((p - J * val step) + d4 * ((val start + J * val step) + (p - J * val step))) by ring.
    eapply Rle_trans; [apply Rabs_triang|]. assert (Z : Rabs (d4 * ((val start + J * val step) + (p - J * val step))) <= u * (J * T + J * ((3 + / 64) * (u * T)))).
    { rewrite Rabs_mult. apply Rmult_le_compat; [apply Rabs_pos|apply Rabs_pos|exact D4|]. eapply Rle_trans; [apply Rabs_triang|]. lra. }
    assert (Z2 : u * (J * ((3 + / 64) * (u * T))) <= / 128 * (J * (u * T))).
    { replace (u * (J * ((3 + / 64) * (u * T)))) with (J * ((3 + / 64) * (u * (u * T)))) by ring. replace (/ 128 * (J * (u * T))) with (J * (/ 128 * (u * T))) by ring. apply Rmult_le_compat_l; lra. }
    fold T. replace (8 * u * (J * T)) with (8 * (J * (u * T))) by ring. lra.
Qed.
End arange.
(** The number of elements. *)
Lemma arange_len start stop step : fin start = true -> fin stop = true -> fin step = true -> Rabs (val start) <= B 900 -> Rabs (val stop) <= B 900 -> 0 < val step <= B 900 ->
  val step <= B 900 * (val stop - val start) -> val stop - val start <= B 52 * val step ->
  let q := (val stop - val start) / val step in let n := f_arange_len start stop step in
  (1 <= n)%nat /\ (Z.of_nat n <= 2 ^ 53)%Z /\ INR n - 1 < q * (1 + B (-51)) /\ q * (1 - B (-51)) <= INR n.
Proof.
  intros Fs Fe Ft Hs He Ht L1 L2 q n. pose proof (u_pos 900) as P900. assert (W0 : 0 < val stop - val start).
  { destruct (Rle_or_lt (val stop - val start) 0) as [C|C]; [|exact C]. pose proof (Rmult_le_compat_l (B 900) _ _ (Rlt_le _ _ P900) C). rewrite Rmult_0_r in *. lra. }
  assert (W : Rabs (val stop - val start) <= B 901). { unfold Rminus. eapply Rle_trans; [apply Rabs_triang|]. rewrite Rabs_Ropp, (E901 900 901 eq_refl). lra. }
  destruct (sub64_b stop start Fe Fs) as [F1 V1]; [eapply Rle_trans; [exact W|]; apply bpow_le; lia|].
  destruct (minus_rel stop start) as (d1 & D1 & E1). rewrite E1 in V1. pose proof small_facts as ((U0 & U1) & _ & E51 & _). set (u := B (-53)) in *.
  assert (Q2 : q <= B 52). { unfold q. apply Rmult_le_reg_r with (val step); [lra|]. unfold Rdiv. rewrite Rmult_assoc, Rinv_l by lra. lra. }
  assert (Q1 : B (-900) <= q). { unfold q. apply Rmult_le_reg_r with (val step); [lra|]. unfold Rdiv. rewrite Rmult_assoc, Rinv_l, Rmult_1_r by lra. apply Rmult_le_reg_l with (B 900); [exact P900|]. rewrite <- Rmult_assoc, <- bpow_plus. change (B (900 + -900)) with 1. lra. }
  pose proof (u_pos (-900)) as Pm. assert (QV : val (sub64 stop start) / val step = q * (1 + d1)) by (rewrite V1; unfold q; field; lra).
  apply Rabs_le_inv in D1. assert (QR : B (-1000) <= q * (1 + d1) <= B 53).
  { split.
    - apply Rle_trans with (B (-900) * / 2); [change (/ 2) with (B (-1)); rewrite <- bpow_plus; apply bpow_le; lia|]. apply Rmult_le_compat; lra.
    - rewrite (E901 52 53 eq_refl), Rmult_comm. apply Rmult_le_compat; lra. }
  pose proof (u_pos (-1000)) as Pk. destruct (div64_b (sub64 stop start) step F1) as [F2 V2]; [lra| |].
  { rewrite QV, Rabs_right by lra. eapply Rle_trans; [apply QR|]. apply bpow_le. lia. }
  rewrite QV in V2. destruct (rel_err (q * (1 + d1))) as (d2 & D2 & E2). { right. rewrite Rabs_right by lra. eapply Rle_trans; [|apply QR]. apply bpow_le. lia. }
  rewrite E2 in V2. set (v := q * (1 + d1) * (1 + d2)) in *. apply Rabs_le_inv in D2. fold u in D2.
  assert (FB : fin (Bopp (div64 (sub64 stop start) step)) = true) by (unfold fin; rewrite is_finite_Bopp; exact F2).
  assert (NV : n = Z.to_nat (Zceil v)).
  { unfold n, f_arange_len. rewrite ffloor_val by exact FB. unfold val at 1. rewrite B2R_Bopp. change (B2R (div64 (sub64 stop start) step)) with (val (div64 (sub64 stop start) step)). rewrite V2. reflexivity. }
  assert (VP : 0 < v) by (unfold v; apply Rmult_lt_0_compat; [apply Rmult_lt_0_compat|]; lra).
  assert (C1 : (1 <= Zceil v)%Z) by (apply (Zlt_le_succ 0); (apply lt_IZR; eapply Rlt_le_trans; [exact VP|apply Zceil_ub])).
  assert (VB : v <= B 53). { rewrite <- E2. pose proof (rnd64_bound (q * (1 + d1)) 53 ltac:(lia)) as RB. rewrite (Rabs_right (q * (1 + d1))) in RB by lra. rewrite Rabs_right in RB by (rewrite E2; lra). apply RB. apply QR. }
  assert (C2 : (Zceil v <= 2 ^ 53)%Z) by (apply Zceil_glb; exact VB).
  assert (NR : INR n = IZR (Zceil v)) by (rewrite NV, INR_IZR_INZ, Z2Nat.id by lia; reflexivity).
  split; [rewrite NV; change 1%nat with (Z.to_nat 1); apply Z2Nat.inj_le; lia|]. split; [rewrite NV, Z2Nat.id by lia; exact C2|]. rewrite NR, E51. assert (q0 : 0 < q) by lra.
  assert (VU : v <= q * (1 + 4 * u)).
  { unfold v. rewrite Rmult_assoc. apply Rmult_le_compat_l; [lra|]. assert ((1 + d1) * (1 + d2) <= (1 + u) * (1 + u)) by (apply Rmult_le_compat; lra). assert (u * u <= / 1024 * u) by (apply Rmult_le_compat_r; lra). lra. }
  assert (VL : q * (1 - 4 * u) <= v).
  { unfold v. rewrite Rmult_assoc. apply Rmult_le_compat_l; [lra|]. assert ((1 - u) * (1 - u) <= (1 + d1) * (1 + d2)) by (apply Rmult_le_compat; lra). assert (0 <= u * u) by (apply Rmult_le_pos; lra). lra. }
  pose proof (Zceil_ub v). pose proof (Zceil_lb v). lra.
Qed.
