(** Proofs for C91: weighted quantiles. *)
From Coq Require Import ZArith Reals Lra Lia List Permutation Bool.
Require Import Flocq.Core.Core Flocq.IEEE754.BinarySingleNaN.
From Verif Require Import Base ProcFloat InterpFloatProofs MeshFloatModel MeshFloatProofs BinFloatProofs FredModel FredSpec FredProofs FredProofs2 FredProofs3 FredProofs4 PrepFloatProofs FquaModel FquaSpec FquaProofs FquaProofs2 FquaProofs3 FquaProofs4 FquaProofs5.
Import ListNotations. Local Open Scope list_scope. Local Open Scope R_scope.

Lemma take_all l : f_take (seq 0 (length l)) l = l.
Proof.
  apply (nth_ext _ _ zero64 zero64); [unfold f_take; rewrite map_length, seq_length; reflexivity|]. unfold f_take. rewrite map_length, seq_length. intros n H. rewrite nth_map_seq by exact H. reflexivity.
Qed.
Lemma take_permutes order l : Permutation order (seq 0 (length l)) -> Permutation (f_take order l) l.
Proof. intros H. rewrite <- (take_all l) at 2. apply Permutation_map. exact H. Qed.
Lemma take_map order (l : list b64) g : Permutation order (seq 0 (length l)) -> f_take order (map g l) = map g (f_take order l).
Proof.
  intros H. unfold f_take. rewrite map_map. apply map_ext_in. intros i I. assert (i < length l)%nat by (apply (Permutation_in _ H), in_seq in I; lia). rewrite (nth_indep (map g l) zero64 (g zero64)) by (rewrite map_length; assumption). apply map_nth.
Qed.
Lemma take_nth order l k : (k < length order)%nat -> nth k (f_take order l) zero64 = nth (nth k order 0%nat) l zero64.
Proof. intros H. unfold f_take. rewrite (nth_indep _ zero64 (nth 0 l zero64)) by (rewrite map_length; exact H). apply (map_nth (fun i => nth i l zero64)). Qed.
Lemma take_length order l : length (f_take order l) = length order. Proof. apply map_length. Qed.
Lemma take_firstn order l k : firstn k (f_take order l) = f_take (firstn k order) l. Proof. apply firstn_map. Qed.

Section shares.
Variables (total : list b64 -> b64) (D : nat -> nat) (w : list b64).
Hypothesis At : adds total D.
Hypothesis Gw : Forall good w.
Let W := rawsum w.
Let S := total w.
Let n := length w.
Hypothesis W0 : 0 < W.
Hypothesis WB : W <= B 1000.
Hypothesis Nn : INR (n + D n) * eps <= / 8.
Hypothesis T390 : Forall (fun a => val a = 0 \/ B (-390) * W <= val a) w.
Let a := INR (D n) * eps.
Let b := INR n * eps.
Lemma ab : 0 <= a /\ 0 <= b /\ a + b <= / 8.
Proof. pose proof eps0. pose proof (pos_INR (D n)). pose proof (pos_INR n). unfold a, b. rewrite plus_INR in Nn. repeat split; [apply Rmult_le_pos; lra|apply Rmult_le_pos; lra|lra]. Qed.
Lemma S_ok : fin S = true /\ Rabs (val S - W) <= a * W.
Proof.
  destruct (size_good w Gw) as [Z1 Z2]. destruct ab as (A1 & A2 & A3). destruct (sums_bound (D n) w S (At w)) as [F H]; [apply good_finite, Gw|fold a; lra|rewrite Z1; eapply Rle_trans; [exact WB|apply bpow_le; lia]|]. split; [exact F|]. rewrite exact_raw, Z1 in H. exact H.
Qed.
Lemma S_range : 7 / 8 * W <= val S <= 9 / 8 * W.
Proof. destruct S_ok as [_ H]. destruct ab as (A1 & A2 & A3). apply Rabs_le_inv in H. assert (a * W <= / 8 * W) by (apply Rmult_le_compat_r; lra). lra. Qed.
Let r := W / val S.
Lemma r_range : Rabs (r - 1) <= 8 / 7 * a /\ 0 < r <= 8 / 7.
Proof.
  destruct S_ok as [_ H]. destruct ab as (A1 & A2 & A3). pose proof S_range as R. apply Rabs_le_inv in H. assert (Q : r * val S = W) by (unfold r; field; lra). assert (R0 : 0 < r) by (unfold r; apply Rdiv_lt_0_compat; lra).
  assert (R8 : r <= 8 / 7). { apply (Rmult_le_reg_r (val S)); [lra|]. rewrite Q. lra. } split; [|lra]. replace (r - 1) with ((W - val S) / val S) by (unfold r; field; lra). unfold Rdiv at 1. rewrite Rabs_mult, (Rabs_right (/ val S)) by (left; apply Rinv_0_lt_compat; lra).
  apply (Rmult_le_reg_r (val S)); [lra|]. rewrite Rmult_assoc, Rinv_l, Rmult_1_r by lra. assert (a * (8 / 7 * val S) >= a * W) by (apply Rle_ge, Rmult_le_compat_l; lra). apply Rabs_le. lra.
Qed.
Lemma frac_ok x : In x w -> fin (div64 x S) = true /\ 0 <= val (div64 x S) <= 2 /\ (val (div64 x S) = 0 \/ B (-400) <= val (div64 x S)) /\ Rabs (val (div64 x S) - val x / val S) <= u * (val x / val S).
Proof.
  intros I. pose proof S_range as R. assert (Gx : good x) by (rewrite Forall_forall in Gw; apply Gw, I). destruct Gx as [Fx Px]. assert (XW : val x <= W). { destruct (In_nth _ _ zero64 I) as (k & K & E). rewrite <- E. apply rawsum_nth; assumption. }
  assert (Q : 0 <= val x / val S <= 8 / 7). { split; [apply Rmult_le_pos; [lra|left; apply Rinv_0_lt_compat; lra]|]. apply (Rmult_le_reg_r (val S)); [lra|]. unfold Rdiv at 1. rewrite Rmult_assoc, Rinv_l by lra. lra. }
  destruct (div64_b x S Fx) as [F V]; [lra|rewrite Rabs_right by lra; apply Rle_trans with (B 1); [change (B 1) with 2; lra|apply bpow_le; lia]|].
  assert (Q4 : val x / val S = 0 \/ B (-391) <= val x / val S). { rewrite Forall_forall in T390. destruct (T390 x I) as [Z|Z]; [left; rewrite Z; unfold Rdiv; ring|right]. apply (Rmult_le_reg_r (val S)); [lra|]. unfold Rdiv. rewrite Rmult_assoc, Rinv_l, Rmult_1_r by lra. eapply Rle_trans; [|exact Z]. change (-390)%Z with (1 + -391)%Z. rewrite bpow_plus. change (B 1) with 2. replace (2 * B (-391) * W) with (B (-391) * (2 * W)) by ring. apply Rmult_le_compat_l; [apply bpow_ge_0|lra]. }
  destruct (rel_err (val x / val S)) as (d & Hd & E). { destruct Q4 as [Z|Z]; [left; exact Z|right]. rewrite Rabs_right by lra. eapply Rle_trans; [|exact Z]. apply bpow_le; lia. }
  split; [exact F|]. rewrite V. split; [split; [apply rnd64_pos; lra|]; apply Rle_trans with (rnd64 (B 1)); [apply rnd64_le; change (B 1) with 2; lra|rewrite bpow64 by lia; change (B 1) with 2; lra]|]. split.
  - destruct Q4 as [Z|Z]; [left; rewrite Z; apply rnd64_0|right]. apply Rle_trans with (B (-391)); [apply bpow_le; lia|]. rewrite <- (bpow64 (-391)) by lia. apply rnd64_le, Z.
  - rewrite E. replace (val x / val S * (1 + d) - val x / val S) with (val x / val S * d) by ring. rewrite Rabs_mult, (Rabs_right (val x / val S)) by lra. rewrite Rmult_comm. apply Rmult_le_compat_r; lra.
Qed.
Variable order : list nat.
Hypothesis Po : Permutation order (seq 0 n).
Let ws := f_take order w.
Let fs := f_take order (f_fractions total w).
Lemma fs_is : fs = map (fun x => div64 x S) ws.
Proof. unfold fs, f_fractions. fold S. apply take_map, Po. Qed.
Lemma ws_in x : In x ws -> In x w.
Proof. apply Permutation_in, take_permutes, Po. Qed.
Lemma fs_length : length fs = n. Proof. unfold fs. rewrite take_length. rewrite (Permutation_length Po). apply seq_length. Qed.
Lemma fs_good : Forall good fs /\ Forall (fun f => val f = 0 \/ B (-400) <= val f) fs.
Proof.
  rewrite fs_is. split; rewrite Forall_forall; intros y I; apply in_map_iff in I; destruct I as (x & <- & I); destruct (frac_ok x (ws_in x I)) as (F & [P _] & Q & _); [split; assumption|exact Q].
Qed.
Lemma fs_raw (v : list b64) : (forall x, In x v -> In x w) -> Rabs (rawsum (map (fun x => div64 x S) v) - rawsum v / val S) <= u * (rawsum v / val S).
Proof.
  pose proof S_range as R. assert (S0 : val S <> 0) by lra. induction v as [|x v IH]; intros H.
  - change (rawsum []) with 0. cbn [map]. change (rawsum []) with 0. replace (0 / val S) with 0 by (field; exact S0). rewrite Rminus_0_r, Rabs_R0. lra.
  - cbn [map]. change (rawsum (div64 x S :: map (fun x => div64 x S) v)) with (val (div64 x S) + rawsum (map (fun x => div64 x S) v)). change (rawsum (x :: v)) with (val x + rawsum v). replace ((val x + rawsum v) / val S) with (val x / val S + rawsum v / val S) by (field; exact S0).
    specialize (IH (fun y I => H y (or_intror I))). destruct (frac_ok x (H x (or_introl eq_refl))) as (_ & _ & _ & E). apply Rabs_le_inv in IH, E. apply Rabs_le. lra.
Qed.
Notation c k := (nth k (f_cumsum fs) zero64).
Lemma fs_total : rawsum fs <= 2.
Proof.
  pose proof (fs_raw ws ws_in) as H. rewrite <- fs_is in H. pose proof u_small as U. destruct r_range as [_ R]. assert (E : rawsum ws = W) by (apply rawsum_perm, take_permutes, Po). rewrite E in H. fold r in H. apply Rabs_le_inv in H. assert (u * r <= / 1024 * (8 / 7)) by (apply Rmult_le_compat; lra). lra.
Qed.
Lemma fs_len : INR (length fs) * eps <= / 8. Proof. rewrite fs_length. destruct ab as (A1 & A2 & A3). fold b. lra. Qed.
Lemma fs_B : rawsum fs <= B 1000. Proof. eapply Rle_trans; [apply fs_total|]. change 2 with (B 1). apply bpow_le. lia. Qed.
Lemma cdf_share k : (k < n)%nat -> fin (c k) = true /\ 0 <= val (c k) <= 2 /\ Rabs (val (c k) - share order w k) <= 2 * INR (n + D n + 1) * eps.
Proof.
  intros K. destruct fs_good as [G1 G2]. destruct (run_ok fs G1 fs_len fs_B k) as [F H]; [rewrite fs_length; exact K|]. split; [exact F|].
  pose proof (run_pos fs G1 fs_len fs_B k ltac:(rewrite fs_length; exact K)) as P0. rewrite fs_length in H. fold b in H.
  set (v := firstn (Datatypes.S k) ws). assert (Ev : firstn (Datatypes.S k) fs = map (fun x => div64 x S) v) by (rewrite fs_is; apply firstn_map). rewrite Ev in H.
  assert (Iv : forall x, In x v -> In x w) by (intros x I; apply ws_in; rewrite <- (firstn_skipn (Datatypes.S k) ws); apply in_or_app; left; exact I). pose proof (fs_raw v Iv) as Q. set (g := rawsum (map (fun x => div64 x S) v)) in *.
  assert (Es : share order w k = rawsum v / W) by (unfold share, v, ws, rawsum; rewrite take_firstn; unfold f_take; rewrite map_map; reflexivity). rewrite Es.
  assert (Gws : Forall good ws) by (rewrite Forall_forall in *; intros x I; apply Gw, ws_in, I). assert (V0 : 0 <= rawsum v) by (apply size_good, firstn_good, Gws). assert (VW : rawsum v <= W). { apply Rle_trans with (rawsum ws); [apply rawsum_firstn, Gws|]. apply Req_le, rawsum_perm, take_permutes, Po. }
  set (sg := rawsum v / W). assert (SG : 0 <= sg <= 1). { unfold sg. split; [apply Rmult_le_pos; [lra|left; apply Rinv_0_lt_compat; lra]|]. apply (Rmult_le_reg_r W); [lra|]. unfold Rdiv. rewrite Rmult_assoc, Rinv_l by lra. lra. }
  pose proof S_range as SR. assert (E2 : rawsum v / val S = sg * r) by (unfold sg, r; field; lra). rewrite E2 in Q. destruct r_range as [R1 R2]. destruct ab as (A1 & A2 & A3). pose proof u_small as U.
  assert (SR1 : 0 <= sg * r <= 8 / 7). { split; [apply Rmult_le_pos; lra|]. rewrite <- (Rmult_1_l (8 / 7)). apply Rmult_le_compat; lra. }
  assert (D1 : Rabs (sg * (r - 1)) <= 1 * (8 / 7 * a)) by (rewrite Rabs_mult, (Rabs_right sg) by lra; apply Rmult_le_compat; [lra|apply Rabs_pos|lra|exact R1]). assert (D2 : u * (sg * r) <= u * (8 / 7)) by (apply Rmult_le_compat_l; lra).
  apply Rabs_le_inv in H, Q, D1. assert (GB : 0 <= g <= 5 / 4) by (split; [unfold g; apply size_good; rewrite <- Ev; apply firstn_good, G1|lra]). assert (BG : b * g <= b * (5 / 4)) by (apply Rmult_le_compat_l; lra). assert (BG2 : b * (5 / 4) <= / 8 * (5 / 4)) by (apply Rmult_le_compat_r; lra).
  split; [split; [exact P0|lra]|]. rewrite !plus_INR. change (INR 1) with 1. pose proof eps_u as EU. assert (E3 : 2 * (INR n + INR (D n) + 1) * eps = 2 * b + 2 * a + 4 * u) by (unfold a, b; rewrite EU; ring). rewrite E3. apply Rabs_le. lra.
Qed.
Lemma cdf_sorted i j : (i <= j < n)%nat -> val (c i) <= val (c j).
Proof. intros H. destruct fs_good as [G1 _]. apply (run_sorted fs G1 fs_len fs_B). rewrite fs_length. exact H. Qed.
Lemma cdf_apart i j : (i <= j < n)%nat -> val (c i) < val (c j) -> B (-500) <= val (c j) - val (c i).
Proof. intros H L. destruct fs_good as [G1 G2]. apply apart; [apply (run_400 fs G1 fs_len fs_B G2)|apply (run_400 fs G1 fs_len fs_B G2)|exact L]; rewrite fs_length; lia. Qed.
Lemma cdf_len : length (f_cumsum fs) = n. Proof. rewrite cumsum_length. apply fs_length. Qed.

(** ** The quantile *)
Variable x : list b64.
Hypothesis Lx : length x = n.
Hypothesis So : forall i j, (i <= j < length order)%nat -> val (nth (nth i order 0%nat) x zero64) <= val (nth (nth j order 0%nat) x zero64).
Hypothesis Mx : Forall (fun v => fin v = true /\ Rabs (val v) <= B 400) x.
Let xs := f_take order x.
Notation X k := (nth k xs zero64).
Lemma o_len : length order = n. Proof. rewrite (Permutation_length Po). apply seq_length. Qed.
Lemma X_ok k : (k < n)%nat -> fin (X k) = true /\ Rabs (val (X k)) <= B 400 /\ In (X k) x.
Proof. intros K. assert (I : In (X k) x). { apply (Permutation_in (l := xs)); [apply take_permutes; rewrite Lx; exact Po|]. apply nth_In. unfold xs. rewrite take_length, o_len. exact K. } rewrite Forall_forall in Mx. destruct (Mx _ I). auto. Qed.
Lemma X_sorted i j : (i <= j < n)%nat -> val (X i) <= val (X j).
Proof. intros H. unfold xs. rewrite !take_nth by (rewrite o_len; lia). apply So. rewrite o_len. exact H. Qed.
Variable M : R.
Hypothesis HM : Forall (fun v => Rabs (val v) <= M) x.
Notation q p := (f_wquantile total order x w p).
Notation margin k := (B (-49) * (val (X (Datatypes.S k)) - val (X k)) + B (-53) * M + small).
(** Where a probability falls. *)
Lemma where_is p : fin p = true -> (0 < n)%nat -> (f_not_above (f_cumsum fs) p = 0%nat /\ val p < val (c 0%nat) /\ q p = X 0%nat) \/
  (val (c (n - 1)) <= val p /\ q p = X (n - 1)%nat) \/
  (exists k, (Datatypes.S k < n)%nat /\ val (c k) = val p /\ val p < val (c (Datatypes.S k)) /\ q p = X k) \/
  (exists k, (Datatypes.S k < n)%nat /\ val (c k) < val p < val (c (Datatypes.S k)) /\
     q p = add64 (mul64 (div64 (sub64 (X (Datatypes.S k)) (X k)) (sub64 (c (Datatypes.S k)) (c k))) (sub64 p (c k))) (X k)).
Proof.
  intros Fp N0. assert (FC : finite (f_cumsum fs)). { unfold finite. rewrite Forall_forall. intros y I. destruct (In_nth _ _ zero64 I) as (k & K & E). rewrite <- E. apply cdf_share. rewrite <- cdf_len. exact K. }
  destruct (not_above (f_cumsum fs) p Fp FC) as (N1 & N2 & N3). { intros i j H. apply cdf_sorted. rewrite <- cdf_len. exact H. } rewrite cdf_len in *. unfold f_wquantile, f_interp. fold fs. fold xs. destruct (f_not_above (f_cumsum fs) p) as [|j] eqn:E.
  - left. split; [reflexivity|]. split; [apply N3; lia|reflexivity].
  - right. rewrite cdf_len. destruct (Nat.eqb_spec (Datatypes.S j) n) as [J|J].
    + left. replace (n - 1)%nat with j by lia. split; [apply N2; lia|reflexivity].
    + right. assert (Q1 : val (c j) <= val p) by (apply N2; lia). assert (Q2 : val p < val (c (Datatypes.S j))) by (apply N3; lia). assert (Fj : fin (c j) = true) by (apply cdf_share; lia).
      assert (BE : Beqb (c j) p = Req_bool (val (c j)) (val p)) by (apply Beqb_correct; assumption). rewrite BE. case Req_bool_spec; intros H.
      * left. exists j. repeat split; [lia|exact H|exact Q2].
      * right. exists j. repeat split; [lia|lra|exact Q2].
Qed.
Lemma X_M k : (k < n)%nat -> Rabs (val (X k)) <= M.
Proof. intros K. destruct (X_ok k K) as (_ & _ & I). rewrite Forall_forall in HM. apply HM, I. Qed.
Lemma M_nn : (0 < n)%nat -> 0 <= M. Proof. intros H. eapply Rle_trans; [apply Rabs_pos|apply (X_M 0 H)]. Qed.
Lemma small_nn : 0 < small. Proof. apply bpow_gt_0. Qed.
Lemma margin_nn k : (Datatypes.S k < n)%nat -> 0 <= margin k.
Proof. intros K. pose proof (X_sorted k (Datatypes.S k) ltac:(lia)). pose proof (M_nn ltac:(lia)). pose proof small_nn. pose proof (bpow_gt_0 radix2 (-49)). pose proof (bpow_gt_0 radix2 (-53)). assert (0 <= B (-49) * (val (X (Datatypes.S k)) - val (X k))) by (apply Rmult_le_pos; lra). assert (0 <= B (-53) * M) by (apply Rmult_le_pos; lra). lra. Qed.
Lemma line_at p k : fin p = true -> (Datatypes.S k < n)%nat -> val (c k) < val p < val (c (Datatypes.S k)) ->
  let v := add64 (mul64 (div64 (sub64 (X (Datatypes.S k)) (X k)) (sub64 (c (Datatypes.S k)) (c k))) (sub64 p (c k))) (X k) in
  fin v = true /\ val (X k) <= val v <= val (X (Datatypes.S k)) + margin k /\
  Rabs (val v - (val (X k) + (val p - val (c k)) / (val (c (Datatypes.S k)) - val (c k)) * (val (X (Datatypes.S k)) - val (X k)))) <= margin k.
Proof.
  intros Fp K C v. destruct (X_ok k ltac:(lia)) as (Fa & Ma & _). destruct (X_ok (Datatypes.S k) K) as (Fb & Mb & _). destruct (cdf_share k ltac:(lia)) as (Fy & [Y0 _] & _). destruct (cdf_share (Datatypes.S k) K) as (Fz & [_ Z2] & _).
  pose proof (X_sorted k (Datatypes.S k) ltac:(lia)) as AB. pose proof (cdf_apart k (Datatypes.S k) ltac:(lia) ltac:(lra)) as E5.
  destruct (line_val _ _ _ _ p Fa Fb Fy Fz Fp Ma Mb AB Y0 Z2 (proj1 C) (proj2 C) E5) as (Fv & _ & L). pose proof (line_upper _ _ _ _ p Fa Fb Fy Fz Fp Ma Mb AB Y0 Z2 (proj1 C) (proj2 C) E5 M (X_M k ltac:(lia)) (X_M _ K)) as Up. pose proof (line_err _ _ _ _ p Fa Fb Fy Fz Fp Ma Mb AB Y0 Z2 (proj1 C) (proj2 C) E5 M (X_M k ltac:(lia)) (X_M _ K)) as Er.
  split; [exact Fv|]. split; [split; [exact L|exact Up]|exact Er].
Qed.

(** What each case gives. *)
Lemma q_cases p : fin p = true -> (0 < n)%nat -> fin (q p) = true /\
  ((val p < val (c 0%nat) /\ q p = X 0%nat) \/ (val (c (n - 1)) <= val p /\ q p = X (n - 1)%nat) \/
   exists k, (Datatypes.S k < n)%nat /\ val (c k) <= val p < val (c (Datatypes.S k)) /\ val (X k) <= val (q p) <= val (X (Datatypes.S k)) + margin k /\
     Rabs (val (q p) - (val (X k) + (val p - val (c k)) / (val (c (Datatypes.S k)) - val (c k)) * (val (X (Datatypes.S k)) - val (X k)))) <= margin k).
Proof.
  intros Fp N0. destruct (where_is p Fp N0) as [(_ & H1 & H2)|[(H1 & H2)|[(k & K & H1 & H2 & H3)|(k & K & H1 & H2)]]].
  - rewrite H2. split; [apply X_ok; lia|]. left. split; [exact H1|reflexivity].
  - rewrite H2. split; [apply X_ok; lia|]. right. left. split; [exact H1|reflexivity].
  - rewrite H3. split; [apply X_ok; lia|]. right. right. exists k. split; [exact K|]. split; [lra|]. pose proof (X_sorted k (Datatypes.S k) ltac:(lia)) as XS. pose proof (margin_nn k K) as MN. split; [lra|]. rewrite H1. replace (val p - val p) with 0 by ring.
    replace (val (X k) - (val (X k) + 0 / (val (c (Datatypes.S k)) - val p) * (val (X (Datatypes.S k)) - val (X k)))) with 0 by (unfold Rdiv; ring). rewrite Rabs_R0. exact MN.
  - destruct (line_at p k Fp K H1) as (L1 & L2 & L3). rewrite <- H2 in L1, L2, L3. split; [exact L1|]. right. right. exists k. split; [exact K|]. split; [lra|]. split; assumption.
Qed.
Lemma q_cell_mono p p' k : fin p = true -> fin p' = true -> (Datatypes.S k < n)%nat -> val (c k) <= val p <= val p' -> val p' < val (c (Datatypes.S k)) -> val (q p) <= val (q p').
Proof.
  intros Fp Fp' K H H'. assert (U : forall v, fin v = true -> val (c k) <= val v < val (c (Datatypes.S k)) -> (val (c k) = val v /\ q v = X k) \/ (val (c k) < val v /\ q v = add64 (mul64 (div64 (sub64 (X (Datatypes.S k)) (X k)) (sub64 (c (Datatypes.S k)) (c k))) (sub64 v (c k))) (X k))).
  { intros v Fv Hv. destruct (where_is v Fv ltac:(lia)) as [(_ & H1 & H2)|[(H1 & H2)|[(j & J & H1 & H2 & H3)|(j & J & H1 & H2)]]].
    - pose proof (cdf_sorted 0 k ltac:(lia)). lra.
    - pose proof (cdf_sorted (Datatypes.S k) (n - 1) ltac:(lia)). lra.
    - assert (E : j = k). { destruct (Nat.lt_trichotomy j k) as [Q|[Q|Q]]; [|exact Q|]; exfalso; [pose proof (cdf_sorted (Datatypes.S j) k ltac:(lia)); lra|pose proof (cdf_sorted (Datatypes.S k) j ltac:(lia)); lra]. } subst j. left. split; assumption.
    - assert (E : j = k). { destruct (Nat.lt_trichotomy j k) as [Q|[Q|Q]]; [|exact Q|]; exfalso; [pose proof (cdf_sorted (Datatypes.S j) k ltac:(lia)); lra|pose proof (cdf_sorted (Datatypes.S k) j ltac:(lia)); lra]. } subst j. right. split; [lra|exact H2]. }
  destruct (U p Fp ltac:(lra)) as [[U1 U2]|[U1 U2]]; destruct (U p' Fp' ltac:(lra)) as [[V1 V2]|[V1 V2]]; try lra.
  - rewrite U2, V2. lra.
  - rewrite U2, V2. apply line_at; try assumption. lra.
  - rewrite U2, V2. destruct (X_ok k ltac:(lia)) as (Fa & Ma & _). destruct (X_ok (Datatypes.S k) K) as (Fb & Mb & _). destruct (cdf_share k ltac:(lia)) as (Fy & [Y0 _] & _). destruct (cdf_share (Datatypes.S k) K) as (Fz & [_ Z2] & _).
    pose proof (X_sorted k (Datatypes.S k) ltac:(lia)) as AB. pose proof (cdf_apart k (Datatypes.S k) ltac:(lia) ltac:(lra)) as E5. assert (HP : val p < val (c (Datatypes.S k))) by lra.
    destruct (line_val _ _ _ _ p Fa Fb Fy Fz Fp Ma Mb AB Y0 Z2 U1 HP E5) as (_ & A1 & _). destruct (line_val _ _ _ _ p' Fa Fb Fy Fz Fp' Ma Mb AB Y0 Z2 V1 H' E5) as (_ & A2 & _). rewrite A1, A2.
    destruct (prod_ok _ _ _ _ p Fa Fb Fy Fz Fp Ma Mb AB Y0 Z2 U1 HP E5) as (_ & B1 & _). destruct (prod_ok _ _ _ _ p' Fa Fb Fy Fz Fp' Ma Mb AB Y0 Z2 V1 H' E5) as (_ & B2 & _). rewrite B1, B2.
    destruct (dist_ok _ _ p Fy Fp Y0 Z2 U1 HP) as (_ & C1 & _). destruct (dist_ok _ _ p' Fy Fp' Y0 Z2 V1 H') as (_ & C2 & _). rewrite C1, C2. destruct (slope_ok _ _ _ _ p Fa Fb Fy Fz Ma Mb AB Y0 Z2 U1 HP E5) as (_ & [S0 _] & _).
    apply rnd64_le. apply Rplus_le_compat_r. apply rnd64_le. apply Rmult_le_compat_l; [exact S0|]. apply rnd64_le. lra.
Qed.
End shares.

Lemma rawsum_cons a l : rawsum (a :: l) = val a + rawsum l. Proof. reflexivity. Qed.

Lemma fractions_usable total D w : usable_weights total D w -> Forall (fun a => val a = 0 \/ B (-380) * Rsum (map val w) <= val a) w -> usable_weights total D (f_fractions total w).
Proof.
  intros (A & G & [W0 WB] & Nn & T) T2. set (n := length w). assert (Ln : length (f_fractions total w) = n) by apply map_length. assert (Id : Permutation (seq 0 n) (seq 0 n)) by apply Permutation_refl.
  assert (E0 : f_take (seq 0 n) (f_fractions total w) = f_fractions total w) by (rewrite <- Ln; apply take_all). pose proof (fs_good total D w A G W0 WB Nn T (seq 0 n) Id) as [G1 _]. pose proof (fs_total total D w A G W0 WB Nn T (seq 0 n) Id) as Up. rewrite E0 in G1, Up.
  pose proof (S_range total D w A G W0 WB Nn) as SR. pose proof u_small as U. change (rawsum w) with (Rsum (map val w)) in *. set (W := Rsum (map val w)) in *. set (Sw := total w) in *.
  assert (Each : forall x, In x w -> Rabs (val (div64 x Sw) - val x / val Sw) <= u * (val x / val Sw)) by (intros x I; apply (frac_ok total D w A G W0 WB Nn T x I)).
  assert (R8 : 8 / 9 <= W / val Sw). { apply (Rmult_le_reg_r (val Sw)); [lra|]. unfold Rdiv at 2. rewrite Rmult_assoc, Rinv_l by lra. lra. }
  pose proof (fs_raw total D w A G W0 WB Nn T w (fun x I => I)) as FR. fold Sw in FR. change (map (fun x => div64 x Sw) w) with (f_fractions total w) in FR. change (rawsum w) with W in FR. change (rawsum (f_fractions total w)) with (Rsum (map val (f_fractions total w))) in FR, Up. apply Rabs_le_inv in FR.
  assert (Lo : 0 < Rsum (map val (f_fractions total w))). { assert (u * (W / val Sw) <= / 1024 * (W / val Sw)) by (apply Rmult_le_compat_r; lra). lra. }
  split; [exact A|]. split; [exact G1|]. split; [split; [exact Lo|eapply Rle_trans; [exact Up|change 2 with (B 1); apply bpow_le; lia]]|]. rewrite Ln. split; [exact Nn|]. rewrite Forall_forall in *. intros f I. apply in_map_iff in I. destruct I as (x & <- & I). fold Sw.
  destruct (T2 x I) as [Z|Z].
  - left. specialize (Each x I). rewrite Z in Each. replace (0 / val Sw) with 0 in Each by (unfold Rdiv; ring). rewrite Rmult_0_r, Rminus_0_r in Each. pose proof (Rabs_pos (val (div64 x Sw))). destruct (Req_dec (val (div64 x Sw)) 0) as [Q|Q]; [exact Q|]. pose proof (Rabs_pos_lt _ Q). lra.
  - right. specialize (Each x I). apply Rabs_le_inv in Each. assert (X8 : B (-380) * (8 / 9) <= val x / val Sw). { apply Rle_trans with (B (-380) * (W / val Sw)); [apply Rmult_le_compat_l; [apply bpow_ge_0|exact R8]|]. unfold Rdiv. rewrite <- Rmult_assoc. apply Rmult_le_compat_r; [left; apply Rinv_0_lt_compat; lra|exact Z]. }
    assert (UX : u * (val x / val Sw) <= / 1024 * (val x / val Sw)) by (apply Rmult_le_compat_r; [pose proof (bpow_gt_0 radix2 (-380)); lra|lra]). assert (P : 0 < B (-390)) by apply bpow_gt_0. assert (E10 : B (-380) = 1024 * B (-390)) by (change (-380)%Z with (10 + -390)%Z; rewrite bpow_plus; reflexivity).
    assert (B (-390) * Rsum (map val (f_fractions total w)) <= B (-390) * 2) by (apply Rmult_le_compat_l; lra). lra.
Qed.
