(** C91: quantiles, medians and error bars in double precision (stats/reduction.py:170-268). *)
From Coq Require Import ZArith Reals Lra Lia List Permutation Bool.
Require Import Flocq.Core.Core Flocq.IEEE754.BinarySingleNaN.
From Verif Require Import Base ProcFloat InterpFloatProofs MeshFloatModel MeshFloatProofs BinFloatProofs FredModel FredSpec FredProofs FredProofs2 PrepFloatProofs FquaModel FquaSpec FquaProofs FquaProofs2 FquaProofs3 FquaProofs4 FquaProofs5 FquaProofs6.
Import ListNotations. Local Open Scope list_scope. Local Open Scope R_scope.

Lemma moderate_perm x s : Permutation x s -> moderate x -> moderate s.
Proof. unfold moderate. rewrite !Forall_forall. intros P H v I. apply H, (Permutation_in v (Permutation_sym P)), I. Qed.
Lemma nonempty_perm {A} (x s : list A) : Permutation x s -> x <> [] -> s <> [].
Proof. intros P H E. subst s. apply H, Permutation_nil, Permutation_sym, P. Qed.
Lemma use x s : sorted_sample x s -> (forall i j, (i <= j < length s)%nat -> val (nth i s zero64) <= val (nth j s zero64)) /\ moderate s /\ s <> [] /\ (Z.of_nat (length s) <= 2 ^ 53)%Z /\ Permutation x s.
Proof. intros (N & M & L & P & S). split; [exact S|]. split; [exact (moderate_perm x s P M)|]. split; [exact (nonempty_perm x s P N)|]. rewrite <- (Permutation_length P). split; assumption. Qed.
Lemma extremes x s : sorted_sample x s -> let lo := nth 0 s zero64 in let hi := nth (length s - 1) s zero64 in In lo x /\ In hi x /\ forall v, In v x -> val lo <= val v <= val hi.
Proof.
  intros H. destruct (use x s H) as (S & M & N & L & P). pose proof (len_pos s S M N L) as LP. cbn zeta. split; [|split].
  - apply (Permutation_in _ (Permutation_sym P)), nth_In. lia.
  - apply (Permutation_in _ (Permutation_sym P)), nth_In. lia.
  - intros v I. apply (Permutation_in _ P) in I. destruct (In_nth _ _ zero64 I) as (k & K & E). rewrite <- E. split; apply S; lia.
Qed.

(** A quantile at a probability in [0, 1] is a number between the least and the largest selected sample; elsewhere it is ValueError. *)
Theorem C91_range x m s p : sorted_sample (chosen m x) s -> fin p = true ->
  (0 <= val p <= 1 -> exists q lo hi, f_quantile s p = Ok q /\ fin q = true /\ In lo (chosen m x) /\ In hi (chosen m x) /\ (forall v, In v (chosen m x) -> val lo <= val v <= val hi) /\
     val lo <= val q <= val hi) /\
  (~ (0 <= val p <= 1) -> f_quantile s p = Err ValueError).
Proof.
  intros H F. destruct (use _ s H) as (S & M & N & L & P). split.
  - intros HP. destruct (extremes _ s H) as (E1 & E2 & E3). destruct (index_ok s S M N L p F HP) as (Fv & _ & Rv). destruct (f_at_ok s S M N L _ Fv (proj1 Rv)) as [Fq Rq].
    eexists _, (nth 0 s zero64), (nth (length s - 1) s zero64). split; [apply quantile_is; assumption|]. repeat (split; [assumption|]). exact Rq.
  - intros HP. apply quantile_bad; assumption.
Qed.
Print Assumptions C91_range.
(** Quantiles grow with the probability, whatever the rounding. *)
Theorem C91_increases x m s p p' : sorted_sample (chosen m x) s -> fin p = true -> fin p' = true -> 0 <= val p <= val p' -> val p' <= 1 ->
  exists q q', f_quantile s p = Ok q /\ f_quantile s p' = Ok q' /\ val q <= val q'.
Proof.
  intros H F F' HP HP'. destruct (use _ s H) as (S & M & N & L & P). destruct (index_ok s S M N L p F ltac:(lra)) as (Fv & Vv & Rv). destruct (index_ok s S M N L p' F' ltac:(lra)) as (Fv' & Vv' & Rv').
  eexists _, _. split; [apply quantile_is; try assumption; lra|]. split; [apply quantile_is; try assumption; lra|]. apply f_at_mono; try assumption. split; [lra|]. rewrite Vv, Vv'. apply rnd64_le, Rmult_le_compat_l; [apply pos_INR|lra].
Qed.
Print Assumptions C91_increases.
(** At probability 0 the least sample, at 1 the largest, exactly. *)
Theorem C91_ends x m s p : sorted_sample (chosen m x) s -> fin p = true ->
  (val p = 0 -> exists q, f_quantile s p = Ok q /\ forall v, In v (chosen m x) -> val q <= val v) /\
  (val p = 1 -> exists q, f_quantile s p = Ok q /\ forall v, In v (chosen m x) -> val v <= val q).
Proof.
  intros H F. destruct (use _ s H) as (S & M & N & L & P). destruct (extremes _ s H) as (E1 & E2 & E3). pose proof (len_pos s S M N L) as LP. split; intros HP; destruct (index_ok s S M N L p F ltac:(lra)) as (Fv & Vv & Rv); (eexists; split; [apply quantile_is; try assumption; lra|]); intros v I; specialize (E3 v I).
  - set (w := mul64 _ p) in *. rewrite HP, Rmult_0_r, rnd64_0 in Vv. destruct (Nat.eq_dec (length s - 1) 0) as [Z|Z].
    + rewrite (f_at_end s S M N L w Fv) by (rewrite Z, Vv; cbn; lra). rewrite Z. lra.
    + assert (C : 0 <= val w < INR (length s - 1)) by (rewrite Vv; split; [lra|apply (lt_INR 0); lia]). rewrite (f_at_cell s S M N L w Fv C). destruct (cell s S M N L w Fv C) as (C1 & C2 & C3 & C4 & C5 & C6 & C7).
      assert (I0 : Z.to_nat (ffloor w) = 0%nat). { rewrite Vv in C3. change 0 with (IZR 0) in C3. rewrite Zfloor_IZR in C3. lia. } rewrite I0 in *. cbn [INR] in C5. rewrite Vv, Rminus_0_r, rnd64_0 in C5.
      destruct (at_ok s M 0 ltac:(lia)) as [Fa Ma]. destruct (at_ok s M 1 ltac:(lia)) as [Fb Mb]. rewrite (lerp_0 _ _ Fa Fb Ma Mb (S 0%nat 1%nat ltac:(lia)) _ C4 C5). lra.
  - set (w := mul64 _ p) in *. destruct (m_val s S M N L) as [Vm _]. rewrite HP, Rmult_1_r in Vv. rewrite (f_at_end s S M N L w Fv); [lra|]. rewrite Vv, <- Vm, rnd64_val. lra.
Qed.
Print Assumptions C91_ends.
(** Neither the order the samples are given in nor the order sorting leaves equal ones in matters. *)
Theorem C91_any_order x m x' m' s s' p : sorted_sample (chosen m x) s -> sorted_sample (chosen m' x') s' -> Permutation (chosen m x) (chosen m' x') -> fin p = true -> 0 <= val p <= 1 ->
  (exists q q', f_quantile s p = Ok q /\ f_quantile s' p = Ok q' /\ val q = val q') /\ val (f_median s) = val (f_median s').
Proof.
  intros H H' PP F HP. destruct (use _ s H) as (S & M & N & L & P). destruct (use _ s' H') as (S' & M' & N' & L' & P'). assert (E : map val s = map val s'). { apply (arranged_vals (chosen m x)); [split; assumption|]. split; [eapply Permutation_trans; [exact PP|exact P']|exact S']. }
  assert (EL : length s = length s') by (rewrite <- (map_length val s), E; apply map_length). split.
  - destruct (index_ok s S M N L p F HP) as (Fv & Vv & Rv). eexists _, _. split; [apply quantile_is; assumption|]. split; [apply quantile_is; assumption|]. rewrite <- EL. apply f_at_vals; try assumption. lra.
  - destruct (Nat.even (length s)) eqn:Ev.
    + unfold f_median. rewrite <- EL, Ev. assert (L2 : (2 <= length s)%nat) by (destruct s as [|? [|? ?]]; [congruence|discriminate|cbn; lia]). assert (LL : (length s / 2 < length s)%nat) by (apply Nat.div_lt; lia). 
      destruct (at_ok s M (length s / 2 - 1) ltac:(lia)) as [A1 A2]. destruct (at_ok s M (length s / 2) LL) as [B1 B2]. destruct (at_ok s' M' (length s / 2 - 1) ltac:(lia)) as [A1' A2']. destruct (at_ok s' M' (length s / 2) ltac:(lia)) as [B1' B2'].
      destruct (sum2 _ _ A1 B1 A2 B2) as [F1 V1]. destruct (sum2 _ _ A1' B1' A2' B2') as [F2 V2]. rewrite !(nth_vals s s' _ E), <- V2 in V1. destruct (of_Z64_exact 2) as [T1 T2]; [lia|].
      assert (K : Rabs (val (np_sum [nth (length s / 2 - 1) s' zero64; nth (length s / 2) s' zero64]) / val (of_Z64 2)) <= B 1023). { rewrite T1, V2. assert (SB : Rabs (val (nth (length s / 2 - 1) s' zero64) + val (nth (length s / 2) s' zero64)) <= B 1023) by (eapply Rle_trans; [apply Rabs_triang|]; change 1023%Z with (1 + 1022)%Z; rewrite bpow_plus; change (B 1) with 2; lra). pose proof (rnd64_bound _ 1023 ltac:(lia) SB) as Q. unfold Rdiv. rewrite Rabs_mult, (Rabs_right (/ 2)) by lra. pose proof (Rabs_pos (rnd64 (val (nth (length s / 2 - 1) s' zero64) + val (nth (length s / 2) s' zero64)))). lra. }
      assert (T0 : val (of_Z64 2) <> 0) by (rewrite T1; lra). destruct (div64_b _ (of_Z64 2) F2 T0 K) as [_ W2]. rewrite W2. rewrite <- V1 in K. destruct (div64_b _ (of_Z64 2) F1 T0 K) as [_ W1]. rewrite W1, V1. reflexivity.
    + destruct (median_odd s S M N Ev) as [_ V1]. rewrite EL in Ev. destruct (median_odd s' S' M' N' Ev) as [_ V2]. rewrite V1, V2, <- EL. apply nth_vals, E.
Qed.
Print Assumptions C91_any_order.
(** The computed quantile is the exact one (linear between order statistics) up to rounding: the index (n - 1) p is off by n ulps, a gap [g] wide
    interpolates with a relative error, samples of magnitude [M] round. *)
Theorem C91_accuracy x m s p g M : sorted_sample (chosen m x) s -> fin p = true -> 0 <= val p <= 1 -> gaps_at_most g (map val s) -> 0 <= g -> Forall (fun v => Rabs (val v) <= M) (chosen m x) ->
  exists q, f_quantile s p = Ok q /\ Rabs (val q - exact_quantile (map val s) (val p)) <= bpow radix2 (-53) * (INR (length s + 3) * g + M) + bpow radix2 (-1073).
Proof.
  intros H F HP G G0 HM. destruct (use _ s H) as (S & Mo & N & L & P). assert (HM' : Forall (fun v => Rabs (val v) <= M) s). { rewrite Forall_forall in *. intros v I. apply HM, (Permutation_in v (Permutation_sym P)), I. }
  destruct (accuracy s S Mo N L g G M HM' p F HP) as (q & [[Q1 Q2]|(Q0 & Q1 & Q2)]); exists q; (split; [exact Q1|]); [exact Q2|]. rewrite Q2. replace (_ - _) with 0 by ring. rewrite Rabs_R0.
  pose proof (bpow_gt_0 radix2 (-1073)). pose proof (bpow_gt_0 radix2 (-53)). assert (M0 : 0 <= M). { destruct s as [|a s']; [congruence|]. inversion HM'; subst. eapply Rle_trans; [apply Rabs_pos|eassumption]. } assert (0 <= INR (length s + 3) * g) by (apply Rmult_le_pos; [apply pos_INR|exact G0]). assert (0 <= bpow radix2 (-53) * (INR (length s + 3) * g + M)) by (apply Rmult_le_pos; lra). lra.
Qed.
Print Assumptions C91_accuracy.
(** The median of an odd number of samples is the middle one, exactly, and is the quantile at 1/2; of an even number it lies between the two
    middle ones, next to their mean. *)
Theorem C91_median x m s p : sorted_sample (chosen m x) s -> fin p = true -> val p = / 2 ->
  (forall k, length s = (2 * k + 1)%nat -> fin (f_median s) = true /\ val (f_median s) = val (nth k s zero64) /\ exists q, f_quantile s p = Ok q /\ val q = val (f_median s)) /\
  (forall k, length s = (2 * S k)%nat -> let a := val (nth k s zero64) in let b := val (nth (S k) s zero64) in
     fin (f_median s) = true /\ a <= val (f_median s) <= b /\
     forall M, Rabs a <= M -> Rabs b <= M -> Rabs (val (f_median s) - (a + b) / 2) <= bpow radix2 (-52) * M + bpow radix2 (-1074) /\
       exists q, f_quantile s p = Ok q /\ a <= val q <= b /\ Rabs (val q - val (f_median s)) <= bpow radix2 (-53) * (2 * (b - a) + 3 * M) + bpow radix2 (-1072)).
Proof.
  intros H F HP. destruct (use _ s H) as (S & Mo & N & L & P). split; intros k K.
  - assert (E : Nat.even (length s) = false) by (rewrite K, Nat.add_1_r, Nat.even_succ, <- Nat.negb_even, Nat.even_mul; reflexivity). assert (K2 : (length s / 2 = k)%nat) by (rewrite K; symmetry; apply (Nat.div_unique _ 2 k 1); lia).
    destruct (median_odd s S Mo N E) as [F1 V1]. rewrite K2 in V1. split; [exact F1|]. split; [exact V1|]. rewrite V1. apply half_odd; assumption.
  - assert (E : Nat.even (length s) = true) by (rewrite K, Nat.even_mul; reflexivity). assert (K2 : (length s / 2 = Datatypes.S k)%nat) by (rewrite K, Nat.mul_comm; apply Nat.div_mul; lia). intros a b. destruct (median_even s S Mo N E) as (F1 & R1 & A1). rewrite K2 in *. replace (Datatypes.S k - 1)%nat with k in * by lia. fold a b in R1, A1.
    split; [exact F1|]. split; [exact R1|]. intros M Na Nb. specialize (A1 M Na Nb). split; [exact A1|]. destruct (half_even s S Mo N L p k K F HP) as (q & t & Q1 & Q2 & Ft & Vt). exists q. split; [exact Q1|].
    destruct (at_ok s Mo k ltac:(lia)) as [Fa Ma]. destruct (at_ok s Mo (Datatypes.S k) ltac:(lia)) as [Fb Mb]. pose proof (S k (Datatypes.S k) ltac:(lia)) as AB. destruct (lerp_ok _ _ Fa Fb Ma Mb AB t Ft ltac:(lra)) as (_ & _ & R). rewrite <- Q2 in R. split; [exact R|].
    pose proof (lerp_err _ _ t M Fa Fb Ma Mb AB Ft ltac:(lra) Na Nb) as LE. rewrite <- Q2, Vt in LE. fold a b in LE. apply Rabs_le_inv in LE, A1. destruct small_facts as (_ & _ & _ & S4 & _). rewrite S4 in A1.
    assert (Z2 : B (-1072) = 2 * B (-1073)) by (change (-1072)%Z with (1 + -1073)%Z; rewrite bpow_plus; reflexivity). assert (B (-1074) <= B (-1073)) by (apply bpow_le; lia). apply Rabs_le. lra.
Qed.
Print Assumptions C91_median.
Lemma level_ok k n : (0 <= k <= n)%Z -> (0 < n <= 1000)%Z -> fin (level k n) = true /\ Rabs (val (level k n) - IZR k / IZR n) <= bpow radix2 (-53).
Proof.
  intros K N. destruct (of_Z64_exact k) as [Vk Fk]; [lia|]. destruct (of_Z64_exact n) as [Vn Fn]; [lia|]. assert (N0 : 0 < IZR n) by (apply IZR_lt; lia). assert (Q : 0 <= IZR k / IZR n <= 1). { assert (0 <= IZR k) by (apply IZR_le; lia). assert (IZR k <= IZR n) by (apply IZR_le; lia). split; [apply Rmult_le_pos; [lra|left; apply Rinv_0_lt_compat; lra]|]. apply (Rmult_le_reg_r (IZR n)); [lra|]. unfold Rdiv. rewrite Rmult_assoc, Rinv_l by lra. lra. }
  destruct (div64_b (of_Z64 k) (of_Z64 n) Fk) as [F V]; [rewrite Vn; lra|rewrite Vk, Vn, Rabs_right by lra; apply Rle_trans with (B 0); [cbn; lra|apply bpow_le; lia]|]. split; [exact F|]. unfold level. rewrite V, Vk, Vn. apply rnd64_unit_error, Q.
Qed.
Lemma triple {T} (a b c d e f : T) : Some (a, b, c) = Some (d, e, f) -> a = d /\ b = e /\ c = f.
Proof. intros H. inversion H. auto. Qed.
(** The named levels: 16, 50 and 84 percent, 2.5, 50 and 97.5, 0.5, 50 and 99.5. *)
Theorem C91_levels k lo mid hi : f_levels k = Some (lo, mid, hi) ->
  exists a, ((k = 1%nat /\ a = 16 / 100) \/ (k = 2%nat /\ a = 25 / 1000) \/ (k = 3%nat /\ a = 5 / 1000)) /\
    Rabs (val lo - a) <= bpow radix2 (-53) /\ val mid = / 2 /\ Rabs (val hi - (1 - a)) <= bpow radix2 (-53).
Proof.
  intros H. assert (Hm : val (level 1 2) = / 2) by (exact (proj1 half64_val)). destruct k as [|[|[|[|k]]]]; cbn [f_levels] in H; [discriminate H| | | |discriminate H]; apply triple in H; destruct H as (<- & <- & <-).
  - exists (16 / 100). split; [auto|]. split; [apply level_ok; lia|]. split; [exact Hm|]. replace (1 - 16 / 100) with (84 / 100) by field. apply level_ok; lia.
  - exists (25 / 1000). split; [auto|]. split; [apply level_ok; lia|]. split; [exact Hm|]. replace (1 - 25 / 1000) with (975 / 1000) by field. apply level_ok; lia.
  - exists (5 / 1000). split; [auto 6|]. split; [apply level_ok; lia|]. split; [exact Hm|]. replace (1 - 5 / 1000) with (995 / 1000) by field. apply level_ok; lia.
Qed.
Print Assumptions C91_levels.
(** Unweighted error bars: the value lies between the extremes, no error is negative, and each is the distance of the two quantiles up to one
    rounding (so it is zero only if they are equal). *)
Theorem C91_errorbar x m s k lo mid hi : sorted_sample (chosen m x) s -> f_levels k = Some (lo, mid, hi) ->
  exists ql qm qh v el eh, f_quantile s lo = Ok ql /\ f_quantile s mid = Ok qm /\ f_quantile s hi = Ok qh /\ f_errorbar (f_quantile s) lo mid hi = Ok (v, el, eh) /\
    v = qm /\ val ql <= val qm <= val qh /\ fin el = true /\ fin eh = true /\ 0 <= val el /\ 0 <= val eh /\
    Rabs (val el - (val qm - val ql)) <= bpow radix2 (-53) * (val qm - val ql) /\ Rabs (val eh - (val qh - val qm)) <= bpow radix2 (-53) * (val qh - val qm).
Proof.
  intros H HL. assert (LV : fin lo = true /\ fin mid = true /\ fin hi = true /\ 0 <= val lo <= val mid /\ val mid <= val hi <= 1).
  { assert (G : forall a b c, (fin a && fin b && fin c && Bleb (of_Z64 0) a && Bleb a b && Bleb b c && Bleb c (of_Z64 1) = true) -> fin a = true /\ fin b = true /\ fin c = true /\ 0 <= val a <= val b /\ val b <= val c <= 1).
    { intros a b c Q. repeat (apply andb_prop in Q; destruct Q as [Q ?]). destruct val_1 as [V1 F1]. destruct (of_Z64_exact 0) as [V0 F0]; [lia|]. rewrite !Bleb_val in * by assumption. rewrite V0, V1 in *. repeat match goal with X : Rle_bool ?u ?v = true |- _ => pose proof (Rle_bool_spec u v); rewrite X in *; match goal with Y : Rle_bool_prop _ _ true |- _ => inversion Y; clear Y end; clear X end. repeat split; assumption. }
    destruct k as [|[|[|[|k]]]]; cbn [f_levels] in HL; [discriminate HL| | | |discriminate HL]; apply triple in HL; destruct HL as (<- & <- & <-); apply G; vm_compute; reflexivity. }
  destruct LV as (Fl & Fm & Fh & HA & HB). destruct (C91_increases x m s lo mid H Fl Fm HA ltac:(lra)) as (ql & qm & Q1 & Q2 & Q3). destruct (C91_increases x m s mid hi H Fm Fh ltac:(lra) ltac:(lra)) as (qm' & qh & Q4 & Q5 & Q6). rewrite Q2 in Q4. inversion Q4; subst qm'. clear Q4.
  assert (FQ : forall p q, fin p = true -> 0 <= val p <= 1 -> f_quantile s p = Ok q -> fin q = true /\ Rabs (val q) <= B 1022).
  { intros p q Fp Pp Eq. destruct (C91_range x m s p H Fp) as [R _]. destruct (R Pp) as (q' & l & h & E & Fq & I1 & I2 & _ & RR). rewrite Eq in E. inversion E; subst q'. split; [exact Fq|]. destruct H as (_ & Mo & _). unfold moderate in Mo. rewrite Forall_forall in Mo. destruct (Mo l I1) as [_ B1]. destruct (Mo h I2) as [_ B2]. apply Rabs_le_inv in B1, B2. apply Rabs_le. lra. }
  destruct (FQ lo ql Fl ltac:(lra) Q1) as [F1 B1]. destruct (FQ mid qm Fm ltac:(lra) Q2) as [F2 B2]. destruct (FQ hi qh Fh ltac:(lra) Q5) as [F3 B3]. apply Rabs_le_inv in B1, B2, B3. assert (BB : B 1023 = 2 * B 1022) by (change 1023%Z with (1 + 1022)%Z; rewrite bpow_plus; reflexivity).
  destruct (minus_rel_sq qm ql F2 F1) as (d & D1 & D2 & D3); [apply Rabs_le; lra|]. destruct (minus_rel_sq qh qm F3 F2) as (e & E1 & E2 & E3); [apply Rabs_le; lra|].
  assert (U : u <= / 1024) by apply small_facts. apply Rabs_le_inv in D1 as D1', E1 as E1'.
  exists ql, qm, qh, qm, (sub64 qm ql), (sub64 qh qm). repeat (split; [assumption || (unfold f_errorbar; rewrite Q1, Q2, Q5; reflexivity) || lra|]). split; [reflexivity|]. split; [split; assumption|]. split; [exact D2|]. split; [exact E2|].
  split; [rewrite D3; apply Rmult_le_pos; lra|]. split; [rewrite E3; apply Rmult_le_pos; lra|]. split.
  - rewrite D3. replace ((val qm - val ql) * (1 + d) - (val qm - val ql)) with ((val qm - val ql) * d) by ring. rewrite Rabs_mult, (Rabs_right (val qm - val ql)) by lra. rewrite Rmult_comm. apply Rmult_le_compat_r; [lra|exact D1].
  - rewrite E3. replace ((val qh - val qm) * (1 + e) - (val qh - val qm)) with ((val qh - val qm) * e) by ring. rewrite Rabs_mult, (Rabs_right (val qh - val qm)) by lra. rewrite Rmult_comm. apply Rmult_le_compat_r; [lra|exact E1].
Qed.
Print Assumptions C91_errorbar.

(** ** Weighted quantiles *)
(** The computed cumulative shares ascend and differ from the exact ones by rounding only ([D n] additions per weight in the sum of n weights). *)
Theorem C91_shares total D w order : usable_weights total D w -> Permutation order (seq 0 (length w)) ->
  let c k := nth k (f_cumsum (f_take order (f_fractions total w))) zero64 in
  (forall k, (k < length w)%nat -> fin (c k) = true /\ Rabs (val (c k) - share order w k) <= 2 * INR (length w + D (length w) + 1) * eps) /\
  (forall i j, (i <= j < length w)%nat -> val (c i) <= val (c j)).
Proof.
  intros (A & G & [W0 WB] & Nn & T) P c. split.
  - intros k K. destruct (cdf_share total D w A G W0 WB Nn T order P k K) as (F & _ & E). split; assumption.
  - intros i j H. exact (cdf_sorted total D w A G W0 WB Nn T order P i j H).
Qed.
Print Assumptions C91_shares.
Lemma w_pos total D w : usable_weights total D w -> (0 < length w)%nat.
Proof. intros (_ & _ & [W0 _] & _). destruct w; [cbn in W0; lra|cbn; lia]. Qed.
(** A weighted quantile is a number, the least sample or more, and exceeds the largest by rounding only. *)
Theorem C91_weighted_range total D x w order M p : usable_weights total D w -> usable_samples M x w -> sorting x order -> fin p = true ->
  exists lo hi, In lo x /\ In hi x /\ (forall v, In v x -> val lo <= val v <= val hi) /\
    let q := f_wquantile total order x w p in fin q = true /\ val lo <= val q <= val hi + excess M (val lo) (val hi).
Proof.
  intros U (Lx & Mx & HM) [Po So] Fp. pose proof (w_pos _ _ _ U) as N0. destruct U as (A & G & [W0 WB] & Nn & T). rewrite Lx in Po. set (n := length w) in *. set (xs := f_take order x).
  assert (XO : forall k, (k < n)%nat -> In (nth k xs zero64) x) by (intros k K; apply (X_ok w order Po x Lx Mx k K)). assert (XS : forall i j, (i <= j < n)%nat -> val (nth i xs zero64) <= val (nth j xs zero64)) by (intros i j H; apply (X_sorted w order Po x Lx So i j H)).
  assert (LL : length xs = n) by (unfold xs; rewrite take_length, (Permutation_length Po); apply seq_length).
  exists (nth 0 xs zero64), (nth (n - 1) xs zero64). split; [apply XO; lia|]. split; [apply XO; lia|]. split.
  - intros v I. assert (PX : Permutation xs x) by (apply take_permutes; rewrite Lx; exact Po). apply (Permutation_in v (Permutation_sym PX)) in I. destruct (In_nth _ _ zero64 I) as (k & K & E). rewrite <- E. split; apply XS; lia.
  - cbn zeta. destruct (q_cases total D w A G W0 WB Nn T order Po x Lx So Mx M HM p Fp N0) as (Fq & Q). split; [exact Fq|].
    assert (EX : forall a b, val (nth 0 xs zero64) <= a -> a <= b -> b <= val (nth (n - 1) xs zero64) -> B (-49) * (b - a) + B (-53) * M + small <= excess M (val (nth 0 xs zero64)) (val (nth (n - 1) xs zero64))).
    { intros a b H1 H2 H3. unfold excess, small. assert (B (-49) * (b - a) <= B (-49) * (val (nth (n - 1) xs zero64) - val (nth 0 xs zero64))) by (apply Rmult_le_compat_l; [apply bpow_ge_0|lra]). lra. }
    assert (E0 : 0 <= excess M (val (nth 0 xs zero64)) (val (nth (n - 1) xs zero64))). { pose proof (XS 0%nat (n - 1)%nat ltac:(lia)). eapply Rle_trans; [|apply (EX (val (nth 0 xs zero64)) (val (nth 0 xs zero64))); lra]. assert (0 <= M) by (exact (M_nn w order Po x Lx Mx M HM N0)). assert (0 < small) by apply bpow_gt_0. assert (0 <= B (-53) * M) by (apply Rmult_le_pos; [apply bpow_ge_0|assumption]). replace (val (nth 0 xs zero64) - val (nth 0 xs zero64)) with 0 by ring. lra. }
    destruct Q as [[_ Q]|[[_ Q]|(k & K & _ & Q & _)]].
    + rewrite Q. fold xs. pose proof (XS 0%nat (n - 1)%nat ltac:(lia)). lra.
    + rewrite Q. fold n. fold xs. pose proof (XS 0%nat (n - 1)%nat ltac:(lia)). lra.
    + fold xs in Q. fold n in K. pose proof (XS 0%nat k ltac:(lia)). pose proof (XS k (S k) ltac:(lia)). pose proof (XS (S k) (n - 1)%nat ltac:(lia)). pose proof (EX (val (nth k xs zero64)) (val (nth (S k) xs zero64)) ltac:(lra) ltac:(lra) ltac:(lra)). lra.
Qed.
Print Assumptions C91_weighted_range.
(** It interpolates the sorted samples over the computed shares, up to rounding, and is exactly the first or last sample outside them. *)
Theorem C91_weighted_accuracy total D x w order M p : usable_weights total D w -> usable_samples M x w -> sorting x order -> fin p = true ->
  let c k := val (nth k (f_cumsum (f_take order (f_fractions total w))) zero64) in let X k := val (nth (nth k order 0%nat) x zero64) in let q := val (f_wquantile total order x w p) in
  (val p < c 0%nat /\ q = X 0%nat) \/ (c (length w - 1)%nat <= val p /\ q = X (length w - 1)%nat) \/
  exists k, (S k < length w)%nat /\ c k <= val p < c (S k) /\ X k <= q /\ Rabs (q - (X k + (val p - c k) / (c (S k) - c k) * (X (S k) - X k))) <= excess M (X k) (X (S k)).
Proof.
  intros U (Lx & Mx & HM) [Po So] Fp. pose proof (w_pos _ _ _ U) as N0. destruct U as (A & G & [W0 WB] & Nn & T). rewrite Lx in Po. cbn zeta. assert (OL : length order = length w) by (rewrite (Permutation_length Po); apply seq_length).
  assert (XE : forall k, (k < length w)%nat -> val (nth (nth k order 0%nat) x zero64) = val (nth k (f_take order x) zero64)) by (intros k K; rewrite take_nth by lia; reflexivity).
  destruct (q_cases total D w A G W0 WB Nn T order Po x Lx So Mx M HM p Fp N0) as (Fq & [[Q1 Q]|[[Q1 Q]|(k & K & Q1 & Q2 & Q3)]]).
  - left. rewrite XE by lia. rewrite Q. split; [exact Q1|reflexivity].
  - right. left. rewrite XE by lia. rewrite Q. split; [exact Q1|reflexivity].
  - right. right. exists k. rewrite !XE by lia. split; [exact K|]. split; [exact Q1|]. split; [apply Q2|exact Q3].
Qed.
Print Assumptions C91_weighted_accuracy.
(** Between two neighbouring shares a weighted quantile grows with the probability; in general it falls back by rounding only. *)
Theorem C91_weighted_increases total D x w order M p p' : usable_weights total D w -> usable_samples M x w -> sorting x order -> fin p = true -> fin p' = true -> val p <= val p' ->
  let c k := val (nth k (f_cumsum (f_take order (f_fractions total w))) zero64) in let q := val (f_wquantile total order x w p) in let q' := val (f_wquantile total order x w p') in
  (forall k, (S k < length w)%nat -> c k <= val p -> val p' < c (S k) -> q <= q') /\
  (exists lo hi, In lo x /\ In hi x /\ q <= q' + excess M (val lo) (val hi)).
Proof.
  intros U (Lx & Mx & HM) [Po So] Fp Fp' HP. pose proof (w_pos _ _ _ U) as N0. destruct U as (A & G & [W0 WB] & Nn & T). rewrite Lx in Po. cbn zeta. split.
  - intros k K H H'. apply (q_cell_mono total D w A G W0 WB Nn T order Po x Lx So Mx M HM p p' k Fp Fp' K); [split; assumption|exact H'].
  - set (n := length w) in *. set (xs := f_take order x). assert (XO : forall k, (k < n)%nat -> In (nth k xs zero64) x) by (intros k K; apply (X_ok w order Po x Lx Mx k K)). assert (XS : forall i j, (i <= j < n)%nat -> val (nth i xs zero64) <= val (nth j xs zero64)) by (intros i j H; apply (X_sorted w order Po x Lx So i j H)).
    assert (M0 : 0 <= M) by (exact (M_nn w order Po x Lx Mx M HM N0)). assert (S0 : 0 < small) by apply bpow_gt_0. assert (MU : 0 <= B (-53) * M) by (apply Rmult_le_pos; [apply bpow_ge_0|assumption]).
    assert (CS := fun i j => cdf_sorted total D w A G W0 WB Nn T order Po i j). fold n in CS.
    destruct (q_cases total D w A G W0 WB Nn T order Po x Lx So Mx M HM p Fp N0) as (Fq & Q). destruct (q_cases total D w A G W0 WB Nn T order Po x Lx So Mx M HM p' Fp' N0) as (Fq' & Q'). fold xs in Q, Q'. fold n in Q, Q'.
    assert (Z : forall a, 0 <= excess M a a) by (intros a; unfold excess; replace (a - a) with 0 by ring; fold small; lra).
    destruct Q as [[Q1 Q]|[[Q1 Q]|(k & K & Q1 & Q2 & Q3)]].
    + exists (nth 0 xs zero64), (nth 0 xs zero64). split; [apply XO; lia|]. split; [apply XO; lia|]. rewrite Q. fold xs. specialize (Z (val (nth 0 xs zero64))). destruct Q' as [[_ Q']|[[_ Q']|(k & K & _ & Q2 & _)]]; [rewrite Q'; lra|rewrite Q'; pose proof (XS 0%nat (n - 1)%nat ltac:(lia)); lra|pose proof (XS 0%nat k ltac:(lia)); lra].
    + exists (nth 0 xs zero64), (nth 0 xs zero64). split; [apply XO; lia|]. split; [apply XO; lia|]. rewrite Q. specialize (Z (val (nth 0 xs zero64))). destruct Q' as [[C _]|[[_ Q']|(k & K & C & _)]]; [pose proof (CS 0%nat (n - 1)%nat ltac:(lia)); lra|rewrite Q'; lra|pose proof (CS (S k) (n - 1)%nat ltac:(lia)); lra].
    + exists (nth k xs zero64), (nth (S k) xs zero64). split; [apply XO; lia|]. split; [apply XO; lia|]. pose proof (XS k (S k) ltac:(lia)) as XK. assert (EN : 0 <= excess M (val (nth k xs zero64)) (val (nth (S k) xs zero64))) by (unfold excess; fold small; assert (0 <= B (-49) * (val (nth (S k) xs zero64) - val (nth k xs zero64))) by (apply Rmult_le_pos; [apply bpow_ge_0|lra]); lra).
      unfold excess in EN |- *. fold small in EN |- *. destruct Q' as [[C _]|[[_ Q']|(j & J & C & Q2' & Q3')]].
      * pose proof (CS 0%nat k ltac:(lia)). lra.
      * rewrite Q'. pose proof (XS (S k) (n - 1)%nat ltac:(lia)). lra.
      * destruct (Nat.lt_trichotomy j k) as [L|[L|L]]; [pose proof (CS (S j) k ltac:(lia)); lra| |pose proof (XS (S k) j ltac:(lia)); lra]. subst j.
        pose proof (q_cell_mono total D w A G W0 WB Nn T order Po x Lx So Mx M HM p p' k Fp Fp' K ltac:(lra) (proj2 C)). lra.
Qed.
Print Assumptions C91_weighted_increases.

(** The weighted median is the weighted quantile at 1/2 with weights divided by their sum twice: same range, same shares up to rounding. *)
Theorem C91_weighted_median total D x w order M : usable_weights total D w -> Forall (fun a => val a = 0 \/ bpow radix2 (-380) * Rsum (map val w) <= val a) w -> usable_samples M x w -> sorting x order ->
  exists lo hi, In lo x /\ In hi x /\ (forall v, In v x -> val lo <= val v <= val hi) /\
    let q := f_wmedian total order x w in fin q = true /\ val lo <= val q <= val hi + excess M (val lo) (val hi).
Proof.
  intros U T S So. destruct half64_val as [_ Fh]. apply (C91_weighted_range total D x (f_fractions total w) order M half64); [apply fractions_usable; assumption| |exact So|exact Fh].
  destruct S as (L & S2 & S3). split; [unfold f_fractions; rewrite map_length; exact L|]. split; assumption.
Qed.
Print Assumptions C91_weighted_median.

(** ** Findings *)
Lemma lt_val x y : fin x = true -> fin y = true -> Bltb x y = true -> val x < val y.
Proof. intros Fx Fy H. pose proof (@Bltb_correct 53 1024 x y Fx Fy) as E. rewrite E in H. revert H. case Rlt_bool_spec; [auto|discriminate]. Qed.
Lemma found s p y : (match f_quantile s p with Ok q => fin q && fin y && Bltb q y | Err _ => false end) = true -> exists q, f_quantile s p = Ok q /\ val q < val y.
Proof. destruct (f_quantile s p) as [q|e]; [|discriminate]. intros H. apply andb_prop in H. destruct H as [H H3]. apply andb_prop in H. destruct H as [H1 H2]. exists q. split; [reflexivity|apply lt_val; assumption]. Qed.
Definition d (m : positive) (e : Z) (h : SpecFloat.bounded 53 1024 m e = true) : b64 := @B754_finite 53 1024 false m e h.
(** Finding: the median of two samples is not their quantile at 1/2 (0.3, 3.9: 2.1 and 2.0999999999999996). *)
Theorem C91_median_refuted : exists s q, smallest_first s s /\ f_quantile s half64 = Ok q /\ val q < val (f_median s).
Proof.
  set (a := d 5404319552844595 (-54) eq_refl). set (b := d 8782019273372467 (-51) eq_refl). assert (AB : val a < val b) by (apply lt_val; vm_compute; reflexivity).
  exists [a; b]. assert (Q : exists q, f_quantile [a; b] half64 = Ok q /\ val q < val (f_median [a; b])) by (apply found; vm_compute; reflexivity). destruct Q as (q & Q1 & Q2). exists q. split; [split; [apply Permutation_refl|intros i j H; cbn [length] in H; destruct i as [|[|i]], j as [|[|j]]; cbn [nth]; lra || lia]|]. split; assumption.
Qed.
Print Assumptions C91_median_refuted.
(** Finding: the k-th of n samples is not the quantile at k / (n - 1): 0, 1, ..., 22 at 15 / 22 give 14.999999999999998. *)
Theorem C91_order_statistic_refuted : let s := map (fun k => of_Z64 (Z.of_nat k)) (seq 0 23) in exists q, f_quantile s (div64 (of_Z64 15) (of_Z64 22)) = Ok q /\ val q < 15.
Proof.
  intros s. destruct (of_Z64_exact 15) as [V _]; [lia|]. rewrite <- V. apply found; vm_compute; reflexivity.
Qed.
Print Assumptions C91_order_statistic_refuted.
(** Finding: a weighted quantile can exceed the largest sample, and so fall when the probability grows: weights 3 and 4 of 4.0 and 8.6, at
    p = 1 - 2^-53 and at 1. *)
Theorem C91_weighted_range_refuted : let x := [of_Z64 4; d 4841369599423283 (-49) eq_refl] in let w := [of_Z64 3; of_Z64 4] in let p := d 9007199254740991 (-53) eq_refl in
  sorting x [0; 1]%nat /\ val p < 1 /\ (forall v, In v x -> val v < val (f_wquantile np_sum [0; 1]%nat x w p)) /\
  val (f_wquantile np_sum [0; 1]%nat x w (of_Z64 1)) < val (f_wquantile np_sum [0; 1]%nat x w p).
Proof.
  intros x w p. destruct val_1 as [V1 _]. split; [|split; [|split]].
  - split; [apply Permutation_refl|]. assert (val (of_Z64 4) < val (d 4841369599423283 (-49) eq_refl)) by (apply lt_val; vm_compute; reflexivity). intros i j H'. cbn [length] in H'. destruct i as [|[|i]], j as [|[|j]]; cbn [nth x]; lra || lia.
  - rewrite <- V1. apply lt_val; vm_compute; reflexivity.
  - intros v [<-|[<-|[]]]; apply lt_val; vm_compute; reflexivity.
  - apply lt_val; vm_compute; reflexivity.
Qed.
Print Assumptions C91_weighted_range_refuted.
(** Finding: a weighted error bar can be negative: -41, 1.2, 1.2 with weights 2^-10, 0.159..., 0.84 and the default levels. *)
Theorem C91_weighted_errorbar_refuted : let x := [of_Z64 (-41); d 5404319552844595 (-52) eq_refl; d 5404319552844595 (-52) eq_refl] in
  let w := [d 4503599627370496 (-62) eq_refl; d 5729423150945404 (-55) eq_refl; d 7566047373982433 (-53) eq_refl] in
  sorting x [0; 1; 2]%nat /\ exists lo mid hi v el eh, f_levels 1 = Some (lo, mid, hi) /\ f_errorbar (fun p => Ok (f_wquantile np_sum [0; 1; 2]%nat x w p)) lo mid hi = Ok (v, el, eh) /\ val el < 0.
Proof.
  intros x w. split.
  - split; [apply Permutation_refl|]. assert (val (of_Z64 (-41)) < val (d 5404319552844595 (-52) eq_refl)) by (apply lt_val; vm_compute; reflexivity). intros i j H'. cbn [length] in H'. destruct i as [|[|[|i]]], j as [|[|[|j]]]; cbn [nth x]; lra || lia.
  - eexists _, _, _, _, _, _. split; [reflexivity|]. split; [reflexivity|]. destruct (of_Z64_exact 0) as [V0 _]; [lia|]. rewrite <- V0. apply lt_val; vm_compute; reflexivity.
Qed.
Print Assumptions C91_weighted_errorbar_refuted.

(** Non-vacuity. *)
Example C91_ex : let x := [of_Z64 5; of_Z64 1; of_Z64 9; of_Z64 3] in let m := Some [true; true; false; true] in let s := [of_Z64 1; of_Z64 3; of_Z64 5] in
  sorted_sample (chosen m x) s /\ gaps_at_most 2 (map val s) /\ f_quantile s half64 = Ok (of_Z64 3) /\ exact_quantile (map val s) (/ 2) = 3.
Proof.
  intros x m s. destruct (of_Z64_exact 1) as [V1 F1]; [lia|]. destruct (of_Z64_exact 3) as [V3 F3]; [lia|]. destruct (of_Z64_exact 5) as [V5 F5]; [lia|]. assert (B3 : 8 <= B 1022) by (change 8 with (B 3); apply bpow_le; lia). split; [|split; [|split]].
  - split; [discriminate|]. split; [|split; [cbn; lia|]].
    + apply Forall_forall. cbn [chosen m x combine filter map fst snd]. intros v [<-|[<-|[<-|[]]]]; (split; [assumption|]); rewrite ?V1, ?V3, ?V5, Rabs_right; lra.
    + split; [cbn; apply (Permutation_cons_app [of_Z64 1; of_Z64 3] []); apply Permutation_refl|]. intros i j H. cbn [length s] in H. destruct i as [|[|[|i]]], j as [|[|[|j]]]; cbn [nth s]; rewrite ?V1, ?V3, ?V5; lra || lia.
  - intros i H. cbn [s map length] in *. rewrite V1, V3, V5. destruct i as [|[|i]]; cbn [nth]; lra || lia.
  - assert (E : (match f_quantile s half64 with Ok q => B2SF q | Err _ => SpecFloat.S754_nan end) = B2SF (of_Z64 3)) by (vm_compute; reflexivity). destruct (f_quantile s half64) as [q|e]; [|vm_compute in E; discriminate]. f_equal. apply B2SF_inj, E.
  - unfold exact_quantile, exact_at. cbn [s map length Nat.sub]. rewrite V1, V3, V5. replace (INR 2 * / 2) with (IZR 1) by (cbn [INR]; field). rewrite Zfloor_IZR. change (Z.to_nat 1) with 1%nat. cbn [nth]. lra.
Qed.
Example C91_ex_weights : usable_weights np_sum np_depth [of_Z64 3; of_Z64 4] /\ usable_samples 9 [of_Z64 8; of_Z64 4] [of_Z64 3; of_Z64 4] /\ sorting [of_Z64 8; of_Z64 4] [1; 0]%nat.
Proof.
  destruct (of_Z64_exact 3) as [V3 F3]; [lia|]. destruct (of_Z64_exact 4) as [V4 F4]; [lia|]. destruct (of_Z64_exact 8) as [V8 F8]; [lia|]. assert (B3 : 16 <= B 1000) by (change 16 with (B 4); apply bpow_le; lia). assert (B4 : 16 <= B 400) by (change 16 with (B 4); apply bpow_le; lia). assert (BS : 0 < B (-390) <= / 16) by (split; [apply bpow_gt_0|change (/ 16) with (B (-4)); apply bpow_le; lia]). split; [|split].
  - split; [apply np_sum_adds|]. split; [apply Forall_forall; intros v [<-|[<-|[]]]; (split; [assumption|]); rewrite ?V3, ?V4; lra|]. split; [unfold Rsum; cbn [map fold_right]; rewrite V3, V4; lra|]. split.
    + change (length [of_Z64 3; of_Z64 4] + np_depth (length [of_Z64 3; of_Z64 4]))%nat with 28%nat. unfold eps. replace (INR 28) with 28 by (cbn; ring). assert (B (-52) <= B (-10)) by (apply bpow_le; lia). change (B (-10)) with (/ 1024) in H. pose proof (bpow_gt_0 radix2 (-52)). lra.
    + cbn [map]. unfold Rsum. cbn [fold_right]. apply Forall_forall; intros v [<-|[<-|[]]]; right; rewrite V3, V4; lra.
  - split; [reflexivity|]. split; apply Forall_forall; intros v [<-|[<-|[]]]; try (split; [assumption|]); rewrite ?V4, ?V8, Rabs_right; lra.
  - split; [apply perm_swap|]. intros i j H. cbn [length] in H. destruct i as [|[|i]], j as [|[|j]]; cbn [nth]; rewrite ?V4, ?V8; lra || lia.
Qed.
