(** Proofs for C91: quantiles of sorted samples. *)
From Coq Require Import ZArith Reals Lra Lia List Permutation Bool.
Require Import Flocq.Core.Core Flocq.IEEE754.BinarySingleNaN.
From Verif Require Import Base ProcFloat InterpFloatProofs MeshFloatModel MeshFloatProofs BinFloatProofs FredModel FredSpec FredProofs FredProofs2 FredProofs3 FredProofs4 FquaModel FquaSpec FquaProofs.
Import ListNotations. Local Open Scope list_scope. Local Open Scope R_scope.

Lemma err_abs y : Rabs (rnd64 y - y) <= B (-53) * Rabs y + B (-1075).
Proof. destruct (err64 y) as (d & e & D & E & _ & ->). replace (y * (1 + d) + e - y) with (y * d + e) by ring. eapply Rle_trans; [apply Rabs_triang|]. rewrite Rabs_mult. pose proof (Rabs_pos y). assert (Rabs y * Rabs d <= Rabs y * B (-53)) by (apply Rmult_le_compat_l; lra). lra. Qed.

Lemma lerp_err a b t M : fin a = true -> fin b = true -> Rabs (val a) <= B 1022 -> Rabs (val b) <= B 1022 -> val a <= val b -> fin t = true -> 0 <= val t <= 1 -> Rabs (val a) <= M -> Rabs (val b) <= M ->
  Rabs (val (f_lerp a b t) - (val a + val t * (val b - val a))) <= B (-53) * (2 * (val b - val a) + M) + B (-1073).
Proof.
  intros Fa Fb Ma Mb AB Ft T Na Nb. destruct (lerp_ok a b Fa Fb Ma Mb AB t Ft T) as (_ & V & _). rewrite V. pose proof (x_range a b Ma Mb AB) as X. destruct (d_ok a b Fa Fb Ma Mb AB) as (_ & _ & D). unfold Lv. cbn zeta. set (x := val b - val a) in *. set (d := rnd64 x) in *.
  destruct small_facts as (S1 & S2 & _). set (u := B (-53)) in *. set (z := B (-1075)) in *. assert (Z4 : B (-1073) = 4 * z) by (unfold z; change (-1073)%Z with (2 + -1075)%Z; rewrite bpow_plus; reflexivity). rewrite Z4.
  assert (ED : Rabs (d - x) <= u * x + z). { pose proof (err_abs x) as Q. rewrite (Rabs_right x) in Q by lra. exact Q. }
  apply Rabs_le_inv in ED, Na, Nb. assert (UX : 0 <= u * x) by (apply Rmult_le_pos; lra). assert (UX1 : u * x <= x * / 1024) by (rewrite Rmult_comm; apply Rmult_le_compat_l; lra).
  assert (Half : forall c, 0 <= c <= / 2 -> Rabs (rnd64 (d * c) - x * c) <= 3 / 2 * (u * x) + 2 * z).
  { intros c C. pose proof (err_abs (d * c)) as Q. assert (D1 : 0 <= d * c <= d * / 2) by (split; [apply Rmult_le_pos; lra|apply Rmult_le_compat_l; lra]). rewrite (Rabs_right (d * c)) in Q by lra. apply Rabs_le_inv in Q. fold u in Q. fold z in Q.
    assert (UD : u * (d * c) <= u * (d * / 2)) by (apply Rmult_le_compat_l; lra). assert (UD2 : u * d <= u * (x + u * x + z)) by (apply Rmult_le_compat_l; lra). assert (U1 : u * (u * x) <= / 1024 * (u * x)) by (apply Rmult_le_compat_r; lra). assert (U2 : u * z <= / 1024 * z) by (apply Rmult_le_compat_r; lra).
    assert (DC : - ((u * x + z) * / 2) <= (d - x) * c <= (u * x + z) * / 2). { apply Rabs_le_inv. rewrite Rabs_mult, (Rabs_right c) by lra. apply Rmult_le_compat; [apply Rabs_pos|lra|apply Rabs_le; lra|lra]. }
    apply Rabs_le. lra. }
  pose proof (Rabs_pos (val a)).
  assert (M0 : 0 <= M) by lra.
  case Rle_bool_spec; intros Ht.
  - pose proof (Half (1 - val t) ltac:(lra)) as Hc. apply Rabs_le_inv in Hc. pose proof (upper_ok a b Fa Fb Ma Mb AB (val t) ltac:(lra)) as U. pose proof (half_ok a b Fa Fb Ma Mb AB) as HO. fold x in U, HO. fold d in U, HO.
    pose proof (err_abs (val b - rnd64 (d * (1 - val t)))) as Q. assert (A : Rabs (val b - rnd64 (d * (1 - val t))) <= M) by (apply Rabs_le; unfold x in HO; lra). assert (UA : u * Rabs (val b - rnd64 (d * (1 - val t))) <= u * M) by (apply Rmult_le_compat_l; lra). fold u in Q. fold z in Q. apply Rabs_le_inv in Q. apply Rabs_le. unfold x in *. lra.
  - destruct (lower_ok a b Fa Fb Ma Mb AB (val t) ltac:(lra) (below_half t Ht)) as [L1 L2]. pose proof (half_nn a b Fa Fb Ma Mb AB) as HN. fold x in L1, L2, HN. fold d in L1, L2, HN. pose proof (Half (val t) ltac:(lra)) as Hc. apply Rabs_le_inv in Hc.
    pose proof (err_abs (val a + rnd64 (d * val t))) as Q. assert (A : Rabs (val a + rnd64 (d * val t)) <= M) by (apply Rabs_le; unfold x in L2; lra). assert (UA : u * Rabs (val a + rnd64 (d * val t)) <= u * M) by (apply Rmult_le_compat_l; lra). fold u in Q. fold z in Q. apply Rabs_le_inv in Q. apply Rabs_le. unfold x in *. lra.
Qed.

Section sorted.
Variable s : list b64.
Hypothesis Ss : forall i j, (i <= j < length s)%nat -> val (nth i s zero64) <= val (nth j s zero64).
Hypothesis Ms : moderate s.
Hypothesis Ns : s <> [].
Hypothesis Ls : (Z.of_nat (length s) <= 2 ^ 53)%Z.
Notation at_i i := (nth i s zero64).
Let m := (length s - 1)%nat.
Lemma len_pos : (length s = S m)%nat. Proof. unfold m. destruct s; [congruence|cbn; lia]. Qed.
Lemma at_ok i : (i < length s)%nat -> fin (at_i i) = true /\ Rabs (val (at_i i)) <= B 1022.
Proof. intros H. unfold moderate in Ms. rewrite Forall_forall in Ms. apply Ms, nth_In, H. Qed.
Lemma m_val : val (of_Z64 (Z.of_nat m)) = INR m /\ fin (of_Z64 (Z.of_nat m)) = true.
Proof. rewrite INR_IZR_INZ. apply of_Z64_exact. pose proof len_pos. lia. Qed.
(** The cell of a virtual index. *)
Lemma cell v : fin v = true -> 0 <= val v < INR m -> let i := Z.to_nat (ffloor v) in let g := sub64 v (of_Z64 (ffloor v)) in
  (S i <= m)%nat /\ ffloor v = Z.of_nat i /\ Zfloor (val v) = Z.of_nat i /\ fin g = true /\ val g = rnd64 (val v - INR i) /\ 0 <= val g <= 1 /\ INR i <= val v < INR i + 1.
Proof.
  intros F [V0 V1]. cbn zeta. rewrite (ffloor_val v F). set (i := Z.to_nat (Zfloor (val v))). set (g := sub64 v _). assert (Z0 : (0 <= Zfloor (val v))%Z) by (apply Zfloor_lub; exact V0). assert (ZI : Zfloor (val v) = Z.of_nat i) by (unfold i; lia). 
  pose proof (Zfloor_lb (val v)) as LB. pose proof (Zfloor_ub (val v)) as UB. rewrite ZI, <- INR_IZR_INZ in LB, UB.
  assert (SI : (S i <= m)%nat) by (apply INR_lt; lra). destruct (of_Z64_exact (Z.of_nat i)) as [Vi Fi]; [pose proof len_pos; lia|]. rewrite <- INR_IZR_INZ in Vi.
  destruct (sub64_b v (of_Z64 (Z.of_nat i)) F Fi) as [Fg Vg]. { rewrite Vi, Rabs_right by lra. apply Rle_trans with (B 0); [cbn; lra|apply bpow_le; lia]. }
  unfold g. rewrite ZI. rewrite Vi in Vg. repeat split; try assumption; try lra. rewrite Vg. apply rnd64_pos; lra. rewrite Vg, <- rnd64_1. apply rnd64_le. lra.
Qed.
Lemma f_at_cell v : fin v = true -> 0 <= val v < INR m -> let i := Z.to_nat (ffloor v) in f_at s v = f_lerp (at_i i) (at_i (S i)) (sub64 v (of_Z64 (ffloor v))).
Proof. intros F V i. unfold f_at. fold m. destruct m_val as [Vm Fm]. rewrite (Bleb_val _ v Fm F), Vm. case Rle_bool_spec; intros H; [lra|reflexivity]. Qed.
Lemma f_at_end v : fin v = true -> INR m <= val v -> f_at s v = at_i m.
Proof. intros F V. unfold f_at. fold m. destruct m_val as [Vm Fm]. rewrite (Bleb_val _ v Fm F), Vm. case Rle_bool_spec; intros H; [reflexivity|lra]. Qed.
Lemma f_at_range v : fin v = true -> 0 <= val v < INR m -> let i := Z.to_nat (ffloor v) in fin (f_at s v) = true /\ val (at_i i) <= val (f_at s v) <= val (at_i (S i)).
Proof.
  intros F V i. destruct (cell v F V) as (C1 & C2 & C3 & C4 & C5 & C6 & C7). fold i in C1. rewrite f_at_cell by assumption. fold i. pose proof len_pos as LP. destruct (at_ok i ltac:(lia)) as [Fa Ma]. destruct (at_ok (S i) ltac:(lia)) as [Fb Mb].
  destruct (lerp_ok _ _ Fa Fb Ma Mb (Ss i (S i) ltac:(lia)) _ C4 C6) as (R1 & _ & R2). split; assumption.
Qed.
Lemma f_at_ok v : fin v = true -> 0 <= val v -> fin (f_at s v) = true /\ val (at_i 0) <= val (f_at s v) <= val (at_i m).
Proof.
  intros F V. pose proof len_pos as LP. destruct (Rlt_or_le (val v) (INR m)) as [H|H].
  - destruct (f_at_range v F ltac:(lra)) as [R1 R2]. destruct (cell v F ltac:(lra)) as (C1 & _). split; [exact R1|]. pose proof (Ss 0 (Z.to_nat (ffloor v)) ltac:(lia)). pose proof (Ss (S (Z.to_nat (ffloor v))) m ltac:(lia)). lra.
  - rewrite f_at_end by assumption. split; [apply at_ok; lia|]. split; [apply Ss; lia|lra].
Qed.
Lemma f_at_mono v v' : fin v = true -> fin v' = true -> 0 <= val v <= val v' -> val (f_at s v) <= val (f_at s v').
Proof.
  intros F F' V. pose proof len_pos as LP. destruct (Rlt_or_le (val v') (INR m)) as [H|H].
  - destruct (f_at_range v F ltac:(lra)) as [_ R]. destruct (f_at_range v' F' ltac:(lra)) as [_ R']. destruct (cell v F ltac:(lra)) as (C1 & C2 & C3 & C4 & C5 & C6 & C7). destruct (cell v' F' ltac:(lra)) as (C1' & C2' & C3' & C4' & C5' & C6' & C7').
    set (i := Z.to_nat (ffloor v)) in *. set (j := Z.to_nat (ffloor v')) in *. destruct (Nat.eq_dec i j) as [E|E].
    + rewrite (f_at_cell v F ltac:(lra)), (f_at_cell v' F' ltac:(lra)). fold i. fold j. rewrite <- E in *. destruct (at_ok i ltac:(lia)) as [Fa Ma]. destruct (at_ok (S i) ltac:(lia)) as [Fb Mb].
      apply lerp_mono; try assumption; [apply Ss; lia| |lra]. split; [lra|]. rewrite C5, C5'. apply rnd64_le. lra.
    + assert (IJ : (S i <= j)%nat). { assert (INR i < INR (S j)) by (rewrite S_INR; lra). apply INR_lt in H0. lia. } pose proof (Ss (S i) j ltac:(lia)). lra.
  - rewrite (f_at_end v' F' H). apply f_at_ok; [exact F|lra].
Qed.
(** The virtual index of a probability. *)
Lemma index_ok p : fin p = true -> 0 <= val p <= 1 -> let v := mul64 (of_Z64 (Z.of_nat m)) p in fin v = true /\ val v = rnd64 (INR m * val p) /\ 0 <= val v <= INR m.
Proof.
  intros F P v. destruct m_val as [Vm Fm]. pose proof (pos_INR m) as M0. assert (MM : INR m <= B 53). { rewrite INR_IZR_INZ, <- IZR_bpow by lia. apply IZR_le. pose proof len_pos. lia. }
  assert (MP : 0 <= INR m * val p <= INR m) by (split; [apply Rmult_le_pos; lra|rewrite <- (Rmult_1_r (INR m)) at 2; apply Rmult_le_compat_l; lra]).
  destruct (mul64_b (of_Z64 (Z.of_nat m)) p Fm F) as [Fv Vv]. { rewrite Vm, Rabs_right by lra. assert (B 53 <= B 1023) by (apply bpow_le; lia). lra. }
  rewrite Vm in Vv. fold v in Fv, Vv. split; [exact Fv|]. split; [exact Vv|]. rewrite Vv. split; [apply rnd64_pos; lra|]. assert (RM : rnd64 (INR m) = INR m) by (rewrite <- Vm; apply rnd64_val). apply Rle_trans with (rnd64 (INR m)); [apply rnd64_le; lra|lra].
Qed.
Lemma quantile_is p : fin p = true -> 0 <= val p <= 1 -> f_quantile s p = Ok (f_at s (mul64 (of_Z64 (Z.of_nat m)) p)).
Proof.
  intros F P. unfold f_quantile. fold m. destruct val_1 as [V1 F1]. destruct (of_Z64_exact 0) as [V0 F0]; [lia|]. rewrite (Bleb_val (of_Z64 0) p F0 F), (Bleb_val p (of_Z64 1) F F1), V0, V1.
  rewrite (Rle_bool_true 0 (val p)) by lra. rewrite (Rle_bool_true (val p) 1) by lra. reflexivity.
Qed.
Lemma quantile_bad p : fin p = true -> ~ (0 <= val p <= 1) -> f_quantile s p = Err ValueError.
Proof.
  intros F P. unfold f_quantile. destruct val_1 as [V1 F1]. destruct (of_Z64_exact 0) as [V0 F0]; [lia|]. rewrite (Bleb_val (of_Z64 0) p F0 F), (Bleb_val p (of_Z64 1) F F1), V0, V1.
  case Rle_bool_spec; intros H1; [|reflexivity]. case Rle_bool_spec; intros H2; [|reflexivity]. exfalso. apply P. split; assumption.
Qed.
(** Exact quantile: neighbouring indices. *)
Let rs := map val s.
Lemma R_nth i d : (i < length s)%nat -> nth i rs d = val (at_i i).
Proof. intros H. unfold rs. rewrite (nth_indep (map val s) d (val zero64)) by (rewrite map_length; exact H). apply map_nth. Qed.
Lemma exact_cell h i : INR i <= h < INR i + 1 -> (S i <= m)%nat -> exact_at rs h = val (at_i i) + (h - INR i) * (val (at_i (S i)) - val (at_i i)).
Proof.
  intros H Hi. pose proof len_pos as LP. unfold exact_at. assert (E : Zfloor h = Z.of_nat i) by (apply Zfloor_imp; rewrite plus_IZR, <- INR_IZR_INZ; lra). rewrite E, Nat2Z.id, <- INR_IZR_INZ. cbn zeta. rewrite !R_nth by lia. reflexivity.
Qed.
Lemma exact_end : exact_at rs (INR m) = val (at_i m).
Proof. pose proof len_pos as LP. unfold exact_at. assert (E : Zfloor (INR m) = Z.of_nat m) by (rewrite INR_IZR_INZ; apply Zfloor_IZR). rewrite E, Nat2Z.id, <- INR_IZR_INZ. cbn zeta. rewrite R_nth by lia. ring. Qed.
Lemma locate h : 0 <= h < INR m -> exists i, (S i <= m)%nat /\ INR i <= h < INR i + 1.
Proof.
  intros H. exists (Z.to_nat (Zfloor h)). assert (Z0 : (0 <= Zfloor h)%Z) by (apply Zfloor_lub; apply H). pose proof (Zfloor_lb h). pose proof (Zfloor_ub h). assert (E : INR (Z.to_nat (Zfloor h)) = IZR (Zfloor h)) by (rewrite INR_IZR_INZ, Z2Nat.id by lia; reflexivity). rewrite E. split; [|lra]. apply INR_lt. lra.
Qed.
Variable g : R.
Hypothesis G : gaps_at_most g rs.
Lemma gap i : (S i <= m)%nat -> 0 <= val (at_i (S i)) - val (at_i i) <= g.
Proof. intros H. pose proof len_pos as LP. pose proof (Ss i (S i) ltac:(lia)). split; [lra|]. specialize (G i). unfold rs in G. rewrite map_length in G. fold rs in G. rewrite !R_nth in G by lia. apply G. lia. Qed.
Lemma far i j : (i <= j <= m)%nat -> 0 <= val (at_i j) - val (at_i i) <= g * (INR j - INR i).
Proof.
  intros [H1 H2]. induction H1 as [|j H1 IH]; [lra|]. specialize (IH ltac:(lia)). pose proof (gap j ltac:(lia)). rewrite S_INR. lra.
Qed.
Lemma exact_lip h h' : 0 <= h <= h' -> h' <= INR m -> 0 <= exact_at rs h' - exact_at rs h <= g * (h' - h).
Proof.
  intros H H'. pose proof len_pos as LP. destruct (Rlt_or_le h' (INR m)) as [C|C].
  - destruct (locate h ltac:(lra)) as (i & I1 & I2). destruct (locate h' ltac:(lra)) as (j & J1 & J2). rewrite (exact_cell h i I2 I1), (exact_cell h' j J2 J1). pose proof (gap i I1) as GI. pose proof (gap j J1) as GJ.
    set (di := val (at_i (S i)) - val (at_i i)) in *. set (dj := val (at_i (S j)) - val (at_i j)) in *. destruct (Nat.eq_dec i j) as [E|E].
    + subst j. fold di in dj. assert (Q : (h' - INR i) * dj - (h - INR i) * di = (h' - h) * di) by (unfold dj; ring). assert (0 <= (h' - h) * di <= (h' - h) * g) by (split; [apply Rmult_le_pos; lra|apply Rmult_le_compat_l; lra]). lra.
    + assert (IJ : (S i <= j)%nat). { assert (Q : INR i < INR (S j)) by (rewrite S_INR; lra). apply INR_lt in Q. lia. } pose proof (far (S i) j ltac:(lia)) as F. rewrite S_INR in F.
      assert (A1 : 0 <= (h' - INR j) * dj <= (h' - INR j) * g) by (split; [apply Rmult_le_pos; lra|apply Rmult_le_compat_l; lra]). assert (A2 : 0 <= (INR i + 1 - h) * di <= (INR i + 1 - h) * g) by (split; [apply Rmult_le_pos; lra|apply Rmult_le_compat_l; lra]).
      replace (val (at_i j) + (h' - INR j) * dj - (val (at_i i) + (h - INR i) * di)) with (val (at_i j) - val (at_i (S i)) + (h' - INR j) * dj + (INR i + 1 - h) * di) by (unfold di; ring). lra.
  - assert (E : h' = INR m) by lra. rewrite E, exact_end. destruct (Rlt_or_le h (INR m)) as [D|D].
    + destruct (locate h ltac:(lra)) as (i & I1 & I2). rewrite (exact_cell h i I2 I1). pose proof (gap i I1) as GI. set (di := val (at_i (S i)) - val (at_i i)) in *. pose proof (far (S i) m ltac:(lia)) as F. rewrite S_INR in F.
      assert (A2 : 0 <= (INR i + 1 - h) * di <= (INR i + 1 - h) * g) by (split; [apply Rmult_le_pos; lra|apply Rmult_le_compat_l; lra]). replace (val (at_i m) - (val (at_i i) + (h - INR i) * di)) with (val (at_i m) - val (at_i (S i)) + (INR i + 1 - h) * di) by (unfold di; ring). lra.
    + assert (E2 : h = INR m) by lra. rewrite E2, exact_end. lra.
Qed.
Variable M : R.
Hypothesis HM : Forall (fun v => Rabs (val v) <= M) s.
Lemma at_M i : (i < length s)%nat -> Rabs (val (at_i i)) <= M.
Proof. intros H. rewrite Forall_forall in HM. apply HM, nth_In, H. Qed.
Lemma g_nn : (1 <= m)%nat -> 0 <= g.
Proof. intros H. pose proof (gap 0 ltac:(lia)). lra. Qed.
Lemma accuracy p : fin p = true -> 0 <= val p <= 1 -> exists q, f_quantile s p = Ok q /\ Rabs (val q - exact_quantile rs (val p)) <= B (-53) * (INR (length s + 3) * g + M) + B (-1073) \/ (length s = 1)%nat /\ f_quantile s p = Ok q /\ val q = exact_quantile rs (val p).
Proof.
  intros F P. exists (f_at s (mul64 (of_Z64 (Z.of_nat m)) p)). pose proof len_pos as LP. destruct (index_ok p F P) as (Fv & Vv & Rv). set (v := mul64 (of_Z64 (Z.of_nat m)) p) in *.
  assert (EQ : exact_quantile rs (val p) = exact_at rs (INR m * val p)) by (unfold exact_quantile, rs; rewrite map_length; fold m; reflexivity). rewrite EQ.
  destruct (Nat.eq_dec m 0) as [M0|M0].
  - right. split; [lia|]. split; [apply quantile_is; assumption|]. rewrite f_at_end; [|exact Fv|rewrite M0 in *; cbn [INR] in *; lra]. rewrite M0. cbn [INR]. rewrite Rmult_0_l. rewrite <- M0. replace 0 with (INR m) by (rewrite M0; reflexivity). rewrite exact_end. reflexivity.
  - left. split; [apply quantile_is; assumption|]. pose proof (g_nn ltac:(lia)) as G0. set (h := INR m * val p) in *.
    assert (HR : 0 <= h <= INR m). { unfold h. pose proof (pos_INR m). split; [apply Rmult_le_pos; lra|rewrite <- (Rmult_1_r (INR m)) at 2; apply Rmult_le_compat_l; lra]. }
    destruct small_facts as (S1 & S2 & _). pose proof (err_abs h) as EV. rewrite <- Vv, (Rabs_right h) in EV by lra. set (u := B (-53)) in *. set (z := B (-1075)) in *. assert (Z4 : B (-1073) = 4 * z) by (unfold z; change (-1073)%Z with (2 + -1075)%Z; rewrite bpow_plus; reflexivity). rewrite Z4.
    assert (UH : u * h <= u * INR m) by (apply Rmult_le_compat_l; lra). assert (GU : g * (u * INR m + z) = u * (INR m * g) + g * z) by ring. assert (GZ : g * z <= g * (u * / 1024)) by (apply Rmult_le_compat_l; lra).
    assert (LV : Rabs (exact_at rs (val v) - exact_at rs h) <= u * (INR m * g) + g * z).
    { apply Rabs_le_inv in EV. destruct (Rle_or_lt h (val v)) as [C|C].
      - pose proof (exact_lip h (val v) ltac:(lra) ltac:(lra)) as L. assert (g * (val v - h) <= g * (u * INR m + z)) by (apply Rmult_le_compat_l; lra). apply Rabs_le. lra.
      - pose proof (exact_lip (val v) h ltac:(lra) ltac:(lra)) as L. assert (g * (h - val v) <= g * (u * INR m + z)) by (apply Rmult_le_compat_l; lra). apply Rabs_le. lra. }
    assert (LN : INR (length s + 3) = INR m + 4) by (rewrite LP, plus_INR, S_INR; cbn; ring). rewrite LN.
    assert (MG : 0 <= u * (INR m * g)) by (apply Rmult_le_pos; [lra|apply Rmult_le_pos; [apply pos_INR|lra]]). assert (UG : 0 <= u * g) by (apply Rmult_le_pos; lra).
    assert (Mn : 0 <= M) by (eapply Rle_trans; [apply Rabs_pos|apply (at_M 0); lia]). assert (UM : 0 <= u * M) by (apply Rmult_le_pos; lra).
    destruct (Rlt_or_le (val v) (INR m)) as [C|C].
    + rewrite f_at_cell by (try assumption; lra). destruct (cell v Fv ltac:(lra)) as (C1 & C2 & C3 & C4 & C5 & C6 & C7). set (i := Z.to_nat (ffloor v)) in *. set (t := sub64 v (of_Z64 (ffloor v))) in *.
      destruct (at_ok i ltac:(lia)) as [Fa Ma]. destruct (at_ok (S i) ltac:(lia)) as [Fb Mb]. pose proof (lerp_err _ _ t M Fa Fb Ma Mb (Ss i (S i) ltac:(lia)) C4 C6 (at_M i ltac:(lia)) (at_M (S i) ltac:(lia))) as LE. fold u in LE. rewrite Z4 in LE.
      rewrite (exact_cell (val v) i C7 C1) in LV. pose proof (gap i C1) as GI. set (di := val (at_i (S i)) - val (at_i i)) in *.
      pose proof (err_abs (val v - INR i)) as ET. rewrite <- C5, (Rabs_right (val v - INR i)) in ET by lra. fold u in ET. fold z in ET. assert (UV : u * (val v - INR i) <= u * 1) by (apply Rmult_le_compat_l; lra).
      assert (TD : Rabs ((val t - (val v - INR i)) * di) <= (u + z) * g). { rewrite Rabs_mult, (Rabs_right di) by lra. apply Rmult_le_compat; [apply Rabs_pos|lra|lra|lra]. }
      apply Rabs_le_inv in LV, LE, TD. assert (UDI : u * di <= u * g) by (apply Rmult_le_compat_l; lra). assert (ZG : z * g <= u * / 1024 * g) by (apply Rmult_le_compat_r; lra). apply Rabs_le. lra.
    + rewrite f_at_end by assumption. assert (E : val v = INR m) by lra. rewrite E, exact_end in LV. apply Rabs_le_inv in LV. apply Rabs_le. lra.
Qed.
End sorted.
