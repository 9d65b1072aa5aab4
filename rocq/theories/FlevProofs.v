(** Proofs for C101. *)
From Coq Require Import ZArith Reals Lra Lia List Bool Permutation.
Require Import Flocq.Core.Core Flocq.IEEE754.BinarySingleNaN.
From Verif Require Import Base ProcFloat InterpFloatProofs MeshFloatModel MeshFloatProofs FredModel FredSpec FredProofs FredProofs2 FredProofs3 FredProofs4 PrepFloatProofs GfltProofs2 FquaModel FquaSpec FquaProofs FquaProofs2 FquaProofs5 FknnModel FdenModel FlevModel FlevSpec.
Import ListNotations. Local Open Scope list_scope. Local Open Scope R_scope.

Lemma last_nth {A} (l : list A) d : l <> [] -> last l d = nth (length l - 1) l d.
Proof. induction l as [|a l IH]; intros H; [congruence|]. destruct l as [|b l]; [reflexivity|]. change (last (a :: b :: l) d) with (last (b :: l) d). rewrite IH by discriminate. cbn [length]. replace (S (S (length l)) - 1)%nat with (S (length l)) by lia. replace (S (length l) - 1)%nat with (length l) by lia. reflexivity. Qed.

Section Level.
Context (zs s : list b64).
Hypothesis D : densities zs s.
Notation n := (length s).
Notation a := (INR n * eps).
Notation pr k := (nth k (l_cum s) zero64).
Notation part k := (rawsum (firstn k s)).
Notation T := (rawsum s).

Lemma s_perm : Permutation zs s. Proof. apply D. Qed.
Lemma s_good : Forall good s.
Proof. destruct D as (G & _). eapply Permutation_Forall; [exact s_perm|]. exact G. Qed.
Lemma s_mass : T = mass zs.
Proof. symmetry. unfold mass. apply (rawsum_perm _ _ s_perm). Qed.
Lemma s_T : 0 < T <= B 1000.
Proof. rewrite s_mass. apply D. Qed.
Lemma s_len : length zs = n. Proof. apply Permutation_length, s_perm. Qed.
Lemma s_pos : (1 <= n)%nat.
Proof. destruct s_T as [H _]. destruct s; [cbn in H; lra|cbn; lia]. Qed.
Lemma s_a : 0 < eps /\ 1 <= INR n /\ eps <= a /\ a <= / 16.
Proof.
  pose proof (bpow_gt_0 radix2 (-52)) as E. fold eps in E. assert (N : 1 <= INR n) by (apply (le_INR 1); exact s_pos). split; [exact E|]. split; [exact N|]. split; [rewrite <- (Rmult_1_l eps) at 1; apply Rmult_le_compat_r; lra|].
  apply Rle_trans with (B 48 * eps); [|unfold eps; rewrite <- bpow_plus; cbn; lra]. apply Rmult_le_compat_r; [lra|]. rewrite INR_IZR_INZ. change (B 48) with (IZR (2 ^ 48)). apply IZR_le. rewrite <- s_len. apply D.
Qed.
Lemma part_all : part n = T. Proof. rewrite firstn_all. reflexivity. Qed.
Lemma part_range k : 0 <= part k <= T.
Proof. split; [apply size_good, firstn_good, s_good|apply rawsum_firstn, s_good]. Qed.
Notation c k := (nth k (f_cumsum s) zero64).
Lemma c_ok k : (k < n)%nat -> fin (c k) = true /\ 0 <= val (c k) /\ Rabs (val (c k) - part (S k)) <= a * part (S k).
Proof. intros H. destruct s_a as (_ & _ & _ & A). destruct s_T as [_ B0]. destruct (run_ok s s_good ltac:(lra) B0 k H) as [F E]. split; [exact F|]. split; [apply (run_pos s s_good ltac:(lra) B0 k H)|exact E]. Qed.
Lemma cum_len : length (l_cum s) = n. Proof. unfold l_cum. rewrite map_length. apply cumsum_length. Qed.
Lemma c_sorted i j : (i <= j < n)%nat -> val (c i) <= val (c j).
Proof. destruct s_a as (_ & _ & _ & A). destruct s_T as [_ B0]. apply (run_sorted s s_good ltac:(lra) B0). Qed.
Notation cl := (c (n - 1)).
Lemma c_last : fin cl = true /\ T / 2 <= val cl /\ Rabs (val cl - T) <= a * T.
Proof.
  pose proof s_pos as P. destruct (c_ok (n - 1) ltac:(lia)) as (F & _ & E). replace (S (n - 1)) with n in E by lia. rewrite part_all in E. split; [exact F|]. split; [|exact E]. destruct s_a as (_ & _ & _ & A). destruct s_T as [T0 _]. apply Rabs_le_inv in E. assert (a * T <= / 16 * T) by (apply Rmult_le_compat_r; lra). lra.
Qed.
Lemma pr_is k : (k < n)%nat -> pr k = div64 (c k) cl.
Proof.
  intros H. unfold l_cum. rewrite (last_nth (f_cumsum s)) by (intros E; apply (f_equal (@length b64)) in E; rewrite cumsum_length in E; cbn in E; lia). rewrite cumsum_length. rewrite (nth_indep _ zero64 (div64 zero64 cl)) by (rewrite map_length, cumsum_length; exact H). apply (map_nth (fun v => div64 v cl)).
Qed.
Lemma pr_val k : (k < n)%nat -> fin (pr k) = true /\ val (pr k) = rnd64 (val (c k) / val cl) /\ 0 <= val (c k) / val cl <= 1.
Proof.
  intros H. rewrite (pr_is k H). destruct c_last as (Fl & Ll & _). destruct (c_ok k H) as (F & P & _). destruct s_T as [T0 _]. pose proof (c_sorted k (n - 1) ltac:(lia)) as Le.
  assert (Q : 0 <= val (c k) / val cl <= 1). { split; [apply Rmult_le_pos; [exact P|apply Rlt_le, Rinv_0_lt_compat; lra]|]. apply Rmult_le_reg_r with (val cl); [lra|]. unfold Rdiv. rewrite Rmult_assoc, Rinv_l by lra. lra. }
  destruct (div64_b (c k) cl F ltac:(lra)) as [Fd Vd]; [rewrite Rabs_right by lra; apply Rle_trans with 1; [lra|apply (bpow_le radix2 0 1023); lia]|]. auto.
Qed.
Lemma one64 : rnd64 1 = 1.
Proof. destruct (of_Z64_exact 1 ltac:(lia)) as [V _]. rewrite <- V. apply rnd64_val. Qed.
Lemma pr_range k : (k < n)%nat -> 0 <= val (pr k) <= 1.
Proof. intros H. destruct (pr_val k H) as (_ & -> & Q). split; [rewrite <- rnd64_0|rewrite <- one64]; apply rnd64_le; apply Q. Qed.
Lemma pr_last : val (pr (n - 1)) = 1.
Proof. pose proof s_pos. destruct (pr_val (n - 1) ltac:(lia)) as (_ & -> & _). destruct c_last as (_ & Ll & _). destruct s_T as [T0 _]. unfold Rdiv. rewrite Rinv_r by lra. apply one64. Qed.
Lemma pr_sorted i j : (i <= j < n)%nat -> val (pr i) <= val (pr j).
Proof.
  intros H. destruct (pr_val i ltac:(lia)) as (_ & -> & _). destruct (pr_val j ltac:(lia)) as (_ & -> & _). apply rnd64_le. destruct c_last as (_ & Ll & _). destruct s_T as [T0 _]. apply Rmult_le_compat_r; [apply Rlt_le, Rinv_0_lt_compat; lra|]. apply c_sorted, H.
Qed.
Lemma pr_close k : (k < n)%nat -> Rabs (val (pr k) - part (S k) / T) <= 4 * a.
Proof.
  intros H. destruct (pr_val k H) as (_ & V & Q). destruct (c_ok k H) as (_ & P & E). destruct c_last as (_ & Ll & El). destruct s_a as (E0 & _ & Ea & A). destruct s_T as [T0 _]. pose proof (part_range (S k)) as [P0 P1].
  set (x := val (c k) / val cl) in *. set (y := part (S k) / T).
  assert (Ex : val (c k) = x * val cl) by (unfold x; field; lra). assert (Ey : part (S k) = y * T) by (unfold y; field; lra). assert (Y : 0 <= y <= 1) by (split; [apply Rmult_le_pos; [exact P0|apply Rlt_le, Rinv_0_lt_compat; exact T0]|apply Rmult_le_reg_r with T; [exact T0|]; lra]).
  assert (XY : Rabs (x - y) <= 3 * a).
  { set (z := val cl / T). assert (Ez : val cl = z * T) by (unfold z; field; lra). assert (Z : 1 - a <= z <= 1 + a). { apply Rabs_le_inv in El. rewrite Ez in El. split; apply Rmult_le_reg_r with T; try exact T0; lra. }
    assert (XZ : (1 - a) * y <= x * z <= (1 + a) * y). { apply Rabs_le_inv in E. rewrite Ex, Ey, Ez in E. replace (x * (z * T) - y * T) with ((x * z - y) * T) in E by ring. replace (a * (y * T)) with (a * y * T) in E by ring. split; apply Rmult_le_reg_r with T; try exact T0; lra. }
    clear - XZ Z Y A E0 Ea Q. set (b := a) in *. clearbody b x y z. assert (x * (1 - b) <= x * z) by (apply Rmult_le_compat_l; lra). assert (x * z <= x * (1 + b)) by (apply Rmult_le_compat_l; lra). assert (b * y <= b * 1) by (apply Rmult_le_compat_l; lra). assert (x * b <= 1 * b) by (apply Rmult_le_compat_r; lra). apply Rabs_le. lra. }
  rewrite V. pose proof (err_abs x) as Er. rewrite (Rabs_right x) in Er by lra. assert (B (-53) = eps / 2) by (unfold eps; replace (-52)%Z with (1 + -53)%Z by reflexivity; rewrite bpow_plus; change (bpow radix2 1) with 2; field).
  assert (B (-1075) <= eps / 2) by (rewrite <- H0; apply bpow_le; lia). rewrite H0 in Er. assert (eps / 2 * x <= eps / 2 * 1) by (apply Rmult_le_compat_l; lra). apply Rabs_le_inv in Er. apply Rabs_le_inv in XY. apply Rabs_le. lra.
Qed.
Lemma Bltb_val x y : fin x = true -> fin y = true -> Bltb x y = Rlt_bool (val x) (val y).
Proof. apply Bltb_correct. Qed.
(** Where a number falls. *)
Lemma count_at q : fin q = true -> let k := l_count (l_cum s) q in (k <= n)%nat /\ (forall i, (i < k)%nat -> (i < n)%nat /\ val (pr i) < val q) /\ (forall i, (k <= i < n)%nat -> val q <= val (pr i)).
Proof.
  intros Fq k. assert (Iff : forall i, (i < n)%nat -> (Bltb (pr i) q = true <-> (i < k)%nat)).
  { intros i Hi. apply (count_prefix (fun v => Bltb v q) (l_cum s)); [|rewrite nth_error_nth' with (d := zero64) by (rewrite cum_len; exact Hi); reflexivity].
    intros i0 j0 a0 b0 L Hi0 Hj0. assert (I1 : (i0 < n)%nat) by (rewrite <- cum_len; apply nth_error_Some; intros W; pose proof (eq_trans (eq_sym Hi0) W) as W'; discriminate W'). assert (J1 : (j0 < n)%nat) by (rewrite <- cum_len; apply nth_error_Some; intros W; pose proof (eq_trans (eq_sym Hj0) W) as W'; discriminate W').
    apply nth_error_nth with (d := zero64) in Hi0. apply nth_error_nth with (d := zero64) in Hj0. subst a0 b0. destruct (pr_val i0 I1) as (F1 & _). destruct (pr_val j0 J1) as (F2 & _). pose proof (pr_sorted i0 j0 ltac:(lia)) as So. intros Hb. refine (eq_trans (Bltb_val (pr i0) q F1 Fq) _). assert (Hc := eq_trans (eq_sym (Bltb_val (pr j0) q F2 Fq)) Hb). apply Rlt_bool_true. eapply Rle_lt_trans; [exact So|]. revert Hc. case Rlt_bool_spec; [auto|discriminate]. }
  assert (K : (k <= n)%nat) by (unfold k, l_count; rewrite <- cum_len; apply filter_le). split; [exact K|]. split.
  - intros i Hi. assert (Hn : (i < n)%nat) by lia. split; [exact Hn|]. apply (Iff i Hn) in Hi. destruct (pr_val i Hn) as (F & _). rewrite Bltb_val in Hi by assumption. revert Hi. case Rlt_bool_spec; [auto|discriminate].
  - intros i Hi. destruct (pr_val i ltac:(lia)) as (F & _). destruct (Rle_or_lt (val q) (val (pr i))) as [C|C]; [exact C|exfalso]. assert (Bt : Bltb (pr i) q = true) by (rewrite Bltb_val by assumption; apply Rlt_bool_true; exact C). apply (Iff i ltac:(lia)) in Bt. lia.
Qed.
Lemma index_at p shift : exists i, (i < n)%nat /\ l_level s p shift = nth i s zero64 /\ Z.of_nat i = Z.max 0 (Z.min (Z.of_nat n - 1) (Z.of_nat (l_count (l_cum s) (sub64 (of_Z64 1) p)) + shift)).
Proof. pose proof s_pos. unfold l_level. rewrite cum_len. set (z := Z.max _ _). exists (Z.to_nat z). unfold z. split; [lia|]. split; [reflexivity|]. lia. Qed.
Lemma lo_at p : fin p = true -> Rabs (val p) <= B 1000 -> fin (sub64 (of_Z64 1) p) = true /\ val (sub64 (of_Z64 1) p) = rnd64 (1 - val p).
Proof.
  intros F H. destruct (of_Z64_exact 1 ltac:(lia)) as [V1 F1]. destruct (sub64_b (of_Z64 1) p F1 F) as [Fs Vs]; [|rewrite V1 in Vs; auto]. rewrite V1. apply Rle_trans with (1 + B 1000); [eapply Rle_trans; [apply Rabs_triang|]; rewrite Rabs_Ropp, Rabs_R1; lra|].
  assert (1 <= B 1000) by (apply (bpow_le radix2 0 1000); lia). apply Rle_trans with (B (1 + 1000)); [rewrite bpow_plus; change (B 1) with 2; lra|apply bpow_le; lia].
Qed.
(** Sums over the sorted list. *)
Lemma tail_from k : (k <= n)%nat -> T - part k = rawsum (skipn k s).
Proof. intros H. rewrite <- (firstn_skipn k s) at 1. rewrite rawsum_app. ring. Qed.
Lemma from_perm L l l' : Permutation l l' -> mass_from L l = mass_from L l' /\ mass_above L l = mass_above L l'.
Proof. unfold mass_from, mass_above, Rsum. induction 1 as [|x l l' _ [I1 I2]|x y l|l l' l'' _ [I1 I2] _ [I3 I4]]; cbn [map fold_right]; split; try lra. Qed.
Lemma from_ge k : (k < n)%nat -> T - part k <= mass_from (nth k s zero64) s.
Proof.
  intros H. rewrite (tail_from k ltac:(lia)). pose proof s_good as G. assert (Ge : forall v, In v (skipn k s) -> val (nth k s zero64) <= val v).
  { intros v Hv. apply (In_nth _ _ zero64) in Hv. destruct Hv as (j & Hj & <-). rewrite skipn_length in Hj. assert (E : nth j (skipn k s) zero64 = nth (k + j) s zero64) by (rewrite <- (firstn_skipn k s) at 2; rewrite app_nth2; rewrite firstn_length_le by lia; [f_equal; lia|lia]). rewrite E. apply (proj2 (proj2 (proj2 (proj2 D)))). lia. }
  set (L := nth k s zero64) in *. clearbody L. rewrite <- (firstn_skipn k s) at 2. unfold mass_from. rewrite map_app. assert (Ap : forall u v, Rsum (u ++ v) = Rsum u + Rsum v) by (unfold Rsum; induction u as [|x u IH]; intros v; cbn [app fold_right]; [ring|rewrite IH; ring]). rewrite Ap.
  assert (P0 : 0 <= Rsum (map (fun v => if Rle_bool (val L) (val v) then val v else 0) (firstn k s))).
  { pose proof (firstn_good s k G) as Gf. clear - Gf. induction Gf as [|x l [_ Px] _ IH]; [cbn; lra|]. unfold Rsum in *. cbn [map fold_right]. destruct (Rle_bool (val L) (val x)); lra. }
  assert (Q : rawsum (skipn k s) = Rsum (map (fun v => if Rle_bool (val L) (val v) then val v else 0) (skipn k s))).
  { unfold rawsum. f_equal. apply map_ext_in. intros v Hv. rewrite Rle_bool_true by (apply Ge, Hv). reflexivity. }
  rewrite Q. lra.
Qed.
Lemma above_le k : (k < n)%nat -> mass_above (nth k s zero64) s <= T - part (S k).
Proof.
  intros H. rewrite (tail_from (S k) ltac:(lia)). pose proof s_good as G. assert (Le : forall v, In v (firstn (S k) s) -> val v <= val (nth k s zero64)).
  { intros v Hv. apply (In_nth _ _ zero64) in Hv. destruct Hv as (j & Hj & <-). rewrite firstn_length_le in Hj by lia. assert (E : nth j (firstn (S k) s) zero64 = nth j s zero64) by (rewrite <- (firstn_skipn (S k) s) at 2; rewrite app_nth1; [reflexivity|rewrite firstn_length_le by lia; lia]). rewrite E. apply (proj2 (proj2 (proj2 (proj2 D)))). lia. }
  set (L := nth k s zero64) in *. clearbody L. rewrite <- (firstn_skipn (S k) s) at 1. unfold mass_above. rewrite map_app. assert (Ap : forall u v, Rsum (u ++ v) = Rsum u + Rsum v) by (unfold Rsum; induction u as [|x u IH]; intros v; cbn [app fold_right]; [ring|rewrite IH; ring]). rewrite Ap.
  assert (P0 : Rsum (map (fun v => if Rlt_bool (val L) (val v) then val v else 0) (firstn (S k) s)) = 0).
  { revert Le. generalize (firstn (S k) s). intros l Le. induction l as [|x l IH]; [reflexivity|]. unfold Rsum in *. cbn [map fold_right]. rewrite IH by (intros v Hv; apply Le; right; exact Hv). rewrite Rlt_bool_false by (apply Le; left; reflexivity). ring. }
  rewrite P0. assert (Gs : Forall good (skipn (S k) s)) by (apply Forall_forall; intros v Hv; rewrite Forall_forall in G; apply G; rewrite <- (firstn_skipn (S k) s); apply in_or_app; right; exact Hv).
  clear - Gs. induction Gs as [|x l [_ Px] _ IH]; [cbn; lra|]. unfold rawsum, Rsum in *. cbn [map fold_right]. destruct (Rlt_bool (val L) (val x)); lra.
Qed.
(** The mass at and above the level. *)
Lemma level_mass p : fin p = true -> 0 <= val p <= 1 -> let L := l_level s p 0 in (val p - slack zs) * T <= mass_from L s /\ mass_above L s <= (val p + slack zs) * T.
Proof.
  intros Fp Hp. cbn zeta. destruct s_a as (E0 & N1 & Ea & A). destruct s_T as [T0 _]. pose proof s_pos as P1. unfold slack. rewrite s_len.
  assert (B1 : 1 <= B 1000) by (apply (bpow_le radix2 0 1000); lia). destruct (lo_at p Fp ltac:(rewrite Rabs_right by lra; lra)) as [Fq Vq]. set (q := sub64 (of_Z64 1) p) in *.
  assert (Q1 : val q <= 1) by (rewrite Vq; apply Rle_trans with (rnd64 1); [apply rnd64_le; lra|rewrite one64; lra]). assert (Qe : Rabs (val q - (1 - val p)) <= eps).
  { rewrite Vq. pose proof (err_abs (1 - val p)) as Er. rewrite (Rabs_right (1 - val p)) in Er by lra. assert (E2 : B (-53) = eps / 2) by (unfold eps; replace (-52)%Z with (1 + -53)%Z by reflexivity; rewrite bpow_plus; change (bpow radix2 1) with 2; field). assert (B (-1075) <= eps / 2) by (rewrite <- E2; apply bpow_le; lia). rewrite E2 in Er. assert (eps / 2 * (1 - val p) <= eps / 2 * 1) by (apply Rmult_le_compat_l; lra). lra. }
  apply Rabs_le_inv in Qe. destruct (count_at q Fq) as (K1 & K2 & K3). set (k := l_count (l_cum s) q) in *.
  assert (Kn : (k < n)%nat). { destruct (Nat.eq_dec k n) as [E|E]; [exfalso|lia]. destruct (K2 (n - 1)%nat ltac:(lia)) as [_ C]. rewrite pr_last in C. lra. }
  destruct (index_at p 0) as (i & Hi & -> & Ei). fold q in Ei. fold k in Ei. assert (i = k) by lia. subst i. pose proof (from_ge k Kn) as M1. pose proof (above_le k Kn) as M2. split.
  - eapply Rle_trans; [|exact M1]. destruct k as [|j] eqn:Ek.
    + cbn [firstn]. change (rawsum []) with 0. assert ((val p - (4 * INR n + 1) * eps) * T <= 1 * T) by (apply Rmult_le_compat_r; lra). lra.
    + destruct (K2 j ltac:(lia)) as [Hj C]. pose proof (pr_close j Hj) as Cl. apply Rabs_le_inv in Cl. assert (Py : part (S j) = part (S j) / T * T) by (field; lra). set (y := part (S j) / T) in *. assert (y <= 1 - val p + (4 * INR n + 1) * eps) by lra. rewrite Py. assert (y * T <= (1 - val p + (4 * INR n + 1) * eps) * T) by (apply Rmult_le_compat_r; lra). lra.
  - eapply Rle_trans; [exact M2|]. pose proof (K3 k ltac:(lia)) as C. pose proof (pr_close k Kn) as Cl. apply Rabs_le_inv in Cl. assert (Py : part (S k) = part (S k) / T * T) by (field; lra). set (y := part (S k) / T) in *. assert (1 - val p - (4 * INR n + 1) * eps <= y) by lra. rewrite Py. assert ((1 - val p - (4 * INR n + 1) * eps) * T <= y * T) by (apply Rmult_le_compat_r; lra). lra.
Qed.
Lemma count_mono q q' : fin q = true -> fin q' = true -> val q <= val q' -> (l_count (l_cum s) q <= l_count (l_cum s) q')%nat.
Proof.
  intros F F' L. destruct (count_at q F) as (_ & K2 & _). destruct (count_at q' F') as (_ & _ & K3'). destruct (Nat.le_gt_cases (l_count (l_cum s) q) (l_count (l_cum s) q')) as [C|C]; [exact C|exfalso]. destruct (K2 _ C) as [C1 C2]. specialize (K3' (l_count (l_cum s) q') ltac:(lia)). lra.
Qed.
Lemma nth_sorted i j : (i <= j < n)%nat -> val (nth i s zero64) <= val (nth j s zero64).
Proof. apply D. Qed.
End Level.
