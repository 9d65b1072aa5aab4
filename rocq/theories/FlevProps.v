(** C101: contour levels and the plane's neighbour density in double precision. *)
From Coq Require Import ZArith Reals Lra Lia List Bool Permutation.
Require Import Flocq.Core.Core Flocq.IEEE754.BinarySingleNaN.
From Verif Require Import Base ProcFloat InterpFloatProofs MeshFloatModel MeshFloatProofs FredModel FredSpec FredProofs FredProofs2 FredProofs3 FredProofs4 PrepFloatProofs GfltProofs2 FquaModel FquaSpec FquaProofs FquaProofs2 FquaProofs5 NfltProofs FknnModel FknnSpec FknnProofs PiBound FdenModel FdenSpec FdenProofs FdenProofs2 FlevModel FlevSpec FlevProofs.
Import ListNotations. Local Open Scope list_scope. Local Open Scope R_scope.

(** ** Cumulative probability *)
(** One entry per density, between 0 and 1, never falling, the last exactly 1, each the share of the densities up to it. *)
Theorem C101_probability zs s : densities zs s -> length (l_cum s) = length zs /\
  (forall k, (k < length zs)%nat -> let q := nth k (l_cum s) zero64 in fin q = true /\ 0 <= val q <= 1 /\ Rabs (val q - mass (firstn (S k) s) / mass zs) <= 4 * INR (length zs) * eps) /\
  (forall i j, (i <= j < length zs)%nat -> val (nth i (l_cum s) zero64) <= val (nth j (l_cum s) zero64)) /\ val (nth (length zs - 1) (l_cum s) zero64) = 1.
Proof.
  intros D. rewrite (s_len zs s D). split; [apply (cum_len s)|]. split; [|split; [intros i j H; apply (pr_sorted zs s D i j H)|apply (pr_last zs s D)]].
  intros k Hk. cbn zeta. destruct (pr_val zs s D k Hk) as (F & _). split; [exact F|]. split; [apply (pr_range zs s D k Hk)|]. pose proof (pr_close zs s D k Hk) as E. rewrite (s_mass zs s D) in E. rewrite Rmult_assoc. exact E.
Qed.
Print Assumptions C101_probability.

(** ** Levels *)
(** The level is one of the densities; those at or above it hold at least the fraction p of the total, those strictly above at most p, up to the rounding. *)
Theorem C101_level zs s p : densities zs s -> fin p = true -> 0 <= val p <= 1 -> In (l_level s p 0) zs /\ (val p - slack zs) * mass zs <= mass_from (l_level s p 0) zs /\ mass_above (l_level s p 0) zs <= (val p + slack zs) * mass zs.
Proof.
  intros D F H. split.
  - destruct (index_at zs s D p 0) as (i & Hi & -> & _). eapply Permutation_in; [apply Permutation_sym, (s_perm zs s D)|]. apply nth_In. exact Hi.
  - destruct (level_mass zs s D p F H) as [A C]. destruct (from_perm (l_level s p 0) zs s (s_perm zs s D)) as [-> ->]. rewrite <- (s_mass zs s D). split; assumption.
Qed.
Print Assumptions C101_level.
(** A larger fraction never has a higher level; the level used to hide points is not above the contour's. *)
Theorem C101_level_mono zs s p q shift : densities zs s -> fin p = true -> fin q = true -> Rabs (val p) <= bpow radix2 1000 -> Rabs (val q) <= bpow radix2 1000 -> val p <= val q ->
  val (l_level s q shift) <= val (l_level s p shift) /\ val (l_level s p (-1)) <= val (l_level s p 0) /\ In (l_level s p shift) zs.
Proof.
  intros D Fp Fq Bp Bq L. destruct (lo_at p Fp Bp) as [F1 V1]. destruct (lo_at q Fq Bq) as [F2 V2]. assert (C : (l_count (l_cum s) (sub64 (of_Z64 1) q) <= l_count (l_cum s) (sub64 (of_Z64 1) p))%nat) by (apply (count_mono zs s D); [exact F2|exact F1|rewrite V1, V2; apply rnd64_le; lra]).
  destruct (index_at zs s D p shift) as (i & Hi & E1 & Ei). destruct (index_at zs s D q shift) as (j & Hj & E2 & Ej). destruct (index_at zs s D p 0) as (i0 & Hi0 & E3 & Ei0). destruct (index_at zs s D p (-1)) as (i1 & Hi1 & E4 & Ei1). rewrite E1, E2, E3, E4.
  split; [apply (nth_sorted zs s D); lia|]. split; [apply (nth_sorted zs s D); lia|]. eapply Permutation_in; [apply Permutation_sym, (s_perm zs s D)|]. apply nth_In. exact Hi.
Qed.
Print Assumptions C101_level_mono.
(** All of the mass (or more) is at the smallest density; less than none asks for the largest. *)
Theorem C101_ends zs s p : densities zs s -> fin p = true -> Rabs (val p) <= bpow radix2 1000 ->
  (1 <= val p -> forall z, In z zs -> val (l_level s p 0) <= val z) /\ (val p <= -1 -> forall z, In z zs -> val z <= val (l_level s p 0)).
Proof.
  intros D F Bp. destruct (lo_at p F Bp) as [Fq Vq]. set (q := sub64 (of_Z64 1) p) in *. destruct (count_at zs s D q Fq) as (K1 & K2 & K3). destruct (index_at zs s D p 0) as (i & Hi & E & Ei). fold q in Ei. rewrite E. set (k := l_count (l_cum s) q) in *.
  assert (Some_i : forall z, In z zs -> exists j, (j < length s)%nat /\ nth j s zero64 = z) by (intros z Hz; apply (Permutation_in _ (s_perm zs s D)) in Hz; apply (In_nth _ _ zero64) in Hz; destruct Hz as (j & Hj & Ej); exists j; auto).
  split; intros Hp z Hz; destruct (Some_i z Hz) as (j & Hj & <-); apply (nth_sorted zs s D).
  - destruct (Nat.eq_dec k 0) as [Z|Z]; [lia|exfalso]. destruct (K2 0%nat ltac:(lia)) as [H0 C]. pose proof (pr_range zs s D 0 H0) as P. rewrite Vq in C. assert (rnd64 (1 - val p) <= 0) by (apply Rle_trans with (rnd64 0); [apply rnd64_le; lra|rewrite rnd64_0; lra]). lra.
  - destruct (Nat.eq_dec k (length s)) as [Z|Z]; [lia|exfalso]. pose proof (K3 k ltac:(lia)) as C. destruct (pr_range zs s D k ltac:(lia)) as [_ P]. rewrite Vq in C. destruct (of_Z64_exact 2 ltac:(lia)) as [V2 _]. assert (T2 : rnd64 2 = 2) by (rewrite <- V2; apply rnd64_val). assert (rnd64 2 <= rnd64 (1 - val p)) by (apply rnd64_le; lra). lra.
Qed.
Print Assumptions C101_ends.
(** scatter(hidden_in_p = p) shows no point at or above the level, and hides none below it; so the densest point is always hidden. *)
Theorem C101_shown zs s p z : densities zs s -> fin p = true -> 0 <= val p <= 1 -> fin z = true -> (l_shown s p z = true <-> val z < val (l_level s p (-1))) /\
  ((forall v, In v zs -> val v <= val z) -> l_shown s p z = false).
Proof.
  intros D F H Fz. destruct (index_at zs s D p (-1)) as (i & Hi & E & _). assert (Il : In (l_level s p (-1)) zs) by (rewrite E; eapply Permutation_in; [apply Permutation_sym, (s_perm zs s D)|]; apply nth_In; exact Hi).
  assert (Fl : fin (l_level s p (-1)) = true) by (destruct D as (G & _); rewrite Forall_forall in G; apply G, Il). unfold l_shown. rewrite (Bltb_val z (l_level s p (-1)) Fz Fl). split.
  - case Rlt_bool_spec; intros C; split; intros Q; try auto; try discriminate. exfalso. apply (Rlt_irrefl (val z)). eapply Rlt_le_trans; eassumption.
  - intros Hz. apply Rlt_bool_false. apply Hz, Il.
Qed.
Print Assumptions C101_shown.

(** ** Neighbour density on the plane *)
Theorem C101_plane w nb : nb <> [] -> (Z.of_nat (length nb) <= 2 ^ 53)%Z -> let r := last (map fst nb) zero64 in fin r = true -> bpow radix2 (-300) <= val r <= bpow radix2 300 ->
  (forall w', w = Some w' -> Forall (fun p => fin (nth (snd p) w' zero64) = true /\ medium 300 (val (nth (snd p) w' zero64))) nb) ->
  close (np_depth (length nb) + 4) (k2_64 w nb) ((match w with None => INR (length nb) | Some w' => Rsum (map (fun p => val (nth (snd p) w' zero64)) nb) end) / (PI * val r * val r)).
Proof.
  intros N L r Fr Hr W. unfold k2_64. fold r. pose proof PI_20 as P. pose proof (bpow_gt_0 radix2 (-300)) as B0. assert (Mp : medium 2 PI) by (right; change (bpow radix2 2) with 4; change (bpow radix2 (- (2))) with (/ 4); lra). assert (Mr : medium 300 (val r)) by (right; exact Hr).
  pose proof (medium_mul _ _ _ _ Mp Mr) as M1. pose proof (close_mul _ 1 0 _ _ _ _ pi_close (close_exact _ Fr) M1 ltac:(lia) ltac:(lia)) as C1. pose proof (medium_mul _ _ _ _ M1 Mr) as M2. pose proof (close_mul _ _ _ _ _ _ _ C1 (close_exact _ Fr) M2 ltac:(lia) ltac:(lia)) as C2.
  assert (Nz : PI * val r * val r <> 0) by (assert (0 < PI * val r * val r) by (apply Rmult_lt_0_compat; [apply Rmult_lt_0_compat; lra|lra]); lra). pose proof (depth_le _ L) as Dn. destruct w as [w|].
  - specialize (W w eq_refl). rewrite Forall_forall in W. destruct (sum_close (fun p => nth (snd p) w zero64) (fun p => val (nth (snd p) w zero64)) 0 300 nb ltac:(lia) L ltac:(lia)) as [Cs Ms]; [intros p Hp; destruct (W p Hp) as [Fp Mw]; split; [apply close_exact, Fp|exact Mw]|].
    pose proof (medium_div _ _ _ _ Ms M2 Nz) as M3. pose proof (close_div _ _ _ _ _ _ _ Cs C2 Nz M3 ltac:(lia) ltac:(lia)) as C3. eapply close_more; [|exact C3]. lia.
  - destruct (nat_close (length nb) L) as [Cn Mn]. specialize (Mn ltac:(intros Z; apply length_zero_iff_nil in Z; contradiction)). pose proof (medium_div _ _ _ _ Mn M2 Nz) as M3. pose proof (close_div _ _ _ _ _ _ _ Cn C2 Nz M3 ltac:(lia) ltac:(lia)) as C3. eapply close_more; [|exact C3]. lia.
Qed.
Print Assumptions C101_plane.
(** k coincident points: an infinite density, not an exception. *)
Theorem C101_coincident_refuted nb : nb <> [] -> (Z.of_nat (length nb) <= 2 ^ 53)%Z -> last (map fst nb) zero64 = zero64 -> k2_64 None nb = B754_infinity false.
Proof.
  intros N L E. unfold k2_64. rewrite E. replace (mul64 (mul64 pi64 zero64) zero64) with (B754_zero false : b64) by (apply B2SF_inj; vm_compute; reflexivity). destruct (of_Z64_exact (Z.of_nat (length nb)) ltac:(lia)) as [V F].
  assert (P : 0 < val (of_Z64 (Z.of_nat (length nb)))) by (rewrite V; apply (IZR_lt 0); destruct nb; [congruence|cbn; lia]). set (x := of_Z64 (Z.of_nat (length nb))) in *. clearbody x. destruct x as [sg|sg| |[] m e h]; try discriminate F; try (cbn in P; lra); [exfalso|reflexivity].
  assert (val (B754_finite true m e h : b64) < 0) by (apply F2R_lt_0; reflexivity). lra.
Qed.
Print Assumptions C101_coincident_refuted.

(** ** The hypotheses are met *)
Definition four : list b64 := [of_Z64 5; of_Z64 0; of_Z64 2; of_Z64 1].
Definition four_sorted : list b64 := [of_Z64 0; of_Z64 1; of_Z64 2; of_Z64 5].
Example C101_case : densities four four_sorted /\ B2SF (l_level four_sorted half64 0) = B2SF (of_Z64 5) /\ B2SF (l_level four_sorted (div64 (of_Z64 3) (of_Z64 4)) 0) = B2SF (of_Z64 2) /\ B2SF (l_level four_sorted (div64 (of_Z64 3) (of_Z64 4)) (-1)) = B2SF (of_Z64 1) /\
  fin half64 = true /\ 0 <= val half64 <= 1 /\ val half64 <= 1.
Proof.
  destruct (of_Z64_exact 0 ltac:(lia)) as [V0 F0]. destruct (of_Z64_exact 1 ltac:(lia)) as [V1 F1]. destruct (of_Z64_exact 2 ltac:(lia)) as [V2 F2]. destruct (of_Z64_exact 5 ltac:(lia)) as [V5 F5].
  split; [|split; [vm_compute; reflexivity|split; [vm_compute; reflexivity|split; [vm_compute; reflexivity|destruct half64_val as [VH FH]; split; [exact FH|]; rewrite VH; lra]]]].
  split; [unfold four; repeat (apply Forall_cons; [split; [assumption|rewrite ?V0, ?V1, ?V2, ?V5; lra]|]); apply Forall_nil|]. split.
  - unfold mass, four, Rsum. cbn [map fold_right]. rewrite V0, V1, V2, V5. split; [lra|]. apply Rle_trans with (bpow radix2 3); [cbn; lra|apply bpow_le; lia].
  - split; [cbn; lia|]. split.
    + unfold four, four_sorted. eapply perm_trans; [apply (Permutation_cons_append [of_Z64 0; of_Z64 2; of_Z64 1] (of_Z64 5))|]. cbn [app]. apply perm_skip. apply perm_swap.
    + intros i j Hij. cbn [length four_sorted] in Hij. destruct i as [|[|[|[|i]]]]; destruct j as [|[|[|[|j]]]]; try lia; cbn [nth four_sorted]; rewrite ?V0, ?V1, ?V2, ?V5; lra.
Qed.
