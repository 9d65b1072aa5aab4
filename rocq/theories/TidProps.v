(** C97: the tidal classifier with its float32 arrays. *)
From Coq Require Import ZArith Reals Lra Lia List Bool Sorted String.
Require Import Flocq.Core.Core Flocq.IEEE754.BinarySingleNaN.
From Verif Require Import Base ProcModel ProcProofs MeshModel MeshProofs MeshProofs2 MeshProofs3 ProcFloat MeshFloatModel MeshFloatSpec MeshFloatProofs TidModel TidSpec TidProofs TidProofs2.
Import ListNotations. Local Open Scope list_scope. Local Open Scope R_scope.

(** What is stored for one eigenvalue: the nearest float32; infinity beyond the float32 range; NaN for NaN. *)
Theorem C97_cast x : (fin x = true -> Rabs (val x) <= bpow radix2 127 -> fin32 (to32 x) = true /\ val32 (to32 x) = rnd32 (val x)) /\
  (fin x = true -> bpow radix2 128 <= Rabs (val x) -> to32 x = B754_infinity (Rlt_bool (val x) 0)) /\
  (is_nan (to32 x) = is_nan x) /\ (forall y, Bleb x y = true -> Bleb (to32 x) (to32 y) = true) /\
  (forall z, fin32 z = true -> fin (to64 z) = true /\ val (to64 z) = val32 z).
Proof.
  split; [apply to32_spec|]. split; [|split; [apply to32_nan|split; [intros y; apply to32_mono|apply to64_spec]]].
  intros F H. destruct (to32_fin x F) as [(L & _)|(_ & E)]; [exfalso|exact E].
  assert (A : bpow radix2 128 <= Rabs (rnd32 (val x))).
  { destruct (Rle_or_lt 0 (val x)) as [P|P].
    - rewrite (Rabs_right (val x)) in H by lra. assert (K : bpow radix2 128 <= rnd32 (val x)) by (rewrite <- (rnd32_pow 128) by lia; apply rnd32_le; exact H).
      pose proof (Rle_abs (rnd32 (val x))). lra.
    - rewrite (Rabs_left (val x)) in H by lra. assert (K : bpow radix2 128 <= - rnd32 (val x)) by (rewrite <- round_NE_opp, <- (rnd32_pow 128) by lia; apply rnd32_le; exact H).
      pose proof (Rle_abs (- rnd32 (val x))). rewrite Rabs_Ropp in *. lra. }
  lra.
Qed.
Print Assumptions C97_cast.

(** Which arrays are accepted: those of n^3 cells whose float32 eigenvalues are in order; in particular every array in order as doubles.  Anything else raises AssertionError. *)
Theorem C97_accepted lam m th :
  ((exists c, t_new lam m th = Ok c) <-> Z.of_nat (length lam) = (fm_n m * fm_n m * fm_n m)%Z /\ Forall (fun l => let '(a, b, c) := l in Bleb (to32 a) (to32 b) = true /\ Bleb (to32 b) (to32 c) = true) lam) /\
  (Z.of_nat (length lam) = (fm_n m * fm_n m * fm_n m)%Z -> Forall ordered lam -> exists c, t_new lam m th = Ok c) /\
  (forall e, t_new lam m th = Err e -> e = AssertionError).
Proof.
  assert (K : forall l : lam64, (let '(a, b, c) := store_lam l in Bleb a b = true /\ Bleb b c = true) <-> (let '(a, b, c) := l in Bleb (to32 a) (to32 b) = true /\ Bleb (to32 b) (to32 c) = true)) by (intros [[a b] c]; reflexivity).
  split; [|split; [|apply t_new_err]].
  - split.
    + intros (c & E). destruct (t_new_inv _ _ _ _ E) as (L & F & _). split; [exact L|]. revert F. apply Forall_impl. intros l. apply K.
    + intros (L & F). apply t_new_ok; [exact L|]. revert F. apply Forall_impl. intros l. apply K.
  - intros L F. apply t_new_ok; [exact L|]. revert F. apply Forall_impl. intros [[a b] c] (A & B1). split; apply to32_mono; assumption.
Qed.
Print Assumptions C97_accepted.

(** The type of a cell: the number of eigenvalues whose float32 value is above the float32 threshold.  It never exceeds the number of eigenvalues above
    the threshold as doubles, and counts all those clearly above it. *)
Theorem C97_type lam m th c : t_new lam m th = Ok c ->
  length (tc_n c) = length lam /\ length (tc_lam c) = length lam /\
  forall i l, nth_error lam i = Some l -> exists t, nth_error (tc_n c) i = Some t /\
    nth_error (tc_lam c) i = Some (let '(a, b, c) := l in (to32 a, to32 b, to32 c)) /\
    t = how_many (fun v => Bltb (to32 th) (to32 v)) l /\ (0 <= t <= 3)%Z /\ (t <= how_many (fun v => Bltb th v) l)%Z /\
    (fin th = true -> Rabs (val th) <= bpow radix2 126 -> lam_ok (bpow radix2 126) l -> (how_many (clearly_above th) l <= t)%Z).
Proof.
  intros E. destruct (t_new_inv _ _ _ _ E) as (L & _ & ->). cbn [tc_n tc_lam]. split; [apply map_length|]. split; [apply map_length|]. intros i l Hl.
  exists (how_many (fun v => Bltb (to32 th) (to32 v)) l). split; [exact (map_nth_error _ _ _ Hl)|]. split; [exact (map_nth_error store_lam _ _ Hl)|]. split; [reflexivity|].
  split; [apply how_many_range|]. split; [apply how_many_le; intros v _; apply to32_lt|]. intros Ft Bt K. apply how_many_le. intros v Hv Cv.
  assert (Kv : fin v = true /\ Rabs (val v) <= bpow radix2 126).
  { destruct l as [[a b] c']. destruct K as (K1 & K2 & K3). cbn in Hv. destruct Hv as [<-|[<-|[<-|[]]]]; assumption. }
  unfold clearly_above in Cv. destruct (Rlt_bool_spec (val th + bpow radix2 (-24) * (Rabs (val v) + Rabs (val th)) + bpow radix2 (-149)) (val v)) as [G|G]; [|discriminate].
  apply gap_kept; tauto.
Qed.
Print Assumptions C97_type.

(** With the default threshold 0 the eigenvalues counted are exactly those above 2^-150. *)
Theorem C97_zero_threshold lam m th c i l : t_new lam m th = Ok c -> fin th = true -> val th = 0 -> nth_error lam i = Some l -> all3 (fun v => fin v = true) l ->
  nth_error (tc_n c) i = Some (how_many (fun v => Rlt_bool (bpow radix2 (-150)) (val v)) l).
Proof.
  intros E Ft Z Hl A. destruct (C97_type _ _ _ _ E) as (_ & _ & T). destruct (T i l Hl) as (t & -> & _ & -> & _). f_equal. apply how_many_ext. intros v Hv. apply zero_counts; [exact Ft|exact Z|].
  destruct l as [[a b] c']. destruct A as (K1 & K2 & K3). cbn in Hv. destruct Hv as [<-|[<-|[<-|[]]]]; assumption.
Qed.
Print Assumptions C97_zero_threshold.

(** Raising the threshold never raises a type. *)
Theorem C97_threshold lam m th th' c c' i t t' : Bleb th th' = true -> t_new lam m th = Ok c -> t_new lam m th' = Ok c' ->
  nth_error (tc_n c) i = Some t -> nth_error (tc_n c') i = Some t' -> (t' <= t)%Z.
Proof.
  intros H E E' N N'. destruct (t_new_inv _ _ _ _ E) as (_ & _ & ->). destruct (t_new_inv _ _ _ _ E') as (_ & _ & ->). cbn [tc_n] in *. rewrite nth_error_map in N, N'.
  destruct (nth_error lam i) as [l|]; [|discriminate]. injection N as <-. injection N' as <-. apply how_many_le. intros v _ K.
  destruct (Bltb (to32 th) (to32 v)) eqn:Q; [reflexivity|exfalso]. pose proof (to32_mono _ _ H) as M.
  destruct (is_nan (to32 v)) eqn:Nv; [rewrite nan_ltb in K; [discriminate|right; exact Nv]|].
  assert (Tr : forall x y z : b32, Bleb x y = true -> Bltb y z = true -> Bltb x z = true).
  { clear. intros x y z A C. destruct (fin32 x) eqn:Fx; [destruct (fin32 y) eqn:Fy; [destruct (fin32 z) eqn:Fz|]|].
    - rewrite (Bleb_correct 24 128 x y Fx Fy) in A. rewrite (Bltb_correct 24 128 y z Fy Fz) in C. rewrite (Bltb_correct 24 128 x z Fx Fz).
      destruct (Rle_bool_spec (B2R x) (B2R y)); [|discriminate]. destruct (Rlt_bool_spec (B2R y) (B2R z)); [|discriminate]. apply Rlt_bool_true. lra.
    - destruct z as [s|[]| |s ? ? ?]; try discriminate; destruct y as [[]|[]| |[] ? ? ?]; try discriminate; destruct x as [[]|[]| |[] ? ? ?]; try discriminate; reflexivity.
    - destruct y as [s|[]| |s ? ? ?]; try discriminate; destruct x as [[]|[]| |[] ? ? ?]; try discriminate; destruct z as [[]|[]| |[] ? ? ?]; try discriminate; reflexivity.
    - destruct x as [s|[]| |s ? ? ?]; try discriminate; destruct y as [[]|[]| |[] ? ? ?]; try discriminate; destruct z as [[]|[]| |[] ? ? ?]; try discriminate; reflexivity. }
  rewrite (Tr _ _ _ M K) in Q. discriminate.
Qed.
Print Assumptions C97_threshold.

(** Looking up positions: one answer per position, in order; a position within half a cell (less a margin of 2^-51 of it and the cell) of the grid point
    (i, j, k), up to whole periods, gets that cell's type and stored eigenvalues. *)
Theorem C97_lookup lam m th c xs p x0 x1 x2 i j k : usable m -> t_new lam m th = Ok c -> nth_error xs p = Some (x0, x1, x2) ->
  let near x i := reachable m x /\ Rabs (val x - IZR i * val (f_grid m)) <= / 2 * val (f_grid m) - bpow radix2 (-51) * (Rabs (val x) + val (f_grid m)) in
  near x0 i -> near x1 j -> near x2 k -> let q := Z.to_nat (key (fm_n m) (i mod fm_n m, j mod fm_n m, k mod fm_n m)%Z) in
  length (t_web_type_at c xs) = length xs /\ length (t_lam_at c xs) = length xs /\ (q < length lam)%nat /\
  nth_error (t_web_type_at c xs) p = nth_error (tc_n c) q /\ nth_error (t_lam_at c xs) p = nth_error (tc_lam c) q.
Proof.
  intros U E Hp near (R0 & N0) (R1 & N1) (R2 & N2) q. destruct (t_new_inv _ _ _ _ E) as (L & _ & Ec). assert (Em : tc_mesh c = m) by (rewrite Ec; reflexivity).
  assert (Hn : (0 < fm_n m)%Z) by (destruct U; lia).
  pose proof (flat_range (fm_n m) (i mod fm_n m) (j mod fm_n m) (k mod fm_n m) (Z.mod_pos_bound _ _ Hn) (Z.mod_pos_bound _ _ Hn) (Z.mod_pos_bound _ _ Hn)) as FR.
  assert (C : t_cell m (x0, x1, x2) = key (fm_n m) (i mod fm_n m, j mod fm_n m, k mod fm_n m)%Z).
  { cbn [t_cell key]. unfold flat. rewrite (f_index_sharp m x0 i U R0 N0), (f_index_sharp m x1 j U R1 N1), (f_index_sharp m x2 k U R2 N2). reflexivity. }
  assert (Lq : (q < length lam)%nat) by (unfold q; cbn [key]; unfold flat in FR; lia).
  split; [apply map_length|]. split; [apply map_length|]. split; [exact Lq|]. unfold t_web_type_at, t_lam_at. rewrite (map_nth_error (fun x => nth (Z.to_nat (t_cell (tc_mesh c) x)) (tc_n c) 0%Z) p xs Hp), (map_nth_error (fun x => nth (Z.to_nat (t_cell (tc_mesh c) x)) (tc_lam c) (B754_nan, B754_nan, B754_nan)) p xs Hp). rewrite Em, C. fold q.
  split; symmetry; apply nth_error_nth'; rewrite Ec; cbn [tc_n tc_lam]; rewrite map_length; exact Lq.
Qed.
Print Assumptions C97_lookup.

(** The grid points of a type, in C order, each once: coordinates i * l_grid rounded to double and then to float32; looking them up gives back that type and those
    cells' eigenvalues.  Names are those of C44_names; any other raises KeyError. *)
Theorem C97_points lam m th c name : fits32 m -> t_new lam m th = Ok c ->
  match t_grid_points c name with
  | Ok pts => exists t idx, od_get String.eqb web_types name = Some t /\
      Forall2 (fun p q => let '(i, j, k) := q in let '(a, b, c) := p in
        let at_ v i := fin32 v = true /\ val32 v = rnd32 (rnd64 (IZR i * val (f_grid m))) in at_ a i /\ at_ b j /\ at_ c k) pts idx /\
      StronglySorted (fun a b => (key (fm_n m) a < key (fm_n m) b)%Z) idx /\
      (forall i j k, In (i, j, k) idx <-> (0 <= i < fm_n m)%Z /\ (0 <= j < fm_n m)%Z /\ (0 <= k < fm_n m)%Z /\ nth_error (tc_n c) (Z.to_nat (key (fm_n m) (i, j, k))) = Some t) /\
      t_web_type_at c (map widen pts) = repeat t (length pts) /\
      map Some (t_lam_at c (map widen pts)) = map (fun q => nth_error (tc_lam c) (Z.to_nat (key (fm_n m) q))) idx
  | Err e => e = KeyError /\ od_get String.eqb web_types name = None
  end.
Proof.
  intros Fm E. destruct (t_grid_points c name) as [pts|e] eqn:G.
  2:{ unfold t_grid_points in G. destruct (od_get String.eqb web_types name); [discriminate|]. injection G as <-. auto. }
  destruct (points_spec lam m th c name pts Fm E G) as (t & idx & Et & Ep & Es & Ei). exists t, idx. split; [exact Et|].
  destruct (t_new_inv _ _ _ _ E) as (L & _ & Ec). assert (Em : tc_mesh c = m) by (rewrite Ec; reflexivity).
  assert (R : forall q, In q idx -> let '(i, j, k) := q in (0 <= i < fm_n m)%Z /\ (0 <= j < fm_n m)%Z /\ (0 <= k < fm_n m)%Z /\ nth_error (tc_n c) (Z.to_nat (flat (fm_n m) i j k)) = Some t).
  { intros [[i j] k] Hq. apply Ei. exact Hq. }
  split; [|split; [exact Es|split; [exact Ei|]]].
  - rewrite Ep. clear -Fm R. induction idx as [|[[i j] k] idx IH]; cbn [map]; constructor; [|apply IH; intros q Hq; apply R; right; exact Hq].
    destruct (R (i, j, k) (or_introl eq_refl)) as (Hi & Hj & Hk & _). cbn beta. pose proof (coord_spec m i Fm Hi). pose proof (coord_spec m j Fm Hj). pose proof (coord_spec m k Fm Hk). tauto.
  - rewrite Ep. unfold t_web_type_at, t_lam_at. rewrite !map_map, Em, map_length. clear -Fm R Ec L. induction idx as [|[[i j] k] idx IH]; [split; reflexivity|].
    destruct IH as [I1 I2]; [intros q Hq; apply R; right; exact Hq|]. destruct (R (i, j, k) (or_introl eq_refl)) as (Hi & Hj & Hk & N).
    cbn [map length repeat]. rewrite (cell_coord m i j k Fm Hi Hj Hk). rewrite I1, I2. split.
    + rewrite (nth_error_nth _ _ _ N). reflexivity.
    + f_equal. cbn [key]. fold (flat (fm_n m) i j k). symmetry. apply nth_error_nth'. apply nth_error_Some_lt in N || (assert (N' : nth_error (tc_n c) (Z.to_nat (flat (fm_n m) i j k)) <> None) by congruence; apply nth_error_Some in N'; rewrite Ec in *; cbn [tc_n tc_lam] in *; rewrite map_length in *; exact N').
Qed.
Print Assumptions C97_points.

(** The four fractions: each the correctly rounded quotient of the counts, between 0 and 1; together 1 up to 2^-52. *)
Theorem C97_fractions lam m th c : (0 < fm_n m <= 2 ^ 17)%Z -> t_new lam m th = Ok c ->
  (forall t, fin (t_fraction c t) = true /\ val (t_fraction c t) = rnd64 (INR (length (filter (fun k => (k =? t)%Z) (tc_n c))) / INR (length lam)) /\ 0 <= val (t_fraction c t) <= 1) /\
  Rabs (val (t_fraction c 0) + val (t_fraction c 1) + val (t_fraction c 2) + val (t_fraction c 3) - 1) <= bpow radix2 (-52).
Proof.
  intros Hn E. destruct (t_new_inv _ _ _ _ E) as (L & _ & Ec). assert (Ln : length (tc_n c) = length lam) by (rewrite Ec; apply map_length).
  assert (P : (0 < length (tc_n c))%nat) by (rewrite Ln; nia). assert (Q : (Z.of_nat (length (tc_n c)) <= 2 ^ 53)%Z).
  { rewrite Ln, L. assert (A1 : (fm_n m * fm_n m <= 2 ^ 17 * 2 ^ 17)%Z) by (apply Z.mul_le_mono_nonneg; lia). assert (A2 : (fm_n m * fm_n m * fm_n m <= 2 ^ 17 * 2 ^ 17 * 2 ^ 17)%Z) by (apply Z.mul_le_mono_nonneg; nia). lia. }
  assert (F : forall t, fin (t_fraction c t) = true /\ val (t_fraction c t) = rnd64 (INR (length (filter (fun k => (k =? t)%Z) (tc_n c))) / INR (length lam)) /\ 0 <= val (t_fraction c t) <= 1).
  { intros t. rewrite <- Ln. exact (fraction_spec c t P Q). }
  split; [exact F|]. assert (T : forall k, In k (tc_n c) -> (0 <= k <= 3)%Z) by (rewrite Ec; cbn [tc_n]; intros k Hk; apply in_map_iff in Hk; destruct Hk as (l & <- & _); apply how_many_range).
  set (N t := length (filter (fun k => (k =? t)%Z) (tc_n c))) in *.
  assert (S : (N 0%Z + N 1%Z + N 2%Z + N 3%Z)%nat = length lam).
  { rewrite <- Ln. unfold N. clear -T. induction (tc_n c) as [|k l IH]; [reflexivity|]. cbn [filter length]. rewrite <- IH by (intros z Hz; apply T; right; exact Hz).
    pose proof (T k (or_introl eq_refl)) as H. assert (D : (k = 0 \/ k = 1 \/ k = 2 \/ k = 3)%Z) by lia. destruct D as [->|[->|[->| ->]]]; cbn; lia. }
  assert (P' : 0 < INR (length lam)) by (apply (lt_INR 0); lia). assert (SR : INR (N 0%Z) + INR (N 1%Z) + INR (N 2%Z) + INR (N 3%Z) = INR (length lam)) by (rewrite <- S, !plus_INR; reflexivity).
  assert (K : forall t, Rabs (val (t_fraction c t) - INR (N t) / INR (length lam)) <= bpow radix2 (-53) * (INR (N t) / INR (length lam)) + bpow radix2 (-1075)).
  { intros t. destruct (F t) as (_ & -> & _). fold (N t). set (q := INR (N t) / INR (length lam)). assert (0 <= q) by (apply Rmult_le_pos; [apply pos_INR|left; apply Rinv_0_lt_compat; exact P']).
    destruct (err64 q) as (d & e & Hd & He & _ & ->). replace (q * (1 + d) + e - q) with (d * q + e) by ring. eapply Rle_trans; [apply Rabs_triang|]. rewrite Rabs_mult, (Rabs_right q) by lra.
    apply Rplus_le_compat; [|exact He]. apply Rmult_le_compat_r; assumption. }
  assert (SQ : INR (N 0%Z) / INR (length lam) + INR (N 1%Z) / INR (length lam) + INR (N 2%Z) / INR (length lam) + INR (N 3%Z) / INR (length lam) = 1) by (rewrite <- !Rdiv_plus_distr, SR; field; lra).
  pose proof (K 0%Z) as K0. pose proof (K 1%Z) as K1. pose proof (K 2%Z) as K2. pose proof (K 3%Z) as K3. apply Rabs_le_inv in K0, K1, K2, K3.
  set (q0 := INR (N 0%Z) / INR (length lam)) in *. set (q1 := INR (N 1%Z) / INR (length lam)) in *. set (q2 := INR (N 2%Z) / INR (length lam)) in *. set (q3 := INR (N 3%Z) / INR (length lam)) in *.
  assert (U : bpow radix2 (-53) * q0 + bpow radix2 (-53) * q1 + bpow radix2 (-53) * q2 + bpow radix2 (-53) * q3 = bpow radix2 (-53)) by (rewrite <- !Rmult_plus_distr_l, SQ; ring).
  assert (V : 4 * bpow radix2 (-1075) <= bpow radix2 (-53)) by (replace 4 with (bpow radix2 2) by (cbn; lra); rewrite <- bpow_plus; apply bpow_le; lia).
  replace (bpow radix2 (-52)) with (2 * bpow radix2 (-53)) by (change 2 with (bpow radix2 1); rewrite <- bpow_plus; reflexivity). apply Rabs_le. lra.
Qed.
Print Assumptions C97_fractions.

(** Concrete cases. *)
Definition two_pow (e : Z) : b64 := @binary_normalize 53 1024 p53 pe53 mode_NE 1 e false.
Definition unit_mesh (n : Z) (l : b64) : fmesh := {| fm_n := n; fm_l := l |}.
Definition zero64 : b64 := B754_zero false.
(** The check of the order is made after the conversion: eigenvalues out of order by less than the float32 rounding are accepted. *)
Theorem C97_order_refuted : exists lam m th, ~ Forall ordered lam /\ exists c, t_new lam m th = Ok c.
Proof.
  exists [(add64 (of_Z64 1) (two_pow (-30)), of_Z64 1, of_Z64 2)], (unit_mesh 1 (of_Z64 1)), zero64. split.
  - intros H. apply Forall_inv in H. destruct H as [H1 _].
    assert (K : Bleb (add64 (of_Z64 1) (two_pow (-30))) (of_Z64 1) = false) by (vm_compute; reflexivity). exact (eq_true_false_abs _ H1 K).
  - apply t_new_ok; [reflexivity|]. apply Forall_cons; [|apply Forall_nil]. cbn [store_lam]. split; vm_compute; reflexivity.
Qed.
Print Assumptions C97_order_refuted.
(** A positive eigenvalue that is not counted against the threshold 0. *)
Theorem C97_positive_refuted : exists lam m c l, t_new lam m zero64 = Ok c /\ nth_error lam 0 = Some l /\ (let '(a, b, d) := l in 0 < val a /\ 0 < val b /\ 0 < val d) /\ nth_error (tc_n c) 0 = Some 2%Z.
Proof.
  assert (V : val (two_pow (-151)) = bpow radix2 (-151)).
  { replace (two_pow (-151)) with (@B754_finite 53 1024 false 4503599627370496 (-203) eq_refl : b64) by (apply B2SF_inj; vm_compute; reflexivity).
    change (IZR (2 ^ 52) * bpow radix2 (-203) = bpow radix2 (-151)). change (IZR (2 ^ 52)) with (bpow radix2 52). rewrite <- bpow_plus. reflexivity. }
  destruct (of_Z64_exact 1 ltac:(lia)) as [V1 _]. destruct (of_Z64_exact 2 ltac:(lia)) as [V2 _].
  set (lam := [(two_pow (-151), of_Z64 1, of_Z64 2)]). assert (O : exists c, t_new lam (unit_mesh 1 (of_Z64 1)) zero64 = Ok c).
  { apply t_new_ok; [reflexivity|]. apply Forall_cons; [|apply Forall_nil]. cbn [store_lam]. split; vm_compute; reflexivity. }
  destruct O as (c & O). exists lam, (unit_mesh 1 (of_Z64 1)), c, (two_pow (-151), of_Z64 1, of_Z64 2). split; [exact O|]. split; [reflexivity|]. split.
  - rewrite V, V1, V2. pose proof (bpow_gt_0 radix2 (-151)). lra.
  - destruct (t_new_inv _ _ _ _ O) as (_ & _ & ->). cbn [tc_n]. vm_compute. reflexivity.
Qed.
Print Assumptions C97_positive_refuted.
(** A box too small for float32 coordinates: the grid points of the knots are all reported at the origin, where there is a void. *)
Definition eight : list lam64 := (of_Z64 (-3), of_Z64 (-2), of_Z64 (-1)) :: repeat (of_Z64 1, of_Z64 2, of_Z64 3) 7.
Theorem C97_small_box_refuted : exists m, usable m /\ exists c pts, t_new eight m zero64 = Ok c /\ t_grid_points c "knot" = Ok pts /\ t_web_type_at c (map widen pts) = repeat 0%Z 7.
Proof.
  exists (unit_mesh 2 (two_pow (-150))). split.
  - split; [cbn; lia|]. cbn [fm_l unit_mesh]. split; [vm_compute; reflexivity|].
    replace (two_pow (-150)) with (@B754_finite 53 1024 false 4503599627370496 (-202) eq_refl : b64) by (apply B2SF_inj; vm_compute; reflexivity).
    replace (val (@B754_finite 53 1024 false 4503599627370496 (-202) eq_refl)) with (bpow radix2 (-150)).
    2:{ change (bpow radix2 (-150) = bpow radix2 52 * bpow radix2 (-202)). rewrite <- bpow_plus. reflexivity. }
    split; apply bpow_le; lia.
  - destruct (t_new_ok eight (unit_mesh 2 (two_pow (-150))) zero64) as (c & E); [reflexivity| |].
    { unfold eight. apply Forall_cons; [cbn [store_lam]; split; vm_compute; reflexivity|]. apply Forall_forall. intros l Hl. apply repeat_spec in Hl. subst l. cbn [store_lam]. split; vm_compute; reflexivity. }
    destruct (t_new_inv _ _ _ _ E) as (_ & _ & Ec). subst c. eexists. eexists. split; [exact E|]. split; [reflexivity|]. vm_compute. reflexivity.
Qed.
Print Assumptions C97_small_box_refuted.
(** An ordinary box meets [fits32]; its points and types. *)
Example C97_case : fits32 (unit_mesh 2 (of_Z64 100)) /\ Forall ordered eight /\
  match t_new eight (unit_mesh 2 (of_Z64 100)) zero64 with
  | Ok c => tc_n c = [0; 3; 3; 3; 3; 3; 3; 3]%Z /\ match t_grid_points c "knot" with Ok pts => length pts = 7%nat /\ t_web_type_at c (map widen pts) = repeat 3%Z 7 | Err _ => False end
  | Err _ => False
  end.
Proof.
  split; [|split; [|vm_compute; auto]].
  - destruct (of_Z64_exact 100 ltac:(lia)) as [V F]. split; [cbn; lia|]. split; [exact F|]. cbn [fm_l unit_mesh]. rewrite V.
    assert (bpow radix2 (-100) <= bpow radix2 0) by (apply bpow_le; lia). change (bpow radix2 0) with 1 in *. assert (bpow radix2 7 <= bpow radix2 100) by (apply bpow_le; lia). change (bpow radix2 7) with 128 in *. lra.
  - unfold eight. apply Forall_cons; [split; vm_compute; reflexivity|]. apply Forall_forall. intros l Hl. apply repeat_spec in Hl. subst l. split; vm_compute; reflexivity.
Qed.
