(** C92: grids in double precision. *)
From Coq Require Import ZArith Reals Lra Lia List Bool Permutation.
Require Import Flocq.Core.Core Flocq.IEEE754.BinarySingleNaN.
From Verif Require Import Base ProcFloat InterpFloatProofs MeshFloatModel MeshFloatProofs BinFloatModel BinFloatSpec BinFloatProofs FredModel FredSpec FredProofs FredProofs2 FredProofs3 FredProofs4 FquaModel FquaSpec FquaProofs FquaProofs2 GfltModel GfltSpec GfltProofs GfltProofs2 GfltProofs3 GfltProofs4 GfltProofs5 BinFloatProps FquaProps.
Import ListNotations. Local Open Scope list_scope. Local Open Scope R_scope.

(** Which arrays are accepted: the non-empty ones in which no location is followed by a smaller one (or NaN), and no infinity by itself.
    Differences that overflow or underflow do not matter. *)
Theorem C92_accepts l :
  (f_grid1d l = Ok l \/ f_grid1d l = Err AssertionError) /\
  (f_grid1d l = Ok l <-> l <> [] /\ forall i a b, nth_error l i = Some a -> nth_error l (S i) = Some b -> Bleb a b = true /\ forall s, ~ (a = B754_infinity s /\ b = B754_infinity s)).
Proof.
  split; [unfold f_grid1d; destruct (Nat.leb 1 (length l) && f_rising l); auto|]. unfold f_grid1d.
  assert (Q : forall a b, Bleb (of_Z64 0) (sub64 b a) = true <-> Bleb a b = true /\ forall s, ~ (a = B754_infinity s /\ b = B754_infinity s)).
  { intros a b. rewrite diff_any, andb_true_iff, negb_true_iff. apply and_iff_compat_l. split.
    - intros N s [-> ->]. cbn in N. rewrite Bool.eqb_reflx in N. discriminate.
    - intros N. destruct a as [?|sa| |], b as [?|sb| |]; try reflexivity. cbn. destruct (Bool.eqb sa sb) eqn:E; [|reflexivity]. apply Bool.eqb_prop in E. subst. exfalso. apply (N sb). auto. }
  destruct (Nat.leb 1 (length l)) eqn:E; cbn [andb].
  - apply Nat.leb_le in E. destruct (f_rising l) eqn:R.
    + rewrite rising_iff in R. split; [|reflexivity]. intros _. split; [intros ->; cbn in E; lia|]. intros i a b A C. apply Q. exact (R i a b A C).
    + split; [discriminate|]. intros [_ H]. assert (R' : f_rising l = true) by (apply rising_iff; intros i a b A C; apply Q; exact (H i a b A C)). congruence.
  - apply Nat.leb_gt in E. destruct l; [|cbn in E; lia]. split; [discriminate|]. intros [N _]. congruence.
Qed.
Print Assumptions C92_accepts.
(** Finite locations are accepted exactly when there is one and they ascend. *)
Theorem C92_accepts_finite l : Forall (fun v => fin v = true) l -> (l <> [] /\ ascending l -> f_grid1d l = Ok l) /\ (~ (l <> [] /\ ascending l) -> f_grid1d l = Err AssertionError).
Proof.
  intros F. split; [intros [N A]; apply grid_ok; assumption|]. intros N. apply grid_bad; [exact F|]. destruct l as [|x l]; [left; reflexivity|]. right. intros A. apply N. split; [discriminate|exact A].
Qed.
Print Assumptions C92_accepts_finite.
(** Not a number is a grid of one location, and a sorted array ending in two infinities is none. *)
Theorem C92_accepts_refuted : f_grid1d [B754_nan] = Ok [B754_nan] /\ f_grid1d [of_Z64 0; B754_infinity false; B754_infinity false] = Err AssertionError.
Proof. split; vm_compute; reflexivity. Qed.
Print Assumptions C92_accepts_refuted.
(** Centres: one per cell, each between the two ends of its cell (which it may equal), in ascending order, off the exact middle by a rounding. *)
Theorem C92_centers l : ascending l -> at_most 1022 l -> (2 <= length l)%nat ->
  exists c, f_centers l = Ok c /\ ascending c /\ length c = (length l - 1)%nat /\
  forall i m, nth_error c i = Some m -> exists a b, nth_error l i = Some a /\ nth_error l (S i) = Some b /\ val a <= val m <= val b /\
    Rabs (val m - (val a + val b) / 2) <= bpow radix2 (-53) * Rabs ((val a + val b) / 2) + bpow radix2 (-1075).
Proof.
  intros A M L. pose proof (middles_ascending l A M) as AM. pose proof (middles_len l) as LM. exists (f_middles l). split; [unfold f_centers; apply grid_ok; [intros E; rewrite E in LM; cbn in LM; lia|exact AM]|].
  split; [exact AM|]. split; [exact LM|]. intros i m I. apply middles_some in I. destruct I as (a & b & I1 & I2 & ->). exists a, b. split; [exact I1|]. split; [exact I2|].
  destruct (at_most_nth _ _ _ _ M I1), (at_most_nth _ _ _ _ M I2). split; [apply mid_between; try assumption; apply (proj2 A i (S i)); try assumption; lia|]. apply mid_facts; assumption.
Qed.
Print Assumptions C92_centers.
(** No cells, no centres. *)
Theorem C92_centers_single a : f_centers [a] = Err AssertionError.
Proof. reflexivity. Qed.
Print Assumptions C92_centers_single.
(** Near the top of the range the sum overflows: the centre of a single cell is infinite, two such centres raise AssertionError. *)
Definition huge (k : Z) : b64 := of_Z64 (k * 2 ^ 1020).
Theorem C92_centers_refuted : ascending [huge 13; huge 14; huge 15] /\ f_centers [huge 13; huge 14; huge 15] = Err AssertionError /\ f_centers [huge 14; huge 15] = Ok [B754_infinity false].
Proof.
  split; [|split].
  - assert (F : Forall (fun v => fin v = true) [huge 13; huge 14; huge 15]) by (repeat constructor; vm_compute; reflexivity). apply ascending_iff; [exact F|]. vm_compute. reflexivity.
  - vm_compute. reflexivity.
  - assert (H : forall r, (match r with Ok [x] => match x with B754_infinity false => true | _ => false end | _ => false end) = true -> r = Ok [B754_infinity false : b64]).
    { intros [[|x [|? ?]]|] E; try discriminate. destruct x as [|[|]| |]; try discriminate. reflexivity. }
    apply H. vm_compute. reflexivity.
Qed.
Print Assumptions C92_centers_refuted.
(** locate: from -1 to the last index; location i is at or below x exactly when i is at most the answer; NaN goes to the last. *)
Theorem C92_locate l x : (-1 <= f_grid_locate l x < Z.of_nat (length l))%Z /\
  (ascending l -> fin x = true -> forall i a, nth_error l i = Some a -> (val a <= val x <-> (Z.of_nat i <= f_grid_locate l x)%Z)) /\
  f_grid_locate l B754_nan = (Z.of_nat (length l) - 1)%Z.
Proof. split; [apply locate_bounds|]. split; [intros A F i a E; apply locate_iff; assumption|apply locate_nan]. Qed.
Print Assumptions C92_locate.
Lemma grid_is l : (Nat.leb 1 (length l) && f_rising l) = true -> f_grid1d l = Ok l.
Proof. unfold f_grid1d. intros ->. reflexivity. Qed.
(** The centre of a cell is located in that cell when its ends are further apart than one part in 2^52 of the larger. *)
Theorem C92_locate_center l i a b m c : ascending l -> at_most 1022 l -> nth_error l i = Some a -> nth_error l (S i) = Some b ->
  f_centers l = Ok c -> nth_error c i = Some m -> bpow radix2 (-53) * (Rabs (val a) + Rabs (val b)) + bpow radix2 (-1074) < val b - val a -> f_grid_locate l m = Z.of_nat i.
Proof.
  intros A M I1 I2 C I W. assert (L : (2 <= length l)%nat) by (assert (S i < length l)%nat by (apply nth_error_Some; congruence); lia).
  destruct (C92_centers l A M L) as (c' & C' & AC & _ & H). assert (c' = c) by congruence. subst c'. destruct (H i m I) as (a' & b' & J1 & J2 & BT & ER).
  assert (a' = a) by congruence. assert (b' = b) by congruence. subst a' b'. assert (Fm : fin m = true) by (destruct AC as [AF _]; rewrite Forall_forall in AF; apply AF; eapply nth_error_In; exact I).
  assert (Lt : val m < val b).
  { apply Rabs_le_inv in ER. assert (T : Rabs ((val a + val b) / 2) <= (Rabs (val a) + Rabs (val b)) / 2).
    { unfold Rdiv. rewrite Rabs_mult, (Rabs_right (/ 2)) by lra. apply Rmult_le_compat_r; [lra|apply Rabs_triang]. }
    pose proof (u_pos (-53)) as U. pose proof (Rmult_le_compat_l _ _ _ (Rlt_le _ _ U) T) as T2. assert (E : B (-1074) = 2 * B (-1075)) by (apply E901; reflexivity). lra. }
  pose proof (proj1 (locate_iff l m i a A Fm I1) ltac:(lra)). destruct (Z.le_gt_cases (Z.of_nat (S i)) (f_grid_locate l m)) as [G|G]; [|lia].
  apply (proj2 (locate_iff l m (S i) b A Fm I2)) in G. lra.
Qed.
Print Assumptions C92_locate_center.
(** Between neighbouring doubles it can be the upper end, which belongs to the next cell. *)
Definition next1 (k : Z) : b64 := div64 (of_Z64 (2 ^ 52 + k)) (of_Z64 (2 ^ 52)).
Theorem C92_locate_center_refuted : ascending [next1 1; next1 2] /\ val (next1 1) < val (next1 2) /\ exists m, f_centers [next1 1; next1 2] = Ok [m] /\ f_grid_locate [next1 1; next1 2] m = 1%Z.
Proof.
  assert (F : Forall (fun v => fin v = true) [next1 1; next1 2]) by (repeat constructor; vm_compute; reflexivity). split; [apply ascending_iff; [exact F|vm_compute; reflexivity]|]. split.
  - apply lt_val; vm_compute; reflexivity.
  - exists (mid (next1 1) (next1 2)). split; [apply grid_is|]; vm_compute; reflexivity.
Qed.
Print Assumptions C92_locate_center_refuted.
(** A slice start:stop:n*1j with start <= stop gives n ascending locations, the first at start, each off its exact place by rounding only. *)
Theorem C92_slice start stop n : fin start = true -> fin stop = true -> Rabs (val start) <= bpow radix2 900 -> Rabs (val stop) <= bpow radix2 900 -> (1 <= n)%nat -> (Z.of_nat n <= 2 ^ 53)%Z ->
  val start <= val stop -> exists l, f_grid_slice start stop n = Ok l /\ length l = n /\ ascending l /\ (exists v, nth_error l 0 = Some v /\ val v = val start) /\
    ((2 <= n)%nat -> forall k v, nth_error l k = Some v -> Rabs (val v - exact_point (val start) (val stop) n k) <= bpow radix2 (-50) * (Rabs (val start) + Rabs (val stop)) + INR n * bpow radix2 (-1073)).
Proof.
  intros Fs Ft Hs Ht H1 H2 L. pose proof (mgrid_ascending start stop n Fs Ft Hs Ht H1 H2 L) as A. assert (LN : length (f_mgrid start stop n) = n) by (unfold f_mgrid; rewrite map_length, seq_length; reflexivity).
  exists (f_mgrid start stop n). split; [unfold f_grid_slice; apply grid_ok; [intros E; rewrite E in LN; cbn in LN; lia|exact A]|]. split; [exact LN|]. split; [exact A|].
  destruct (mgrid_step_ok start stop n) as (F & B & _); try assumption. split.
  - exists (prog start (f_mgrid_step start stop n) 0). split; [apply mgrid_nth; split; [lia|reflexivity]|]. apply prog_0; assumption.
  - intros H k v I. apply mgrid_nth in I. destruct I as [K ->]. unfold f_mgrid_step. replace (Nat.eqb n 1) with false by (symmetry; apply Nat.eqb_neq; lia). apply slice_accuracy; assumption.
Qed.
Print Assumptions C92_slice.
(** Going down raises AssertionError, and so does asking for no location. *)
Theorem C92_slice_down start stop n : fin start = true -> fin stop = true -> Rabs (val start) <= bpow radix2 900 -> Rabs (val stop) <= bpow radix2 900 -> (Z.of_nat n <= 2 ^ 53)%Z ->
  (2 <= n)%nat /\ bpow radix2 (-900) <= val start - val stop \/ n = 0%nat -> f_grid_slice start stop n = Err AssertionError.
Proof.
  intros Fs Ft Hs Ht H2 [[H1 L]| ->]; [|reflexivity]. unfold f_grid_slice. apply grid_bad; [apply mgrid_finite; try assumption; lia|]. right. intros [_ A].
  pose proof (slice_down start stop n Fs Ft Hs Ht H1 H2 L) as D. destruct (mgrid_step_ok start stop n) as (F & AT & _); try assumption; [lia|].
  assert (ST : f_mgrid_step start stop n = div64 (sub64 stop start) (of_Z64 (Z.of_nat n - 1))) by (unfold f_mgrid_step; replace (Nat.eqb n 1) with false by (symmetry; apply Nat.eqb_neq; lia); reflexivity).
  pose proof (A 0%nat (n - 1)%nat _ _ ltac:(lia) (proj2 (mgrid_nth start stop n 0 _) (conj (ltac:(lia) : (0 < n)%nat) eq_refl)) (proj2 (mgrid_nth start stop n (n - 1) _) (conj (ltac:(lia) : (n - 1 < n)%nat) eq_refl))) as Q.
  rewrite prog_0 in Q by assumption. rewrite ST in Q. lra.
Qed.
Print Assumptions C92_slice_down.
(** The last location need not be stop: GridMd.at[0.:1.:50j] ends below 1, GridMd.at[0.:7.:26j] beyond 7 (so 1. lies outside the first grid). *)
Definition ends_before (x : b64) (r : result (list b64)) : bool := match r with Ok l => Bltb (last l zero64) x | Err _ => false end.
Definition ends_beyond (x : b64) (r : result (list b64)) : bool := match r with Ok l => Bltb x (last l zero64) | Err _ => false end.
Theorem C92_slice_refuted : ends_before (of_Z64 1) (f_grid_slice (of_Z64 0) (of_Z64 1) 50) = true /\ ends_beyond (of_Z64 7) (f_grid_slice (of_Z64 0) (of_Z64 7) 26) = true.
Proof. split; vm_compute; reflexivity. Qed.
Print Assumptions C92_slice_refuted.
(** A slice start:stop:step with a positive step gives ascending locations from exactly start; their number is the exact one, or one off when
    (stop - start)/step is within one part in 2^51 of an integer; location i is off start + i step by at most i (|start| + step) / 2^50. *)
Theorem C92_range start stop step : fin start = true -> fin stop = true -> fin step = true -> Rabs (val start) <= bpow radix2 900 -> Rabs (val stop) <= bpow radix2 900 -> 0 < val step <= bpow radix2 900 ->
  val step <= bpow radix2 900 * (val stop - val start) -> val stop - val start <= bpow radix2 52 * val step ->
  let q := (val stop - val start) / val step in
  exists l, f_grid_range start stop step = Ok l /\ ascending l /\ nth_error l 0 = Some start /\
    INR (length l) - 1 < q * (1 + bpow radix2 (-51)) /\ q * (1 - bpow radix2 (-51)) <= INR (length l) /\
    forall i v, nth_error l i = Some v -> Rabs (val v - (val start + INR i * val step)) <= bpow radix2 (-50) * (INR i * (Rabs (val start) + val step)).
Proof.
  intros Fs Fe Ft Hs He Ht L1 L2 q. destruct (arange_len start stop step Fs Fe Ft Hs He Ht L1 L2) as (N1 & N2 & N3 & N4). fold q in N3, N4.
  assert (NTH : forall i v, nth_error (f_arange start stop step) i = Some v -> (i < f_arange_len start stop step)%nat /\ v = f_arange_at start step i).
  { intros i v I. unfold f_arange in I. rewrite nth_error_map in I. destruct (Nat.lt_ge_cases i (f_arange_len start stop step)) as [L|L].
    - rewrite (nth_error_nth' _ 0%nat) in I by (rewrite seq_length; exact L). rewrite seq_nth in I by exact L. cbn [option_map] in I. rewrite Nat.add_0_l in I. split; [exact L|congruence].
    - replace (nth_error (seq 0 (f_arange_len start stop step)) i) with (@None nat) in I by (symmetry; apply nth_error_None; rewrite seq_length; exact L). discriminate. }
  assert (LN : length (f_arange start stop step) = f_arange_len start stop step) by (unfold f_arange; rewrite map_length, seq_length; reflexivity).
  assert (A : ascending (f_arange start stop step)).
  { split.
    - apply Forall_forall. intros v I. apply In_nth_error in I. destruct I as [i I]. destruct (NTH i v I) as [K ->]. apply arange_ok; try assumption. lia.
    - intros i j a b L I J. destruct (NTH i a I) as [I' ->], (NTH j b J) as [J' ->]. apply (adjacent_sorted (fun k => val (f_arange_at start step k)) (f_arange_len start stop step)); [|lia].
      intros k K. apply arange_step; try assumption. lia. }
  exists (f_arange start stop step). split; [unfold f_grid_range; apply grid_ok; [intros E; rewrite E in LN; cbn in LN; lia|exact A]|]. split; [exact A|]. split.
  - unfold f_arange. destruct (f_arange_len start stop step); [lia|reflexivity].
  - rewrite LN. split; [exact N3|]. split; [exact N4|]. intros i v I. destruct (NTH i v I) as [K ->]. destruct i as [|i].
    + cbn [f_arange_at INR]. rewrite !Rmult_0_l, Rplus_0_r, Rminus_diag_eq, Rabs_R0, Rmult_0_r by reflexivity. lra.
    + apply arange_accuracy; try assumption; lia.
Qed.
Print Assumptions C92_range.
(** stop is documented as exclusive, but can be reached or passed: GridMd.at[1.:1.3:0.1] ends at 1.3 (to be exact, beyond it). *)
Theorem C92_range_refuted : ends_beyond (level 13 10) (f_grid_range (of_Z64 1) (level 13 10) (level 1 10)) = true.
Proof. vm_compute. reflexivity. Qed.
Print Assumptions C92_range_refuted.
(** from_data_range, one axis: the samples [x] (arranged as [s]) span the axis from exactly the p_lo- to exactly the p_hi-quantile, ascending, inside the
    range of the samples, whenever the quantiles agree or are at least 2^-900 apart. *)
Theorem C92_data_axis x s p_lo p_hi n : sorted_sample x s -> at_most 900 x -> fin p_lo = true -> fin p_hi = true -> 0 <= val p_lo <= val p_hi -> val p_hi <= 1 -> (1 <= n)%nat -> (Z.of_nat n <= 2 ^ 49)%Z ->
  exists lo hi g, f_quantile s p_lo = Ok lo /\ f_quantile s p_hi = Ok hi /\ f_axis p_lo p_hi s n = Ok g /\ length g = n /\ (exists v, nth_error g 0 = Some v /\ val v = val lo) /\
    ((2 <= n)%nat -> nth_error g (n - 1) = Some hi) /\
    (val lo = val hi \/ bpow radix2 (-900) <= val hi - val lo -> f_grid1d g = Ok g /\ ascending g /\ exists a b, In a x /\ In b x /\ Forall (fun v => val a <= val v <= val b) g).
Proof.
  intros S M Fl Fh HP HP' H1 Hn. destruct (C91_range x None s p_lo S Fl) as [R1 _]. destruct (C91_range x None s p_hi S Fh) as [R2 _].
  destruct (R1 ltac:(lra)) as (lo & a1 & b1 & Q1 & FQ1 & A1 & B1 & AB1 & BT1). destruct (R2 ltac:(lra)) as (hi & a2 & b2 & Q2 & FQ2 & A2 & B2 & AB2 & BT2).
  cbn [chosen] in *. assert (W : forall q a b, In a x -> In b x -> val a <= val q <= val b -> Rabs (val q) <= B 900).
  { intros q a b Ia Ib Hq. unfold at_most in M. rewrite Forall_forall in M. destruct (M a Ia) as [_ Ha]. destruct (M b Ib) as [_ Hb]. apply Rabs_le_inv in Ha, Hb. apply Rabs_le. lra. }
  assert (W1 := W lo a1 b1 A1 B1 BT1). assert (W2 := W hi a2 b2 A2 B2 BT2). exists lo, hi, (f_linspace lo hi n). split; [exact Q1|]. split; [exact Q2|].
  split; [unfold f_axis; rewrite Q1, Q2; reflexivity|]. split; [apply lin_len|]. split; [apply lin_first; try assumption; lia|]. split; [intros; apply lin_last; assumption|].
  intros D. destruct (lin_ascending lo hi n FQ1 FQ2 W1 W2 H1 Hn D) as [A R]. split; [|split; [exact A|]].
  - apply grid_ok; [|exact A]. intros E. pose proof (lin_len lo hi n) as LL. rewrite E in LL. cbn in LL. lia.
  - exists a1, b2. split; [exact A1|]. split; [exact B2|]. apply Forall_forall. intros v I. rewrite Forall_forall in R. specialize (R v I). lra.
Qed.
Print Assumptions C92_data_axis.
(** Exchanged probabilities raise AssertionError (if the quantiles differ). *)
Theorem C92_data_axis_down x s p_lo p_hi n lo hi : sorted_sample x s -> at_most 900 x -> fin p_lo = true -> fin p_hi = true -> 0 <= val p_lo <= 1 -> 0 <= val p_hi <= 1 -> (2 <= n)%nat -> (Z.of_nat n <= 2 ^ 49)%Z ->
  f_quantile s p_lo = Ok lo -> f_quantile s p_hi = Ok hi -> val hi < val lo -> f_from_data_range p_lo p_hi [s] [n] = Err AssertionError.
Proof.
  intros S M Fl Fh HP HP' H1 Hn Q1 Q2 L. destruct (C91_range x None s p_lo S Fl) as [R1 _]. destruct (C91_range x None s p_hi S Fh) as [R2 _].
  destruct (R1 ltac:(lra)) as (lo' & a1 & b1 & Q1' & FQ1 & A1 & B1 & AB1 & BT1). destruct (R2 ltac:(lra)) as (hi' & a2 & b2 & Q2' & FQ2 & A2 & B2 & AB2 & BT2).
  assert (lo' = lo) by congruence. assert (hi' = hi) by congruence. subst lo' hi'.
  cbn [chosen] in *. assert (W : forall q a b, In a x -> In b x -> val a <= val q <= val b -> Rabs (val q) <= B 900).
  { intros q a b Ia Ib Hq. unfold at_most in M. rewrite Forall_forall in M. destruct (M a Ia) as [_ Ha]. destruct (M b Ib) as [_ Hb]. apply Rabs_le_inv in Ha, Hb. apply Rabs_le. lra. }
  assert (W1 := W lo a1 b1 A1 B1 BT1). assert (W2 := W hi a2 b2 A2 B2 BT2).
  unfold f_from_data_range. cbn [combine mapM]. unfold f_axis. rewrite Q1, Q2. cbn [bind]. unfold f_gridmd. cbn [mapM]. rewrite grid_bad; [reflexivity|apply lin_all_finite; try assumption; lia|]. right. apply lin_down; try assumption; lia.
Qed.
Print Assumptions C92_data_axis_down.
(** from_data_range, all axes: when every axis is a grid, the result has exactly those, as many as the shorter of data and sizes; AssertionError without any;
    ValueError for probabilities outside [0, 1], before any grid is made. *)
Theorem C92_data_range p_lo p_hi data n :
  (forall g : list b64 * nat -> list b64, (forall s k, In (s, k) (combine data n) -> f_axis p_lo p_hi s k = Ok (g (s, k)) /\ f_grid1d (g (s, k)) = Ok (g (s, k))) -> data <> [] -> n <> [] ->
     f_from_data_range p_lo p_hi data n = Ok (map g (combine data n)) /\ length (map g (combine data n)) = Nat.min (length data) (length n)) /\
  (data = [] \/ n = [] -> f_from_data_range p_lo p_hi data n = Err AssertionError) /\
  (data <> [] -> n <> [] -> fin p_lo = true -> fin p_hi = true -> ~ (0 <= val p_lo <= 1) \/ ~ (0 <= val p_hi <= 1) -> f_from_data_range p_lo p_hi data n = Err ValueError).
Proof.
  split; [|split].
  - intros g H N1 N2. split; [|rewrite map_length, combine_length; reflexivity]. unfold f_from_data_range. rewrite (mapM_ok _ g).
    + cbn [bind]. unfold f_gridmd. rewrite (mapM_ok _ (fun l => l)); [|intros l I; apply in_map_iff in I; destruct I as ([s k] & <- & I); apply (H s k I)].
      cbn [bind]. rewrite map_id. destruct data as [|s data]; [congruence|]. destruct n as [|k n]; [congruence|]. reflexivity.
    + intros [s k] I. apply (H s k I).
  - intros [-> | ->]; [reflexivity|]. unfold f_from_data_range. destruct data; reflexivity.
  - intros N1 N2 F1 F2 H. destruct data as [|s data]; [congruence|]. destruct n as [|k n]; [congruence|]. unfold f_from_data_range. cbn [combine mapM].
    assert (E : f_axis p_lo p_hi s k = Err ValueError).
    { unfold f_axis. destruct H as [H|H].
      - rewrite (quantile_bad s p_lo F1 H). reflexivity.
      - destruct (f_quantile s p_lo) as [lo|e] eqn:Q; cbn [bind]; [rewrite (quantile_bad s p_hi F2 H); reflexivity|].
        unfold f_quantile in Q. destruct (Bleb (of_Z64 0) p_lo && Bleb p_lo (of_Z64 1)); [discriminate|]. congruence. }
    rewrite E. reflexivity.
Qed.
Print Assumptions C92_data_range.
(** Samples that differ by less than any normal number can raise AssertionError: 0 and 3 * 2^-1074 with six locations. *)
Definition tiny (m : positive) (h : SpecFloat.bounded 53 1024 m (-1074) = true) : b64 := @B754_finite 53 1024 false m (-1074) h.
Theorem C92_data_refuted : let s := [of_Z64 0; tiny 3 eq_refl] in sorted_sample s s /\ f_from_data_range (of_Z64 0) (of_Z64 1) [s] [6%nat] = Err AssertionError.
Proof.
  cbv zeta. split; [|vm_compute; reflexivity]. destruct (of_Z64_exact 0 ltac:(lia)) as [V0 F0].
  assert (VT : val (tiny 3 eq_refl) = 3 * B (-1074)) by reflexivity. pose proof (u_pos (-1074)) as U.
  assert (SM : 3 * B (-1074) <= B 1022) by (apply Rle_trans with (B 2 * B (-1074)); [apply Rmult_le_compat_r; [lra|change (B 2) with 4; lra]|rewrite <- bpow_plus; apply bpow_le; lia]).
  split; [discriminate|]. split; [|split; [cbn; lia|]].
  - constructor; [split; [exact F0|rewrite V0, Rabs_R0; apply bpow_ge_0]|]. constructor; [|constructor]. split; [reflexivity|]. rewrite VT, Rabs_right by lra. exact SM.
  - split; [apply Permutation_refl|]. intros i j [L J]. cbn [length] in J. assert (D : (i = j \/ i = 0 /\ j = 1)%nat) by lia. destruct D as [-> |[-> ->]]; [lra|]. cbn [nth]. rewrite V0, VT. lra.
Qed.
Print Assumptions C92_data_refuted.
(** A concrete grid: 0, 1/2, 1 from a slice; its centres; where its centres are. *)
Example C92_ex : exists l c, f_grid_slice (of_Z64 0) (of_Z64 1) 3 = Ok l /\ f_centers l = Ok c /\ map (f_grid_locate l) c = [0%Z; 1%Z] /\ map B2SF64 l = map B2SF64 [of_Z64 0; level 1 2; of_Z64 1].
Proof. exists (f_mgrid (of_Z64 0) (of_Z64 1) 3), (f_middles (f_mgrid (of_Z64 0) (of_Z64 1) 3)). split; [apply grid_is; vm_compute; reflexivity|]. split; [apply grid_is; vm_compute; reflexivity|]. split; vm_compute; reflexivity. Qed.
Example C92_ex_range : exists l, f_grid_range (of_Z64 0) (of_Z64 1) (level 1 4) = Ok l /\ map B2SF64 l = map B2SF64 [of_Z64 0; level 1 4; level 1 2; level 3 4].
Proof. exists (f_arange (of_Z64 0) (of_Z64 1) (level 1 4)). split; [apply grid_is|]; vm_compute; reflexivity. Qed.
(** Two axes from data, the second from a single sample. *)
Example C92_ex_data : rmap (map (map B2SF64)) (f_from_data_range (of_Z64 0) (of_Z64 1) [[of_Z64 1; of_Z64 2; of_Z64 5]; [of_Z64 7]] [3%nat; 2%nat]) = Ok (map (map B2SF64) [[of_Z64 1; of_Z64 3; of_Z64 5]; [of_Z64 7; of_Z64 7]]).
Proof. vm_compute. reflexivity. Qed.
