(** Property theorems C28-C31 and C37 (stats/binning.py, core/dataproc/grid.py).  Vocabulary: BinSpec.v. *)
From Coq Require Import QArith Qround Qabs Permutation Floats.SpecFloat.
From Verif Require Import Base OrderSpec BinSpec BinModel BinProofs BinProofs2 BinProofs3 BinProofs4 BinFloat.
Local Open Scope list_scope. Local Open Scope nat_scope.

(** ** C28: bin location *)
(** BiSearchBins, for every element type with a strict weak order (numpy's: NaN last). *)
Theorem C28_bisearch_bins : forall T (lt : T -> T -> bool) edges, weak_order lt ->
  match bs_new lt edges with
  | Ok es => Permutation es edges /\ ascending lt es /\ 2 <= length edges /\ forall x, bin_index lt es x (bs_locate lt es x)
  | Err e => e = AssertionError /\ length edges < 2
  end.
Proof. exact @bs_new_spec. Qed.
Print Assumptions C28_bisearch_bins.
Theorem C28_index_unique : forall T (lt : T -> T -> bool) es x i i', bin_index lt es x i -> bin_index lt es x i' -> i = i'.
Proof. exact @bin_index_unique. Qed.
Print Assumptions C28_index_unique.
Theorem C28_numpy_order : weak_order np_lt.
Proof. exact np_weak_order. Qed.
Print Assumptions C28_numpy_order.
Theorem C28_equal_space_bins : forall b e n s q, es_new b e n = Ok s ->
  (- 2 ^ 63 <= Qfloor ((q - b) / ((e - b) / inject_Z n)) < 2 ^ 63)%Z ->
  (-1 <= es_locate s (Fin q) <= n)%Z /\ length (es_edges s) = S (Z.to_nat n) /\
  bin_index Qltb (es_edges s) q (es_locate s (Fin q)).
Proof. exact es_index. Qed.
Print Assumptions C28_equal_space_bins.
Theorem C28_construction : forall b e n,
  match es_new b e n with
  | Ok s => (b < e)%Q /\ (0 < n)%Z /\ s = {| es_b := b; es_e := e; es_n := n; es_step := ((e - b) / inject_Z n)%Q |}
  | Err x => x = AssertionError /\ ((e <= b)%Q \/ (n <= 0)%Z)
  end.
Proof. intros b e n. destruct (es_new b e n) as [s|x] eqn:H; [apply es_new_Ok; exact H|exact (es_new_Err _ _ _ _ H)]. Qed.
Print Assumptions C28_construction.
(** Through the common interface: what the returned index says, for both classes. *)
Theorem C28_locate : forall b q, made b -> castable b (Fin q) ->
  (locate b (Fin q) = (-1)%Z /\ exists e0, nth_error (x_edges b) 0 = Some e0 /\ (q < e0)%Q) \/
  (locate b (Fin q) = n_bins b /\ exists en, nth_error (x_edges b) (Z.to_nat (n_bins b)) = Some en /\ (en <= q)%Q) \/
  (exists i lo hi, locate b (Fin q) = Z.of_nat i /\ (Z.of_nat i < n_bins b)%Z /\ nth_error (x_edges b) i = Some lo /\
     nth_error (x_edges b) (S i) = Some hi /\ (lo <= q)%Q /\ (q < hi)%Q).
Proof. exact locate_cases. Qed.
Print Assumptions C28_locate.
Theorem C28_edges : forall b, made b ->
  length (x_edges b) = S (Z.to_nat (n_bins b)) /\ (1 <= n_bins b)%Z /\ ascending Qltb (x_edges b).
Proof. exact made_edges. Qed.
Print Assumptions C28_edges.
Theorem C28_locate_in_range : forall b x, made b -> (-1 <= locate b x <= n_bins b)%Z.
Proof. exact locate_range. Qed.
Print Assumptions C28_locate_in_range.
Theorem C28_locate_bound : forall b lower upper x, made b ->
  let i := locate_bound b lower upper x in
  (-1 <= i <= n_bins b)%Z /\ (lower = true -> (0 <= i)%Z) /\ (upper = true -> (i < n_bins b)%Z) /\
  ((0 <= locate b x < n_bins b)%Z -> i = locate b x) /\ (lower = false -> locate b x = (-1)%Z -> i = (-1)%Z) /\
  (upper = false -> locate b x = n_bins b -> i = n_bins b) /\
  (lower = true -> locate b x = (-1)%Z -> i = 0%Z) /\ (upper = true -> locate b x = n_bins b -> i = (n_bins b - 1)%Z).
Proof. exact locate_bound_spec. Qed.
Print Assumptions C28_locate_bound.
Theorem C28_locate_nearest : forall b q, made b -> castable b (Fin q) ->
  exists i e, locate_nearest b q = Z.of_nat i /\ nth_error (x_edges b) i = Some e /\
    forall j y, nth_error (x_edges b) j = Some y -> (Qabs (q - e) <= Qabs (q - y))%Q.
Proof. exact locate_nearest_spec. Qed.
Print Assumptions C28_locate_nearest.
Theorem C28_centers : forall b, made b -> length (x_centers b) = Z.to_nat (n_bins b) /\
  forall i c, nth_error (x_centers b) i = Some c -> exists lo hi, nth_error (x_edges b) i = Some lo /\
    nth_error (x_edges b) (S i) = Some hi /\ (c == (lo + hi) / 2)%Q /\ (lo <= c)%Q /\ (c <= hi)%Q /\
    ((lo < hi)%Q -> castable b (Fin c) -> locate b (Fin c) = Z.of_nat i).
Proof. exact x_centers_spec. Qed.
Print Assumptions C28_centers.
(** Findings.  Beyond int64 (and for +inf) a sample far above the last edge is reported as below the first. *)
Theorem C28_huge_sample_refuted : forall b e n s q, es_new b e n = Ok s ->
  (2 ^ 63 <= Qfloor ((q - b) / ((e - b) / inject_Z n)))%Z -> es_locate s (Fin q) = (-1)%Z.
Proof. exact es_out_of_int64. Qed.
Print Assumptions C28_huge_sample_refuted.
Theorem C28_infinity_refuted : forall b e n s, es_new b e n = Ok s -> es_locate s PInf = (-1)%Z.
Proof. intros b e n s H. apply es_new_Ok in H. destruct H as (_ & H & ->). unfold es_locate, zclip. cbn [es_n]. lia. Qed.
Print Assumptions C28_infinity_refuted.
(** What survives any monotone rounding: the index never decreases as x grows, and x >= lower bound is never "below". *)
Theorem C28_rounded_monotone : forall rnd b e n x y, rounding rnd -> (0 < rnd (rnd (e - b) / inject_Z n))%Q -> (x <= y)%Q ->
  (- 2 ^ 63 <= Qfloor (rnd (rnd (x - b) / rnd (rnd (e - b) / inject_Z n)))%Q)%Z ->
  (Qfloor (rnd (rnd (y - b) / rnd (rnd (e - b) / inject_Z n)))%Q < 2 ^ 63)%Z ->
  (res_locate rnd b e n x <= res_locate rnd b e n y)%Z.
Proof. exact res_mono. Qed.
Print Assumptions C28_rounded_monotone.
Theorem C28_rounded_lower_bound : forall rnd b e n x, rounding rnd -> (0 < n)%Z -> (0 < rnd (rnd (e - b) / inject_Z n))%Q -> (b <= x)%Q ->
  (Qfloor (rnd (rnd (x - b) / rnd (rnd (e - b) / inject_Z n)))%Q < 2 ^ 63)%Z -> (0 <= res_locate rnd b e n x)%Z.
Proof. exact res_sign. Qed.
Print Assumptions C28_rounded_lower_bound.
Example ex_es : exists b, make_es 0 1 4 = Ok b /\ map (fun q => locate b (Fin q)) [-(1#2); 0; 1#8; 1#4; 3#4; 99#100; 1; 7]%Q = [-1; 0; 0; 1; 3; 3; 4; 4]%Z /\
  map (locate_nearest b) [-(1#2); 1#10; 1#6; 5]%Q = [0; 0; 1; 4]%Z.
Proof. eexists. split; [reflexivity|]. split; vm_compute; reflexivity. Qed.
Example ex_bs : exists b, make_bs [3; 1; 2; 2]%Q = Ok b /\ map (locate b) [Fin 0; Fin 1; Fin 2; Fin (5#2); Fin 3; PInf; NInf; NaN]%Q = [-1; 0; 2; 2; 3; 3; -1; 3]%Z.
Proof. eexists. split; [reflexivity|]. vm_compute; reflexivity. Qed.

(** ** C29: BinnedData *)
Theorem C29_history : forall b h, made b -> (forall x w, In (x, w) (samples h) -> castable b x) ->
  let s := bd_run (bd_new b) h in
  length (bd_data s) = Z.to_nat (n_bins b) /\
  forall k v, nth_error (bd_data s) k = Some v -> (v == weight_where (in_bin (x_edges b) k) (samples h))%Q.
Proof. exact bd_run_spec. Qed.
Print Assumptions C29_history.
Theorem C29_total : forall b h, made b -> (forall x w, In (x, w) (samples h) -> castable b x) ->
  (Qsum (bd_data (bd_run (bd_new b) h)) == weight_where (in_range (x_edges b)) (samples h))%Q.
Proof. exact bd_run_total. Qed.
Print Assumptions C29_total.
Theorem C29_rejected_call : forall s x w, match bd_add s x w with
  | Ok s' => bd_bins s' = bd_bins s /\ (forall w', w = Some w' -> length w' = length x)
  | Err e => e = AssertionError /\ exists w', w = Some w' /\ length w' <> length x
  end.
Proof. exact bd_add_result. Qed.
Print Assumptions C29_rejected_call.
Example ex_binned : exists b, make_bs [0; 1; 3]%Q = Ok b /\
  bd_data (bd_run (bd_new b) [([Fin 0; Fin 2; Fin 3; NaN]%Q, None); ([Fin (1#2); Fin 1]%Q, Some [5; 7]%Q); ([Fin 1]%Q, Some [])]) = [6; 8]%Q.
Proof. eexists. split; [reflexivity|]. vm_compute; reflexivity. Qed.

(** ** C30: helpers of class Bin *)
Theorem C30_combine : forall x n_comb, match combine_adjacent_bins x n_comb with
  | Ok out => (1 <= n_comb <= Z.of_nat (length x))%Z /\ Z.of_nat (length out) = (Z.of_nat (length x) - n_comb + 1)%Z /\
      forall i v, nth_error out i = Some v -> (v == Qsum (firstn (Z.to_nat n_comb) (skipn i x)))%Q
  | Err e => e = AssertionError /\ ((n_comb < 1)%Z \/ (Z.of_nat (length x) < n_comb)%Z)
  end.
Proof. exact combine_spec. Qed.
Print Assumptions C30_combine.
Theorem C30_centers_widths : forall e stride, 1 <= stride ->
  exists c w, edges_to_centers e stride = Ok c /\ edges_to_widths e stride = Ok w /\
    (length c = length e - stride /\ forall i v, nth_error c i = Some v <->
      exists lo hi, nth_error e i = Some lo /\ nth_error e (i + stride) = Some hi /\ v = ((1 # 2) * (lo + hi))%Q) /\
    (length w = length e - stride /\ forall i v, nth_error w i = Some v <->
      exists lo hi, nth_error e i = Some lo /\ nth_error e (i + stride) = Some hi /\ v = (hi - lo)%Q).
Proof. intros e [|s] H; [lia|]. eexists. eexists. split; [reflexivity|]. split; [reflexivity|]. split; apply (strided_nth _ e (S s) _ H eq_refl). Qed.
Print Assumptions C30_centers_widths.
(** Stride 0: at most one edge gives no bin, more edges are refused. *)
Theorem C30_stride_zero : forall e, (length e <= 1 -> edges_to_centers e 0 = Ok [] /\ edges_to_widths e 0 = Ok []) /\
  (2 <= length e -> edges_to_centers e 0 = Err ValueError /\ edges_to_widths e 0 = Err ValueError).
Proof. intros e. unfold edges_to_centers, edges_to_widths, strided. destruct (Nat.leb_spec (length e) 1); split; intros; try lia; split; reflexivity. Qed.
Print Assumptions C30_stride_zero.
Theorem C30_insert_sub_bins : forall e s out, 1 <= s -> e <> [] -> insert_sub_bins e s = Ok out ->
  length out = s * (length e - 1) + 1 /\
  (forall i k lo hi, nth_error e i = Some lo -> nth_error e (S i) = Some hi -> k < s ->
     exists v, nth_error out (i * s + k) = Some v /\ (v == lo + (hi - lo) * (inject_Z (Z.of_nat k) / inject_Z (Z.of_nat s)))%Q) /\
  nth_error out (s * (length e - 1)) = Some (last e 0%Q).
Proof. exact insert_sub_spec. Qed.
Print Assumptions C30_insert_sub_bins.
Theorem C30_insert_keeps_order : forall e s out, 1 <= s -> e <> [] -> ascending Qltb e -> insert_sub_bins e s = Ok out -> ascending Qltb out.
Proof. exact insert_sub_asc. Qed.
Print Assumptions C30_insert_keeps_order.
Theorem C30_p_range : forall quant x range p_range,
  match parse_p_range_spec quant x range p_range with
  | Ok (lo, hi) =>
      match x, range, p_range with
      | None, Some r, None => (lo, hi) = r
      | Some _, Some (a, b), None => lo = a /\ hi = b
      | Some l, None, None => (exists i, nth_error l i = Some lo) /\ (exists i, nth_error l i = Some hi) /\ forall v, In v l -> (lo <= v /\ v <= hi)%Q
      | Some l, None, Some (p, q) => lo = quant l p /\ hi = quant l q
      | Some l, Some (a, b), Some (p, q) =>
          forall v, ((lo <= v /\ v <= hi) <-> ((a <= v /\ v <= b) /\ (quant l p <= v /\ v <= quant l q)))%Q
      | _, _, _ => False
      end
  | Err AssertionError => x = None /\ (range = None \/ p_range <> None)
  | Err ValueError => x = Some [] /\ range = None /\ p_range = None
  | Err _ => False
  end.
Proof. exact p_range_spec. Qed.
Print Assumptions C30_p_range.
Theorem C30_sub_bin_spec : forall b s range, match parse_sub_bin_spec b s range with
  | Ok (b', s', (lo, hi)) => s' = s /\ 1 <= s /\
      match b with
      | inl n => b' = inl (n * Z.of_nat s)%Z /\ range = Some (lo, hi)
      | inr e => range = None /\ e <> [] /\ (lo == nth 0 e 0)%Q /\ hi = last e 0%Q /\ exists e', b' = inr e' /\ insert_sub_bins e s = Ok e'
      end
  | Err AssertionError => s = 0 \/ (exists n, b = inl n) /\ range = None \/ (exists e, b = inr e) /\ range <> None
  | Err IndexError => b = inr []
  | Err _ => False
  end.
Proof. exact sub_bin_spec. Qed.
Print Assumptions C30_sub_bin_spec.
Example ex_combine : combine_adjacent_bins [1; 2; 3; 4]%Q 3 = Ok [6; 9]%Q /\ (exists l, insert_sub_bins [0; 1; 3]%Q 2 = Ok l /\ map Qred l = [0; 1#2; 1; 2; 3]%Q).
Proof. split; [reflexivity|]. eexists. split; [reflexivity|]. vm_compute. reflexivity. Qed.

(** ** C31: overlapped windows *)
Theorem C31_windows : forall x n s lo hi w r, from_overlapped_bins x n s lo hi w = Ok r ->
  1 <= s <= Z.to_nat n /\ length (h_sub_e r) = S (Z.to_nat n) /\
  length (h_h r) = Z.to_nat n - s + 1 /\ length (h_x r) = length (h_h r) /\ length (h_dx r) = length (h_h r) /\
  forall i, i < length (h_h r) -> exists a b c d v, nth_error (h_sub_e r) i = Some a /\ nth_error (h_sub_e r) (i + s) = Some b /\
    nth_error (h_x r) i = Some c /\ nth_error (h_dx r) i = Some d /\ nth_error (h_h r) i = Some v /\
    (c == (a + b) / 2)%Q /\ (d == b - a)%Q /\ (v == weight_where (in_window (h_sub_e r) i (i + s)) (hist_samples x w))%Q.
Proof. exact overlapped_spec. Qed.
Print Assumptions C31_windows.
(** The sub-bins cut the range into n equal parts (a range of no width is first widened by one half on each side), and the call succeeds exactly for matching weights, an ordered range and 1 <= s <= n. *)
Theorem C31_edges : forall x n s lo hi w r, from_overlapped_bins x n s lo hi w = Ok r ->
  let a := if Qeq_bool lo hi then (lo - (1 # 2))%Q else lo in let b := if Qeq_bool lo hi then (hi + (1 # 2))%Q else hi in
  forall i e, nth_error (h_sub_e r) i = Some e -> (e == a + (b - a) * inject_Z (Z.of_nat i) / inject_Z n)%Q.
Proof.
  intros x n s lo hi w r H. unfold from_overlapped_bins in H. destruct (np_histogram x n lo hi w) as [[h0 e]|] eqn:Eh; [|discriminate]. cbn [bind] in H.
  destruct (edges_to_centers e s); [|discriminate]. cbn [bind] in H. destruct (edges_to_widths e s); [|discriminate]. cbn [bind] in H. destruct (combine_adjacent_bins h0 (Z.of_nat s)); [|discriminate]. cbn [bind] in H. apply Ok_inj in H. subst r. cbn [h_sub_e].
  pose proof (np_hist_spec _ _ _ _ _ _ _ Eh) as (Hn & A & C & _). cbn zeta. assert (N : ~ (inject_Z n == 0)%Q) by (unfold Qeq; cbn; lia).
  unfold np_histogram in Eh. destruct (Nat.eqb _ _); [|discriminate]. cbn [negb] in Eh. destruct (n <? 1)%Z; [discriminate|]. destruct (Qltb hi lo); [discriminate|]. destruct (Qeq_bool lo hi); apply Ok_inj in Eh; injection Eh as _ <-; intros i v Hv; apply linspace_nth in Hv; destruct Hv as [_ ->];
    replace (Z.of_nat (Z.to_nat n + 1 - 1)) with n by lia; field; exact N.
Qed.
Print Assumptions C31_edges.
Theorem C31_accepts : forall x n s lo hi w, (exists r, from_overlapped_bins x n s lo hi w = Ok r) <->
  (forall l, w = Some l -> length l = length x) /\ (lo <= hi)%Q /\ (1 <= Z.of_nat s <= n)%Z.
Proof.
  intros x n s lo hi w. split.
  - intros [r H]. pose proof (overlapped_spec _ _ _ _ _ _ _ H) as (Hs & _). unfold from_overlapped_bins, np_histogram in H. destruct (Nat.eqb _ _) eqn:El in H; [|discriminate]. apply Nat.eqb_eq in El. cbn [negb] in H.
    destruct (n <? 1)%Z; [discriminate|]. destruct (Qltb hi lo) eqn:Eq; [discriminate|]. split; [intros l ->; congruence|]. split; [apply Qltb_ge; exact Eq|lia].
  - intros (Hl & Hq & Hs). assert (El : Nat.eqb (length x) (length (match w with None => repeat 1%Q (length x) | Some w => w end)) = true) by (apply Nat.eqb_eq; destruct w as [l|]; [rewrite (Hl l eq_refl); reflexivity|rewrite repeat_length; reflexivity]).
    assert (G : exists h0 e, np_histogram x n lo hi w = Ok (h0, e)). { unfold np_histogram. rewrite El. cbn [negb]. replace (n <? 1)%Z with false by (symmetry; apply Z.ltb_ge; lia). replace (Qltb hi lo) with false by (symmetry; apply Qltb_ge; exact Hq). destruct (Qeq_bool lo hi); eexists _, _; reflexivity. }
    destruct G as (h0 & e & G). pose proof (np_hist_spec _ _ _ _ _ _ _ G) as (Hn & _ & _ & Lh & Le & _). unfold from_overlapped_bins. rewrite G. cbn [bind].
    destruct (C30_centers_widths e s ltac:(lia)) as (c & d & Ec & Ed & _). rewrite Ec. cbn [bind]. rewrite Ed. cbn [bind]. pose proof (C30_combine h0 (Z.of_nat s)) as K. destruct (combine_adjacent_bins h0 (Z.of_nat s)) as [h|er]; [cbn [bind]; eexists; reflexivity|]. exfalso. destruct K as [_ K]. lia.
Qed.
Print Assumptions C31_accepts.
(** Finding: the entry "sub_h" is the combined histogram, not the counts of the sub-bins of "sub_e". *)
Theorem C31_sub_h_refuted : exists x n s lo hi r, from_overlapped_bins x n s lo hi None = Ok r /\
  h_sub_h r = h_h r /\ length (h_sub_h r) <> length (h_sub_e r) - 1.
Proof. exists [0; 1; 2]%Q, 4%Z, 2, 0%Q, 4%Q. eexists. split; [vm_compute; reflexivity|]. split; [reflexivity|]. cbn. lia. Qed.
Print Assumptions C31_sub_h_refuted.

(** ** C37: grids *)
Theorem C37_grid1d : forall l, match grid1d l with
  | Ok g => g = l /\ l <> [] /\ ascending Qltb l
  | Err e => e = AssertionError
  end.
Proof. intros l. destruct (grid1d l) as [g|e] eqn:H; [apply grid1d_Ok; exact H|exact (grid1d_Err _ _ H)]. Qed.
Print Assumptions C37_grid1d.
Theorem C37_accepts_sorted : forall l, l <> [] -> ascending Qltb l -> grid1d l = Ok l.
Proof. intros l H A. apply grid1d_Ok. auto. Qed.
Print Assumptions C37_accepts_sorted.
Theorem C37_locate : forall l x, ascending Qltb l -> bin_index np_lt (map Fin l) x (grid_locate l x).
Proof. exact grid_locate_spec. Qed.
Print Assumptions C37_locate.
Theorem C37_extent : forall l, ascending Qltb l -> l <> [] ->
  In (fst (grid_extent l)) l /\ In (snd (grid_extent l)) l /\ forall x, In x l -> (fst (grid_extent l) <= x /\ x <= snd (grid_extent l))%Q.
Proof. exact grid_extent_spec. Qed.
Print Assumptions C37_extent.
Theorem C37_centers : forall l, ascending Qltb l -> l <> [] ->
  (length l = 1 -> grid_centers l = Err AssertionError) /\
  (2 <= length l -> exists c, grid_centers l = Ok c /\ length c = length l - 1 /\ ascending Qltb c /\
     forall i a b m, nth_error l i = Some a -> nth_error l (S i) = Some b -> nth_error c i = Some m -> (m == (a + b) / 2)%Q /\ (a <= m)%Q /\ (m <= b)%Q).
Proof. exact grid_centers_spec. Qed.
Print Assumptions C37_centers.
Theorem C37_gridmd : forall ls gs, gridmd ls = Ok gs <-> gs = ls /\ ls <> [] /\ forall l, In l ls -> l <> [] /\ ascending Qltb l.
Proof. exact gridmd_Ok. Qed.
Print Assumptions C37_gridmd.
(** A grid that is refused (no axis, an axis without locations, or locations out of order) is refused by an assertion. *)
Theorem C37_gridmd_refused : forall ls, (forall e, gridmd ls = Err e -> e = AssertionError) /\
  ((ls = [] \/ exists l, In l ls /\ ~ (l <> [] /\ ascending Qltb l)) -> gridmd ls = Err AssertionError).
Proof.
  intros ls. assert (A : forall e, gridmd ls = Err e -> e = AssertionError).
  { intros e. unfold gridmd. destruct (mapM grid1d ls) as [gs|e'] eqn:E; cbn [bind].
    - destruct gs; intros H; [injection H as <-; reflexivity|discriminate].
    - intros H. injection H as ->. revert e E. induction ls as [|l ls IH]; intros e E; [discriminate|]. cbn [mapM] in E. unfold grid1d at 1 in E.
      destruct (Nat.leb 1 (length l) && nondecreasing l)%bool; cbn [bind] in E; [|injection E as <-; reflexivity].
      destruct (mapM grid1d ls) as [gs|e'']; cbn [bind] in E; [discriminate|]. injection E as ->. apply IH. reflexivity. }
  split; [exact A|]. intros H. destruct (gridmd ls) as [gs|e] eqn:E; [|f_equal; apply A; reflexivity].
  exfalso. apply gridmd_Ok in E. destruct E as (_ & N & G). destruct H as [H|(l & Hl & H)]; [exact (N H)|exact (H (G l Hl))].
Qed.
Print Assumptions C37_gridmd_refused.
(** The value computed at multi-index [idx] is [f] of the grid point with these coordinates ('ij' layout). *)
Theorem C37_applied : forall V (f : list Q -> V) gs idx pt,
  Forall2 (fun (i : nat * Q) g => nth_error g (fst i) = Some (snd i)) (combine idx pt) gs -> length idx = length gs -> length pt = length gs ->
  nth_error (md_applied false gs f) (ravel (md_n_locs gs) idx) = Some (f pt) /\
  length (md_applied false gs f) = fold_right Nat.mul 1 (md_n_locs gs).
Proof. intros V f gs idx pt H L1 L2. unfold md_applied. rewrite nth_error_map, (cart_nth gs idx pt H L1 L2), map_length, cart_len. split; reflexivity. Qed.
Print Assumptions C37_applied.
(** With the default 'xy' layout the first two axes of the result are exchanged. *)
Theorem C37_applied_xy : forall V (f : list Q -> V) g0 g1 gs i j idx a b pt,
  nth_error g0 i = Some a -> nth_error g1 j = Some b -> length idx = length gs -> length pt = length gs ->
  Forall2 (fun (i : nat * Q) g => nth_error g (fst i) = Some (snd i)) (combine idx pt) gs ->
  nth_error (md_applied true (g0 :: g1 :: gs) f) (ravel (length g1 :: length g0 :: md_n_locs gs) (j :: i :: idx)) = Some (f (a :: b :: pt)).
Proof. intros V f g0 g1 gs i j idx a b pt H1 H2 H3 H4 H5. unfold md_applied. rewrite nth_error_map, (cart_xy_nth g0 g1 gs i j idx a b pt H1 H2 H3 H4 H5). reflexivity. Qed.
Print Assumptions C37_applied_xy.
Example ex_applied : md_applied true [[0; 1]; [5; 6; 7]]%Q (fun p => p) = [[0; 5]; [1; 5]; [0; 6]; [1; 6]; [0; 7]; [1; 7]]%Q.
Proof. reflexivity. Qed.
(** GridMd.extent and GridMd.centers: axis by axis; one axis of a single location makes centers fail. *)
Theorem C37_gridmd_extent : forall gs i g, nth_error gs i = Some g -> g <> [] -> exists a b, nth_error (md_extent gs) i = Some (a, b) /\ nth_error g 0 = Some a /\ nth_error g (length g - 1) = Some b /\ length (md_extent gs) = length gs.
Proof.
  intros gs i g H N. exists (nth 0 g 0%Q), (last g 0%Q). unfold md_extent. rewrite nth_error_map, H, map_length. split; [reflexivity|]. destruct g as [|a g]; [congruence|]. split; [reflexivity|]. split; [|reflexivity].
  clear H N gs i. revert a. induction g as [|b g IH]; intros a; [reflexivity|]. cbn [length Nat.sub]. specialize (IH b). cbn [length Nat.sub] in IH. rewrite Nat.sub_0_r in IH. exact IH.
Qed.
Print Assumptions C37_gridmd_extent.
Theorem C37_gridmd_centers : forall gs, gs <> [] -> (forall g, In g gs -> g <> [] /\ ascending Qltb g) ->
  ((forall g, In g gs -> 2 <= length g) -> exists cs, md_centers gs = Ok cs /\ length cs = length gs /\
     forall i g c, nth_error gs i = Some g -> nth_error cs i = Some c -> length c = length g - 1 /\
       forall j a b m, nth_error g j = Some a -> nth_error g (S j) = Some b -> nth_error c j = Some m -> (m == (a + b) / 2)%Q) /\
  ((exists g, In g gs /\ length g = 1) -> md_centers gs = Err AssertionError).
Proof.
  intros gs N A. unfold md_centers. split.
  - intros L. assert (E : exists cs, mapM grid_centers gs = Ok cs /\ length cs = length gs /\ (forall c, In c cs -> c <> [] /\ ascending Qltb c) /\
      forall i g c, nth_error gs i = Some g -> nth_error cs i = Some c -> length c = length g - 1 /\ forall j a b m, nth_error g j = Some a -> nth_error g (S j) = Some b -> nth_error c j = Some m -> (m == (a + b) / 2)%Q).
    { clear N. induction gs as [|g gs IH]; [exists []; split; [reflexivity|]; split; [reflexivity|]; split; [intros c []|intros [|i] g c H; discriminate H]|].
      destruct IH as (cs & E & Ln & As & P); [intros g' H; apply A; right; exact H|intros g' H; apply L; right; exact H|]. destruct (A g ltac:(left; reflexivity)) as [Ng Ag].
      destruct (proj2 (grid_centers_spec g Ag Ng) ltac:(apply L; left; reflexivity)) as (c & Ec & Lc & Ac & Pc). exists (c :: cs). cbn [mapM]. rewrite Ec. cbn [bind]. rewrite E. cbn [bind]. split; [reflexivity|]. split; [cbn; lia|].
      split.
      - intros c' [<-|H]; [|apply As, H]. split; [|exact Ac]. specialize (L g ltac:(left; reflexivity)). destruct c; [cbn in Lc; lia|discriminate].
      - intros [|i] g' c' H H'; cbn in H, H'; [|apply (P i g' c' H H')]. injection H as <-. injection H' as <-. split; [exact Lc|]. intros j a b m H1 H2 H3. apply (Pc j a b m H1 H2 H3). }
    destruct E as (cs & -> & Ln & As & P). exists cs. cbn [bind]. split; [|split; [exact Ln|exact P]]. apply C37_gridmd. split; [reflexivity|]. split; [destruct cs; [destruct gs; [congruence|discriminate]|discriminate]|exact As].
  - intros (g & G & L1). assert (E : mapM grid_centers gs = Err AssertionError).
    { clear N. induction gs as [|g' gs IH]; [destruct G|]. cbn [mapM]. destruct (A g' ltac:(left; reflexivity)) as [Ng Ag]. destruct (grid_centers_spec g' Ag Ng) as [S1 S2].
      destruct (Nat.eq_dec (length g') 1) as [X|X]; [rewrite (S1 X); reflexivity|]. destruct G as [->|G]; [contradiction|]. destruct S2 as (c & -> & _); [destruct g' as [|? [|? ?]]; cbn in *; [congruence|lia|lia]|].
      cbn [bind]. rewrite IH; [reflexivity|intros h H; apply A; right; exact H|exact G]. }
    rewrite E. reflexivity.
Qed.
Print Assumptions C37_gridmd_centers.
