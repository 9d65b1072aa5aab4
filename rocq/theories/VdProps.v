(** C71: binned volume densities. *)
From Coq Require Import QArith Reals Qreals Lqa.
From Verif Require Import Base OrderSpec BinSpec BinModel BinProofs BinProofs2 BinProofs3 BinProofs4 BinProofs5 FrameModel VdModel.
Local Open Scope list_scope. Local Open Scope nat_scope.

(** The analogue of C31 for explicit edges. *)
Lemma overlapped_edges_spec x e s w r : from_overlapped_edges x e s w = Ok r ->
  1 <= s < length e /\ ascending Qltb e /\ h_sub_e r = e /\
  length (h_h r) = length e - s /\ length (h_x r) = length (h_h r) /\ length (h_dx r) = length (h_h r) /\
  forall i, i < length (h_h r) -> exists a b c d v, nth_error (h_sub_e r) i = Some a /\ nth_error (h_sub_e r) (i + s) = Some b /\
    nth_error (h_x r) i = Some c /\ nth_error (h_dx r) i = Some d /\ nth_error (h_h r) i = Some v /\
    (c == (a + b) / 2)%Q /\ (d == b - a)%Q /\ (v == weight_where (in_window (h_sub_e r) i (i + s)) (hist_samples x w))%Q.
Proof.
  unfold from_overlapped_edges, np_histogram_edges. fold (hist_samples x w).
  set (ws := match w with None => repeat 1%Q (length x) | Some w => w end).
  destruct (Nat.eqb (length x) (length ws)); cbn [negb bind]; [|discriminate].
  destruct (nondecreasing e) eqn:ND; cbn [negb bind]; [|discriminate]. apply nondec_spec in ND.
  set (h0 := map (fun i => weight_where (in_window e i (S i)) (hist_samples x w)) (seq 0 (length e - 1))).
  destruct (edges_to_centers e s) as [c|] eqn:Ec; [|cbn [bind]; discriminate]. cbn [bind]. destruct (edges_to_widths e s) as [d|] eqn:Ed; [|cbn [bind]; discriminate]. cbn [bind].
  destruct (combine_adjacent_bins h0 (Z.of_nat s)) as [h|] eqn:Eh. 2:{ intros E. discriminate E. } cbn [bind]. pose proof (combine_spec h0 (Z.of_nat s)) as K. rewrite Eh in K.
  intros E. apply Ok_inj in E. subst r. cbn [h_x h_dx h_h h_sub_e]. destruct K as (K1 & K2 & K3).
  assert (L0 : length h0 = length e - 1) by (unfold h0; rewrite map_length, seq_length; reflexivity).
  assert (Hs1 : 1 <= s) by lia.
  destruct (strided_nth _ _ _ _ Hs1 Ec) as [Lc Nc]. destruct (strided_nth _ _ _ _ Hs1 Ed) as [Ld Nd].
  split; [lia|]. split; [exact ND|]. split; [reflexivity|]. split; [lia|]. split; [lia|]. split; [lia|].
  intros i Hi. destruct (nth_error e i) as [a|] eqn:E1; [|apply nth_error_None in E1; lia].
  destruct (nth_error e (i + s)) as [b|] eqn:E2; [|apply nth_error_None in E2; lia].
  destruct (nth_error h i) as [v|] eqn:E3; [|apply nth_error_None in E3; lia].
  exists a, b, ((1 # 2) * (a + b))%Q, (b - a)%Q, v.
  split; [reflexivity|]. split; [reflexivity|]. split; [apply Nc; eauto|]. split; [apply Nd; eauto|]. split; [reflexivity|].
  split; [field|]. split; [reflexivity|].
  rewrite (K3 _ _ E3), Nat2Z.id. rewrite firstn_skipn_seq by lia. rewrite <- (window_sum e (hist_samples x w) ND s i Hs1) by lia.
  apply Qsum_ext. intros j Hj. apply in_seq in Hj.
  assert (N : nth_error h0 (i + j) = Some (weight_where (in_window e (i + j) (S (i + j))) (hist_samples x w))).
  { unfold h0. rewrite nth_error_map_seq. destruct (Nat.ltb_spec (i + j) (length e - 1)); [reflexivity|lia]. }
  rewrite (nth_error_nth _ _ 0%Q N). reflexivity.
Qed.

Lemma samples_weighted s : hist_samples (map fst s) (Some (map snd s)) = s.
Proof. unfold hist_samples. induction s as [|[a b] s IH]; cbn [map combine fst snd]; [reflexivity|]. rewrite IH. reflexivity. Qed.
Lemma samples_unweighted s : Forall (fun p => snd p = 1%Q) s -> hist_samples (map fst s) None = s.
Proof. unfold hist_samples. intros H. induction H as [|[a b] s E H IH]; cbn [map combine fst snd length repeat] in *; [reflexivity|]. subst b. rewrite IH. reflexivity. Qed.

(** The samples of one bootstrap draw. *)
Definition drawn (x : list Q) (w : option (list Q)) (lo hi : Q) (ids : list nat) : list (Q * Q) := draw (select x w lo hi) ids.
Lemma drawn_in x w lo hi ids : Forall (fun i => i < length (select x w lo hi)) ids -> Forall (fun p => In p (select x w lo hi)) (drawn x w lo hi ids).
Proof.
  intros H. unfold drawn, draw. rewrite Forall_forall in *. intros p Hp. apply in_map_iff in Hp. destruct Hp as (i & <- & Hi). apply nth_In. apply H. exact Hi.
Qed.

(** The statistic of any draw of any sample: all samples drawn lie in the half-open range; each window of sub_bins adjacent sub-bins
    holds exactly the total weight of the samples in it; its density times volume times width is that weight; positions are the
    window centres. *)
Theorem C71_density : forall quant x w volume bins sub range p_range ids b s lo hi r y, (volume > 0)%Q ->
  binning quant x bins sub range p_range = Ok (b, s, (lo, hi)) -> Forall (fun i => i < length (select x w lo hi)) ids ->
  from_raw quant x w volume bins sub range p_range ids = Ok (r, y) ->
  let smp := drawn x w lo hi ids in
  Forall (fun p => In p (hist_samples x w) /\ lo <= fst p /\ fst p < hi)%Q smp /\
  length y = length (h_h r) /\ length (h_dx r) = length y /\ length (h_x r) = length y /\
  forall i, i < length y -> exists a b v c d yi, nth_error (h_sub_e r) i = Some a /\ nth_error (h_sub_e r) (i + sub) = Some b /\
    nth_error (h_h r) i = Some v /\ nth_error (h_x r) i = Some c /\ nth_error (h_dx r) i = Some d /\ nth_error y i = Some yi /\
    (c == (a + b) / 2 /\ d == b - a /\ v == weight_where (in_window (h_sub_e r) i (i + sub)) smp /\ (a < b -> yi * volume * (b - a) == v))%Q.
Proof.
  intros quant x w volume bins sub range p_range ids b s lo hi r y V B I E. cbv zeta. unfold from_raw in E. rewrite B in E. cbn [bind] in E.
  pose proof (drawn_in x w lo hi ids I) as D. fold (drawn x w lo hi ids) in E. set (smp := drawn x w lo hi ids) in *.
  assert (Hs : s = sub).
  { unfold binning in B. destruct (match bins with inl _ => rmap Some (parse_p_range_spec quant (Some x) range p_range) | inr _ => Ok range end) as [rg|]; [|discriminate].
    cbn [bind] in B. pose proof (sub_bin_spec bins sub rg) as S0. rewrite B in S0. destruct S0 as [S0 _]. exact S0. }
  subst s. split.
  { rewrite Forall_forall in *. intros p Hp. specialize (D p Hp). unfold select in D. apply filter_In in D. destruct D as [D1 D2]. unfold in_sel in D2.
    apply andb_prop in D2. destruct D2 as [D2 D3]. apply Qle_bool_iff in D2. apply Qltb_lt in D3. auto. }
  unfold vd_hist in E. set (wt := match w with Some _ => true | None => false end) in E.
  assert (HS : hist_samples (map fst smp) (if wt then Some (map snd smp) else None) = smp).
  { unfold wt. destruct w as [w|]; [apply samples_weighted|]. apply samples_unweighted. rewrite Forall_forall in *. intros p Hp. specialize (D p Hp).
    unfold select in D. apply filter_In in D. destruct D as [D _]. unfold hist_samples in D. destruct p as [p q]. apply in_combine_r in D. apply repeat_spec in D. exact D. }
  assert (Core : forall r0, match b with inl n => from_overlapped_bins (map fst smp) n sub lo hi (if wt then Some (map snd smp) else None) | inr e => from_overlapped_edges (map fst smp) e sub (if wt then Some (map snd smp) else None) end = Ok r0 ->
     length (h_x r0) = length (h_h r0) /\ length (h_dx r0) = length (h_h r0) /\ forall i, i < length (h_h r0) -> exists a b c d v, nth_error (h_sub_e r0) i = Some a /\ nth_error (h_sub_e r0) (i + sub) = Some b /\
    nth_error (h_x r0) i = Some c /\ nth_error (h_dx r0) i = Some d /\ nth_error (h_h r0) i = Some v /\
    (c == (a + b) / 2)%Q /\ (d == b - a)%Q /\ (v == weight_where (in_window (h_sub_e r0) i (i + sub)) smp)%Q).
  { intros r0 E0. destruct b as [n|e].
    - apply overlapped_spec in E0. destruct E0 as (_ & _ & _ & L1 & L2 & H). rewrite HS in H. auto.
    - apply overlapped_edges_spec in E0. destruct E0 as (_ & _ & _ & _ & L1 & L2 & H). rewrite HS in H. auto. }
  cbn [fst snd] in E. destruct (match b with inl n => _ | inr e => _ end) as [r0|] eqn:E0; [|discriminate]. cbn [bind] in E.
  assert (r0 = r) by congruence. subst r0. assert (Ey : y = zipwith (fun h dx => (h / (volume * dx))%Q) (h_h r) (h_dx r)) by congruence. clear E.
  destruct (Core r eq_refl) as (L1 & L2 & H). assert (Ly : length y = length (h_h r)) by (rewrite Ey, zipwith_length; lia).
  split; [exact Ly|]. split; [lia|]. split; [lia|]. intros i Hi. destruct (H i ltac:(lia)) as (a & b' & c & d & v & N1 & N2 & N3 & N4 & N5 & Q1 & Q2 & Q3).
  exists a, b', v, c, d, (v / (volume * d))%Q. repeat (split; [assumption|]). split.
  { rewrite Ey. apply zipwith_nth. exists v, d. auto. }
  repeat (split; [assumption|]). intros Hab. rewrite Q2. field. split; lra.
Qed.
Print Assumptions C71_density.

(** Without sub-bins every drawn sample is counted exactly once: the densities integrate to the total weight over the volume. *)
Theorem C71_total : forall quant x w volume bins range p_range ids b lo hi r y, (volume > 0)%Q ->
  binning quant x bins 1 range p_range = Ok (b, 1, (lo, hi)) -> (lo < hi)%Q -> Forall (fun i => i < length (select x w lo hi)) ids ->
  from_raw quant x w volume bins 1 range p_range ids = Ok (r, y) ->
  (Qsum (h_h r) == Qsum (map snd (drawn x w lo hi ids)))%Q.
Proof.
  intros quant x w volume bins range p_range ids b lo hi r y V B Lh I E.
  destruct (C71_density _ _ _ _ _ _ _ _ _ _ _ _ _ _ _ V B I E) as (F & Ly & _ & _ & H). cbv zeta in *. set (smp := drawn x w lo hi ids) in *.
  assert (Edges : ascending Qltb (h_sub_e r) /\ length (h_sub_e r) = S (length (h_h r)) /\ (exists a c, nth_error (h_sub_e r) 0 = Some a /\ nth_error (h_sub_e r) (length (h_h r)) = Some c /\ (a <= lo)%Q /\ (hi <= c)%Q) /\ 1 <= length (h_h r)).
  { unfold from_raw in E. rewrite B in E. cbn [bind] in E. unfold vd_hist in E. cbn [fst snd] in E. destruct b as [n|e].
    - destruct (from_overlapped_bins _ n 1 lo hi _) as [r0|] eqn:E0; [|discriminate]. cbn [bind] in E. assert (r0 = r) by congruence. subst r0. clear E.
      pose proof (overlapped_spec _ _ _ _ _ _ _ E0) as (Hn & Le & Lhh & _). unfold from_overlapped_bins in E0.
      destruct (np_histogram _ n lo hi _) as [[h0 e]|] eqn:N; [|discriminate]. cbn [bind] in E0. apply np_hist_spec in N. destruct N as (Hn1 & _ & _ & _ & _ & N1 & _). specialize (N1 Lh).
      destruct (edges_to_centers e 1) as [cc|]; [|discriminate]. cbn [bind] in E0. destruct (edges_to_widths e 1) as [dd|]; [|discriminate]. cbn [bind] in E0.
      destruct (combine_adjacent_bins h0 (Z.of_nat 1)); [|discriminate]. cbn [bind] in E0. assert (Ee : h_sub_e r = e) by (inversion E0; reflexivity). rewrite Ee in *. subst e.
      assert (Hp : (0 < inject_Z (Z.of_nat (Z.to_nat n)))%Q) by (apply inject_pos; lia).
      assert (Sub : Z.to_nat n + 1 - 1 = Z.to_nat n) by lia.
      assert (G : forall i v, nth_error (linspace lo hi (Z.to_nat n + 1)) i = Some v -> (v == lo + inject_Z (Z.of_nat i) * ((hi - lo) / inject_Z (Z.of_nat (Z.to_nat n))))%Q).
      { intros i v Hv. unfold linspace in Hv. rewrite nth_error_map_seq in Hv. destruct (Nat.ltb i (Z.to_nat n + 1)); [|discriminate]. rewrite Sub in Hv.
        assert (v = (lo + inject_Z (Z.of_nat i) * ((hi - lo) / inject_Z (Z.of_nat (Z.to_nat n))))%Q) by congruence. subst v. reflexivity. }
      split; [|split; [lia|split; [|lia]]].
      + refine (asc_adjacent _ _). intros i0 a0 c0 Ha Hc. rewrite (G _ _ Ha), (G _ _ Hc). rewrite Nat2Z.inj_succ. unfold Z.succ. rewrite inject_Z_plus. change (inject_Z 1) with 1%Q.
        assert (0 < (hi - lo) / inject_Z (Z.of_nat (Z.to_nat n)))%Q by (apply Qlt_shift_div_l; lra). lra.
      + destruct (nth_error (linspace lo hi (Z.to_nat n + 1)) 0) as [a1|] eqn:Ea; [|apply nth_error_None in Ea; lia].
        destruct (nth_error (linspace lo hi (Z.to_nat n + 1)) (length (h_h r))) as [c|] eqn:Ec; [|apply nth_error_None in Ec; lia].
        exists a1, c. split; [reflexivity|]. split; [reflexivity|]. apply G in Ea. apply G in Ec. split; [rewrite Ea; change (inject_Z (Z.of_nat 0)) with 0%Q; lra|].
        rewrite Ec. replace (length (h_h r)) with (Z.to_nat n) by lia. setoid_replace (lo + inject_Z (Z.of_nat (Z.to_nat n)) * ((hi - lo) / inject_Z (Z.of_nat (Z.to_nat n))))%Q with hi by (field; lra). lra.
    - destruct (from_overlapped_edges _ e 1 _) as [r0|] eqn:E0; [|discriminate]. cbn [bind] in E. assert (r0 = r) by congruence. subst r0. clear E.
      destruct (overlapped_edges_spec _ _ _ _ _ E0) as (Hl & A & Ee & Lhh & _). rewrite Ee. split; [exact A|]. split; [lia|]. split; [|lia].
      unfold binning in B. destruct (match bins with inl _ => rmap Some (parse_p_range_spec quant (Some x) range p_range) | inr _ => Ok range end) as [rg|]; [|discriminate].
      cbn [bind] in B. unfold parse_sub_bin_spec in B. cbn [Nat.leb negb] in B. destruct bins as [n|e0]; [destruct rg; discriminate|].
      destruct (insert_sub_bins e0 1) as [e'|]; [|discriminate]. cbn [bind] in B. destruct rg; [discriminate|]. destruct e' as [|l0 e']; [discriminate|].
      assert (e = l0 :: e') by congruence. assert (lo = l0) by congruence. assert (hi = last (l0 :: e') 0%Q) by congruence. subst e lo hi.
      exists l0, (last (l0 :: e') 0%Q). rewrite !H0. split; [reflexivity|]. split; [|split; apply Qle_refl]. rewrite Lhh, H0. apply last_nth_error. discriminate. }
  destruct Edges as (A & Le & (a & c & Na & Nc & Ha & Hc) & Hpos).
  assert (HH : h_h r = map (fun i => nth i (h_h r) 0%Q) (seq 0 (length (h_h r)))).
  { apply nth_ext with (d := 0%Q) (d' := 0%Q); [rewrite map_length, seq_length; reflexivity|]. intros n Hn.
    rewrite (nth_indep (map _ _) 0%Q (nth 0 (h_h r) 0%Q)) by (rewrite map_length, seq_length; exact Hn). rewrite (map_nth (fun i => nth i (h_h r) 0%Q)), seq_nth by exact Hn. reflexivity. }
  rewrite HH. rewrite (Qsum_ext _ (fun j => weight_where (in_window (h_sub_e r) (0 + j) (S (0 + j))) smp)).
  - rewrite window_sum by (try assumption; lia). cbn [Nat.add]. rewrite (weight_ext _ (fun _ => true)).
    + unfold weight_where. assert (T : forall l : list (Q * Q), filter (fun _ => true) l = l) by (induction l as [|p l IH]; cbn [filter]; [reflexivity|rewrite IH; reflexivity]). rewrite T. reflexivity.
    + intros p Hp. unfold in_window. rewrite Na, Nc. rewrite Forall_forall in F. destruct (F p Hp) as (_ & F1 & F2).
      assert (Q1 : Qle_bool a (fst p) = true) by (apply Qle_bool_iff; lra). assert (Q2 : Qltb (fst p) c = true) by (apply Qltb_lt; lra). rewrite Q1, Q2. reflexivity.
  - intros i Hi. apply in_seq in Hi. destruct (H i ltac:(lia)) as (a' & b' & v & c' & d' & yi & _ & _ & Nv & _ & _ & _ & _ & _ & Q3 & _).
    rewrite (nth_error_nth _ _ 0%Q Nv), Q3. rewrite Nat.add_1_r. reflexivity.
Qed.
Print Assumptions C71_total.

(** With the default range (or no range at all) the largest sample is left out, however often it occurs: the range ends at the
    maximum and is half-open.  A constant sample has no samples left. *)
Theorem C71_max_dropped_refuted : forall quant x w n sub b s lo hi, binning quant x (inl n) sub None None = Ok (b, s, (lo, hi)) ->
  In hi x /\ Forall (fun v => v <= hi)%Q x /\ (forall p, In p (select x w lo hi) -> fst p < hi)%Q /\ (Forall (fun v => v == hi)%Q x -> select x w lo hi = []).
Proof.
  intros quant x w n sub b s lo hi B. unfold binning in B. pose proof (p_range_spec quant (Some x) None None) as P.
  destruct (parse_p_range_spec quant (Some x) None None) as [[l0 h0]|]; [|discriminate]. cbn [rmap bind] in B.
  pose proof (sub_bin_spec (inl n) sub (Some (l0, h0))) as S0. rewrite B in S0. destruct S0 as (_ & _ & _ & S0). assert (l0 = lo) by congruence. assert (h0 = hi) by congruence. subst.
  destruct P as ((i & P1) & (j & P2) & P3). split; [eapply nth_error_In; exact P2|]. split; [apply Forall_forall; intros v Hv; apply (P3 v Hv)|].
  assert (SL : forall p, In p (select x w lo hi) -> (fst p < hi)%Q).
  { intros p Hp. unfold select in Hp. apply filter_In in Hp. destruct Hp as [_ Hp]. apply andb_prop in Hp. destruct Hp as [_ Hp]. apply Qltb_lt in Hp. exact Hp. }
  split; [exact SL|]. intros C. destruct (select x w lo hi) as [|[p q] l] eqn:E; [reflexivity|]. exfalso.
  pose proof (SL (p, q) (or_introl eq_refl)) as Lt. assert (In (p, q) (select x w lo hi)) by (rewrite E; left; reflexivity).
  unfold select in H. apply filter_In in H. destruct H as [H _]. unfold hist_samples in H. apply in_combine_l in H. rewrite Forall_forall in C. specialize (C p H). cbn [fst] in Lt. lra.
Qed.
Print Assumptions C71_max_dropped_refuted.

(** lg_y is the decimal logarithm of the density, of the pad where the density is below it; never below that of the pad. *)
Theorem C71_lg : forall pad y i v, (0 < pad)%R -> nth_error y i = Some v -> exists l, nth_error (lg_y pad y) i = Some l /\
  ((pad <= Q2R v -> Rpower 10 l = Q2R v) /\ (Q2R v <= pad -> Rpower 10 l = pad))%R.
Proof.
  intros pad y i v P N. unfold lg_y. exists (safe_lg pad (Q2R v)). rewrite nth_error_map, N. split; [reflexivity|].
  assert (L10 : (0 < ln 10)%R) by (rewrite <- ln_1; apply ln_increasing; Lra.lra).
  assert (G : forall z, (0 < z)%R -> Rpower 10 (ln z / ln 10) = z).
  { intros z Hz. unfold Rpower. replace (ln z / ln 10 * ln 10)%R with (ln z) by (field; Lra.lra). apply exp_ln. exact Hz. }
  unfold safe_lg, lg. split; intros H.
  - rewrite Rmax_left by exact H. apply G. Lra.lra.
  - rewrite Rmax_right by exact H. apply G. exact P.
Qed.
Print Assumptions C71_lg.

Example C71_example : exists r y, from_raw (fun _ p => p) [0; 1; 1; 2; 3; 4]%Q None 2 (inl 4%Z) 1 None None [0; 1; 2; 3; 4] = Ok (r, y) /\ map Qred y = [1 # 2; 1; 1 # 2; 1 # 2]%Q /\
  select [0; 1; 1; 2; 3; 4]%Q None 0 4 = [(0, 1); (1, 1); (1, 1); (2, 1); (3, 1)]%Q.
Proof. do 2 eexists. split; [reflexivity|]. split; [vm_compute; reflexivity|]. reflexivity. Qed.
Example C71_example_edges : exists r y, from_raw (fun _ p => p) [0; 1; 1; 2; 3; 4]%Q None 1 (inr [0; 2; 8]%Q) 2 None None [0; 1; 2; 3; 4; 5] = Ok (r, y) /\ map Qred y = [3 # 2; 5 # 4; 1 # 2]%Q.
Proof. do 2 eexists. split; [reflexivity|]. vm_compute. reflexivity. Qed.
