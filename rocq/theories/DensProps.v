(** C63: histogram density estimates (stats/density_estimation.py, _Histogram and DensityEstimationND.by_histogram). *)
From Coq Require Import QArith Lqa Lia.
From Verif Require Import Base OrderSpec BinSpec BinModel BinProofs2 BinProofs3 BinProofs4 ReduSpec ReduModel DensSpec DensModel DensProofs.
Local Open Scope list_scope. Local Open Scope nat_scope.

(** Raw counts: every cell holds the weight of the samples inside it (the last bin of each axis is closed). *)
Theorem C63_counts : forall gs x w h c rows idx, Forall (fun g => ascending Qltb g) gs -> arr_ok x = true -> points x = (c, rows) ->
  fit gs false x w = Ok h -> is_cell gs idx ->
  num_eq (h idx) (Fin (weight_where (in_cell gs idx) (weighted rows w))).
Proof.
  intros gs x w h c rows idx A K P F C. pose proof (fit_spec gs false x w) as S0. rewrite P, F in S0. destruct S0 as (-> & _ & ->).
  cbn. apply core_cell; auto. apply weighted_len. now apply (points_len x).
Qed.
Print Assumptions C63_counts.
(** The arrays meant: vectors, and tables with rows of one length. *)
Lemma arr_ok_iff {A} (x : arr A) : arr_ok x = true <-> match x with A1 _ => True | A2 c rows => Forall (fun r => length r = c) rows end.
Proof. destruct x as [l|c rows]; cbn [arr_ok]; [tauto|]. rewrite forallb_forall, Forall_forall. split; intros H r Hr; apply Nat.eqb_eq, H, Hr. Qed.

(** Density: weight in the cell over volume times the weight of the samples within the grid's extent. *)
Theorem C63_density : forall gs x w h c rows idx, good_grid gs -> arr_ok x = true -> points x = (c, rows) ->
  fit gs true x w = Ok h -> is_cell gs idx ->
  let total := weight_where (in_extent gs) (weighted rows w) in
  (~ total == 0 -> num_eq (h idx) (Fin (weight_where (in_cell gs idx) (weighted rows w) / (cell_volume gs idx * total))))%Q /\
  (total == 0 -> weight_where (in_cell gs idx) (weighted rows w) == 0 -> h idx = NaN)%Q.
Proof.
  intros gs x w h c rows idx G K P F C total. pose proof (fit_spec gs true x w) as S0. rewrite P, F in S0. destruct S0 as (-> & _ & ->).
  assert (Fl : Forall (fun p => length (fst p) = length gs) (weighted rows w)) by (apply weighted_len; now apply (points_len x)).
  set (core := fun idx => bincount gs (weighted rows w) (map S idx)).
  assert (T : (Qsum (map core (cells gs)) == total)%Q).
  { rewrite (Qsum_ext core (fun idx => weight_where (in_cell gs idx) (weighted rows w))).
    - apply cells_total; auto using good_asc, good_len.
    - intros i Hi. apply cells_spec in Hi. apply core_cell; auto using good_asc. }
  assert (CC : (core idx == weight_where (in_cell gs idx) (weighted rows w))%Q) by (apply core_cell; auto using good_asc).
  pose proof (volume_pos gs idx G C) as V.
  destruct (over_widths_fin gs idx (core idx) G C) as (r & E & R). cbn zeta. rewrite E. cbn [ndiv]. split.
  - intro NZ. destruct (Qeq_bool (Qsum (map core (cells gs))) 0) eqn:Z; [apply Qeq_bool_iff in Z; rewrite T in Z; contradiction|].
    cbn. rewrite R, T, CC. field. split; [assumption|lra].
  - intros Z0 W0. destruct (Qeq_bool (Qsum (map core (cells gs))) 0) eqn:Z.
    + destruct (Qeq_bool r 0) eqn:Z2; [reflexivity|]. exfalso. assert (Qeq_bool r 0 = true); [|congruence]. apply Qeq_bool_iff. rewrite R, CC, W0. field. lra.
    + exfalso. assert (Qeq_bool (Qsum (map core (cells gs))) 0 = true); [|congruence]. apply Qeq_bool_iff. now rewrite T.
Qed.
Print Assumptions C63_density.

(** The density integrates to one over the grid. *)
Theorem C63_integral : forall gs x w h c rows, good_grid gs -> arr_ok x = true -> points x = (c, rows) -> fit gs true x w = Ok h ->
  ~ (weight_where (in_extent gs) (weighted rows w) == 0)%Q ->
  exists d : list nat -> Q, (forall idx, is_cell gs idx -> num_eq (h idx) (Fin (d idx))) /\
    (Qsum (map (fun idx => d idx * cell_volume gs idx) (cells gs)) == 1)%Q.
Proof.
  intros gs x w h c rows G K P F NZ. set (total := weight_where (in_extent gs) (weighted rows w)) in *.
  exists (fun idx => weight_where (in_cell gs idx) (weighted rows w) / (cell_volume gs idx * total))%Q. split.
  - intros idx C. now apply (C63_density gs x w h c rows idx G K P F C).
  - rewrite (Qsum_ext _ (fun idx => / total * weight_where (in_cell gs idx) (weighted rows w))%Q).
    + assert (M : forall l, (Qsum (map (fun idx => / total * weight_where (in_cell gs idx) (weighted rows w)) l) == / total * Qsum (map (fun idx => weight_where (in_cell gs idx) (weighted rows w)) l))%Q)
        by (induction l as [|a l IH]; cbn [map Qsum]; [lra|rewrite IH; lra]).
      rewrite M, cells_total by (auto using good_asc, good_len; apply weighted_len; pose proof (fit_spec gs true x w) as S0; rewrite P, F in S0; destruct S0 as (-> & _); now apply (points_len x)).
      fold total. field. assumption.
    + intros idx Hi. apply cells_spec in Hi. pose proof (volume_pos gs idx G Hi). field. split; [assumption|lra].
Qed.
Print Assumptions C63_integral.

(** A query inside a (half-open) cell gets that cell's value; the cell is unique. *)
Theorem C63_inside : forall gs h fill idx x, Forall (fun g => ascending Qltb g) gs -> is_cell gs idx -> in_cell_open gs idx x = true ->
  eval1 gs h fill x = Ok (h idx).
Proof. intros. now apply eval_in. Qed.
Print Assumptions C63_inside.
(** A query inside no half-open cell - outside the extent, NaN, or on the last location of an axis - gets the fill value. *)
Theorem C63_outside : forall gs h fill x, Forall (fun g => 2 <= length g /\ ascending Qltb g) gs -> length x = length gs ->
  (forall idx, is_cell gs idx -> in_cell_open gs idx x = false) -> eval1 gs h fill x = Ok fill.
Proof. intros gs h fill x F L N. apply eval_out; auto; unfold asc_grid; rewrite Forall_forall in *; intros g Hg; now apply F. Qed.
Print Assumptions C63_outside.
(** So a sample on the last location counts in the last cell, but a query there does not get that cell's value. *)
Theorem C63_last_edge_refuted : exists gs x fill h, fit gs true x None = Ok h /\
  in_cell gs [1] [Fin 2] = true /\ num_eq (h [1]) (Fin 1) /\ eval gs h fill x = Ok [fill] /\ ~ num_eq fill (h [1]).
Proof.
  exists [[0; 1; 2]%Q], (A1 [Fin 2]), (Fin 0). eexists. split; [reflexivity|]. repeat split; try reflexivity. cbn. discriminate.
Qed.
Print Assumptions C63_last_edge_refuted.

(** When fitting fails: wrong number of columns, or a weight array of another length; nothing else. *)
Theorem C63_fit_errors : forall gs density x w c rows, points x = (c, rows) ->
  match fit gs density x w with
  | Ok _ => c = length gs /\ match w with Some w => length w = length rows | None => True end
  | Err e => (c <> length gs /\ e = AssertionError) \/ (c = length gs /\ e = ValueError /\ exists w', w = Some w' /\ length w' <> length rows)
  end.
Proof.
  intros gs density x w c rows P. pose proof (fit_spec gs density x w) as S0. rewrite P in S0. destruct (fit gs density x w); [|assumption].
  destruct S0 as (-> & L & _). split; [reflexivity|]. now destruct w.
Qed.
Print Assumptions C63_fit_errors.
(** An axis with a single location makes every query fail. *)
Theorem C63_single_location : forall gs h fill x, length x = length gs -> Exists (fun g => length g = 1) gs -> eval1 gs h fill x = Err IndexError.
Proof. intros. now apply eval_single. Qed.
Print Assumptions C63_single_location.
(** Extra coordinates of a query are ignored without an error. *)
Theorem C63_extra_coordinates : forall gs h fill x extra, length x = length gs -> eval1 gs h fill (x ++ extra) = eval1 gs h fill x.
Proof. intros. now apply eval_extra. Qed.
Print Assumptions C63_extra_coordinates.
(** by_histogram as a whole: one value per query, each as above; the grid's locations have to be non-decreasing. *)
Theorem C63_by_histogram : forall locs density x w x_pred fill c qs, points x_pred = (c, qs) ->
  match by_histogram locs density x w x_pred fill with
  | Ok out => exists h, gridmd locs = Ok locs /\ fit locs density x w = Ok h /\ Forall2 (fun q v => eval1 locs h fill q = Ok v) qs out
  | Err e => gridmd locs = Err e \/ (gridmd locs = Ok locs /\ fit locs density x w = Err e) \/
             (gridmd locs = Ok locs /\ exists h q, fit locs density x w = Ok h /\ In q qs /\ eval1 locs h fill q = Err e)
  end.
Proof.
  intros locs density x w x_pred fill c qs P. unfold by_histogram. destruct (gridmd locs) as [gs|e] eqn:G; cbn; [|now left].
  assert (gs = locs) by (apply gridmd_Ok in G; tauto). subst gs. destruct (fit locs density x w) as [h|e] eqn:F; cbn; [|right; left; now split].
  unfold eval. rewrite P. cbn [snd]. destruct (mapM (eval1 locs h fill) qs) as [out|e] eqn:M.
  - exists h. split; [reflexivity|]. split; [reflexivity|]. now apply mapM_Ok.
  - right. right. split; [reflexivity|]. apply mapM_Err in M as (pre & q & suf & -> & _ & E). exists h, q. split; [reflexivity|]. split; [|assumption].
    rewrite in_app_iff. right. now left.
Qed.
Print Assumptions C63_by_histogram.

(** A 2 x 1 grid, three weighted samples (one outside): densities 1/4 and 3/8 over cells of area 1 and 2. *)
Definition gs0 : list (list Q) := [[0; 1; 3]; [0; 1]]%Q.
Definition xs0 : arr num := A2 2 [[Fin (1 # 2); Fin (1 # 2)]; [Fin 2; Fin 1]; [Fin 5; Fin 0]; [Fin 1; Fin 0]]%Q.
Example ex_density : match by_histogram gs0 true xs0 (Some [1; 2; 7; 1]%Q) (A2 2 [[Fin 0; Fin 0]; [Fin 2; Fin (1 # 3)]; [Fin 3; Fin 0]; [NaN; Fin 0]]%Q) (Fin 9%Q) with
  | Ok [a; b; c; d] => num_eq a (Fin (1 # 4)) /\ num_eq b (Fin (3 # 8)) /\ c = Fin 9%Q /\ d = Fin 9%Q
  | _ => False end.
Proof. vm_compute. repeat split; reflexivity. Qed.
Example ex_good : good_grid gs0 /\ is_cell gs0 [1; 0] /\ ~ (weight_where (in_extent gs0) (weighted (snd (points xs0)) None) == 0)%Q.
Proof.
  split; [|split; [repeat constructor|]].
  - constructor; [|constructor; [|constructor]]; (split; [cbn; lia|]); intros i j a b L Ha Hb;
      repeat (destruct i as [|i]; cbn in Ha; try discriminate Ha); repeat (destruct j as [|j]; cbn in Hb; try discriminate Hb; try lia);
      inversion Ha; inversion Hb; reflexivity.
  - vm_compute. discriminate.
Qed.
