(** C48-C50: reductions (stats.reduction). *)
From Coq Require Import QArith Qround Qabs Permutation Reals Qreals Lqa.
From Verif Require Import Base OrderSpec BinSpec BinModel BinProofs InterpModel InterpProofs ReduSpec ReduModel ReduProofs ReduProofs2 ReduProofs3.
Local Open Scope list_scope. Local Open Scope nat_scope.

(** ** C48: masks and rows *)

(** A quantile, a median or an error bar with a mask is exactly that of the selected samples (and selected weights). *)
Theorem C48_masked_quantile ps sort fill x w m : fits x w (Some m) ->
  quantile ps sort fill (A1 x) (option_map A1 w) (Some (A1 m)) =
  quantile ps sort fill (A1 (selected x m)) (option_map A1 (option_map (fun w => selected w m) w)) None.
Proof.
  intros [Hw Hm]. unfold quantile. change (Some (A1 m)) with (option_map A1 (Some m)). rewrite by_rows_1d by (split; assumption).
  change (@None (arr bool)) with (option_map (@A1 bool) None). rewrite by_rows_1d.
  - unfold quantile_1d, impl_1d. cbn [sel]. destruct w; reflexivity.
  - split; [|exact I]. destruct w as [w|]; cbn [option_map]; [|exact I]. rewrite !selected_length; congruence.
Qed.
Print Assumptions C48_masked_quantile.
Theorem C48_masked_median sort fill x w m : fits x w (Some m) ->
  median sort fill (A1 x) (option_map A1 w) (Some (A1 m)) =
  median sort fill (A1 (selected x m)) (option_map A1 (option_map (fun w => selected w m) w)) None.
Proof.
  intros [Hw Hm]. unfold median. change (Some (A1 m)) with (option_map A1 (Some m)). rewrite by_rows_1d by (split; assumption).
  change (@None (arr bool)) with (option_map (@A1 bool) None). rewrite by_rows_1d.
  - unfold median_1d, impl_1d. cbn [sel]. destruct w; reflexivity.
  - split; [|exact I]. destruct w as [w|]; cbn [option_map]; [|exact I]. rewrite !selected_length; congruence.
Qed.
Print Assumptions C48_masked_median.
Theorem C48_masked_errorbar spec fill x w m : fits x w (Some m) ->
  errorbar spec fill (A1 x) (option_map A1 w) (Some (A1 m)) =
  errorbar spec fill (A1 (selected x m)) (option_map A1 (option_map (fun w => selected w m) w)) None.
Proof. intros H. unfold errorbar. destruct (od_get String.eqb ps_map spec); [|reflexivity]. rewrite C48_masked_quantile by assumption. reflexivity. Qed.
Print Assumptions C48_masked_errorbar.

(** The count of a masked array is the number of selected samples, whatever the samples are. *)
Theorem C48_masked_count {A} (x : list A) w m : fits x w (Some m) ->
  count (A1 x) (option_map A1 w) (Some (A1 m)) = Ok (S0 (Z.of_nat (length (selected x m)))) /\
  count (A1 x) (option_map A1 w) None = Ok (S0 (Z.of_nat (length x))).
Proof.
  intros [Hw Hm]. split; unfold count.
  - change (Some (A1 m)) with (option_map A1 (Some m)). rewrite checked_1d by (split; assumption). cbn. unfold count_true.
    rewrite selected_length by assumption. reflexivity.
  - change (@None (arr bool)) with (option_map (@A1 bool) None). rewrite checked_1d by (split; [assumption|exact I]). reflexivity.
Qed.
Print Assumptions C48_masked_count.

(** Sum, mean and standard deviation of finite samples, in closed form over the selected samples: sum of w*x, weighted mean,
    square root of the weighted mean square deviation.  (Without weights every weight is 1.) *)
Theorem C48_sum_value x w m : fits x w m ->
  exists q, sum (fin1 x) (finw1 w) (m1 m) = Ok (S0 (Fin q)) /\ (q == dotp (sel m x) (sel m (weights_of x w)))%Q.
Proof.
  intros H. destruct (sum_1d x w m H) as (q & E & Q). exists q. split; [|assumption]. unfold sum. rewrite checked_fits by assumption. rewrite E. reflexivity.
Qed.
Print Assumptions C48_sum_value.
Theorem C48_mean_value fill x w m : fits x w m -> sel m x <> [] -> ~ (Qsum (sel m (weights_of x w)) == 0)%Q ->
  exists mu, mean fill (fin1 x) (finw1 w) (m1 m) = Ok (S0 (Fin mu)) /\
    (mu * Qsum (sel m (weights_of x w)) == dotp (sel m x) (sel m (weights_of x w)))%Q.
Proof.
  intros Hf Hx Hs. destruct (mean_1d_fin fill x w m Hf Hx Hs) as (mu & E & Q). exists mu. split; [assumption|]. rewrite Q. field. assumption.
Qed.
Print Assumptions C48_mean_value.
Lemma dotp_nonneg : forall x w, (forall a, In a x -> (0 <= a)%Q) -> (forall a, In a w -> (0 <= a)%Q) -> (0 <= dotp x w)%Q.
Proof.
  induction x as [|a x IH]; intros [|b w] Hx Hw; cbn [dotp]; try lra. pose proof (Hx a (or_introl eq_refl)). pose proof (Hw b (or_introl eq_refl)).
  assert ((0 <= dotp x w)%Q) by (apply IH; intros; [apply Hx|apply Hw]; right; assumption). nra.
Qed.
Lemma weights_nonneg x w m : fits x w m -> good_weights m w -> sel m x <> [] ->
  (forall a, In a (sel m (weights_of x w)) -> (0 <= a)%Q) /\ (0 < Qsum (sel m (weights_of x w)))%Q.
Proof.
  intros Hf Hw Hx. destruct w as [w|]; [exact Hw|]. rewrite (weights_of_sel x None m Hf). cbn [option_map weights_of]. split.
  - intros a Ha. apply repeat_spec in Ha. subst. lra.
  - rewrite Qsum_ones. apply inject_pos. destruct (sel m x); [congruence|cbn; lia].
Qed.
Theorem C48_std_value fill x w m : fits x w m -> sel m x <> [] -> good_weights m w ->
  exists mu v, mean fill (fin1 x) (finw1 w) (m1 m) = Ok (S0 (Fin mu)) /\
    std_dev fill (fin1 x) (finw1 w) (m1 m) = Ok (S0 (RFin (sqrt (Q2R v)))) /\ (0 <= v)%Q /\
    (v * Qsum (sel m (weights_of x w)) == dotp (map (fun a => (a - mu) * (a - mu)) (sel m x)) (sel m (weights_of x w)))%Q.
Proof.
  intros Hf Hx Hw. destruct (weights_nonneg x w m Hf Hw Hx) as [Wn Ws].
  assert (Hs : ~ (Qsum (sel m (weights_of x w)) == 0)%Q) by lra.
  destruct (radicand_1d fill x w m Hf Hx Hs) as (mu & v & Em & Er & _ & Qv). exists mu, v. split; [assumption|].
  assert (V : (0 <= v)%Q).
  { rewrite Qv. apply Qle_shift_div_l; [assumption|]. rewrite Qmult_0_l. apply dotp_nonneg; [|assumption].
    intros a Ha. apply in_map_iff in Ha. destruct Ha as (b & <- & _). set (d := (b - mu)%Q). destruct (Qlt_le_dec 0 d); nra. }
  split; [|split; [assumption|]].
  - unfold std_dev. rewrite checked_fits by assumption. rewrite Er. cbn [rmap bind omap nsqrt].
    destruct (Qltb v 0) eqn:E; [apply Qltb_lt in E; lra|reflexivity].
  - rewrite Qv. field. assumption.
Qed.
Print Assumptions C48_std_value.

(** Hence masking equals selecting, for finite samples. *)
Lemma fits_sel (x : list Q) w m : fits x w (Some m) -> fits (selected x m) (option_map (fun w : list Q => selected w m) w) None.
Proof. intros [Hw Hm]. split; [|exact I]. destruct w as [w|]; cbn [option_map]; [|exact I]. rewrite !selected_length; congruence. Qed.
Lemma weights_sel (x : list Q) w m : fits x w (Some m) -> selected (weights_of x w) m = weights_of (selected x m) (option_map (fun w : list Q => selected w m) w).
Proof. intros H. exact (weights_of_sel x w (Some m) H). Qed.
Theorem C48_masked_sum x w m : fits x w (Some m) ->
  exists q q', sum (fin1 x) (finw1 w) (m1 (Some m)) = Ok (S0 (Fin q)) /\
    sum (fin1 (selected x m)) (finw1 (option_map (fun w => selected w m) w)) (m1 None) = Ok (S0 (Fin q')) /\ (q == q')%Q.
Proof.
  intros H. destruct (C48_sum_value x w (Some m) H) as (q & E & Q). destruct (C48_sum_value _ _ _ (fits_sel x w m H)) as (q' & E' & Q').
  exists q, q'. split; [assumption|]. split; [assumption|]. rewrite Q, Q'. cbn [sel]. rewrite weights_sel by assumption. reflexivity.
Qed.
Print Assumptions C48_masked_sum.
Theorem C48_masked_mean fill x w m : fits x w (Some m) ->
  exists u v, mean fill (fin1 x) (finw1 w) (m1 (Some m)) = Ok (S0 u) /\
    mean fill (fin1 (selected x m)) (finw1 (option_map (fun w => selected w m) w)) (m1 None) = Ok (S0 v) /\ num_eq u v.
Proof.
  intros H. destruct (mean_1d fill x w (Some m) H) as [A B]. destruct (mean_1d fill _ _ _ (fits_sel x w m H)) as [A' B'].
  assert (D : selected x m = [] \/ selected x m <> []) by (destruct (selected x m); [left; reflexivity|right; discriminate]). destruct D as [E|E].
  - exists fill, fill. split; [apply A; assumption|]. split; [apply A'; assumption|apply num_eq_refl].
  - destruct (B E) as (q1 & q2 & E1 & Q1 & Q2). destruct (B' E) as (r1 & r2 & E2 & R1 & R2). eexists. eexists. split; [exact E1|]. split; [exact E2|].
    cbn [sel] in *. rewrite weights_sel in Q1, Q2 by assumption. apply ndiv_fin_compat; [rewrite Q1, R1|rewrite Q2, R2]; reflexivity.
Qed.
Print Assumptions C48_masked_mean.
Lemma dev_compat mu mu' : (mu == mu')%Q -> forall x w, (dotp (map (fun a => (a - mu) * (a - mu)) x) w == dotp (map (fun a => (a - mu') * (a - mu')) x) w)%Q.
Proof. intros E. induction x as [|a x IH]; intros [|b w]; cbn [map dotp]; try reflexivity. rewrite IH, E. reflexivity. Qed.
Theorem C48_masked_std fill x w m : fits x w (Some m) -> (selected x m <> [] -> good_weights (Some m) w) ->
  std_dev fill (fin1 x) (finw1 w) (m1 (Some m)) =
  std_dev fill (fin1 (selected x m)) (finw1 (option_map (fun w => selected w m) w)) (m1 None).
Proof.
  intros H Hg. pose proof (fits_sel x w m H) as H'.
  assert (D : selected x m = [] \/ selected x m <> []) by (destruct (selected x m); [left; reflexivity|right; discriminate]). destruct D as [E|E].
  - unfold std_dev. rewrite !checked_fits by assumption. rewrite !radicand_empty by assumption. reflexivity.
  - assert (Hg' : good_weights None (option_map (fun w => selected w m) w)).
    { specialize (Hg E). destruct w; cbn [option_map good_weights sel] in *; assumption. }
    destruct (C48_std_value fill x w (Some m) H E (Hg E)) as (mu & v & Em & Ev & Pv & Qv).
    destruct (C48_std_value fill (selected x m) (option_map (fun w => selected w m) w) None H' E Hg') as (mu' & v' & Em' & Ev' & Pv' & Qv').
    rewrite Ev, Ev'. do 4 f_equal. apply Qeq_eqR.
    destruct (C48_masked_mean fill x w m H) as (a & b & Ea & Eb & Ne). rewrite Em in Ea. rewrite Em' in Eb. injection Ea as <-. injection Eb as <-. cbn [num_eq] in Ne.
    destruct (weights_nonneg x w (Some m) H (Hg E) E) as [_ Ws].
    cbn [sel] in *. rewrite weights_sel in Qv, Ws by assumption. rewrite (dev_compat mu mu' Ne) in Qv. rewrite <- Qv' in Qv.
    apply Qmult_inj_r in Qv; [assumption|lra].
Qed.
Print Assumptions C48_masked_std.
(** The samples excluded by the mask must be finite: a masked-out NaN makes the sum NaN. *)
Theorem C48_masked_nan_refuted : exists x m,
  sum (A1 x) None (Some (A1 m)) = Ok (S0 NaN) /\ sum (A1 (selected x m)) None None = Ok (S0 (Fin 1)).
Proof. exists [NaN; Fin 1], [false; true]. split; reflexivity. Qed.
Print Assumptions C48_masked_nan_refuted.

(** Two-dimensional input is reduced row by row (any numbers, including NaN and infinities). *)
Theorem C48_rows_sum c rows w m : rect c rows -> fits2 c rows w -> fits2 c rows m ->
  exists outs, sum (A2 c rows) (option_map (A2 c) w) (option_map (A2 c) m) = Ok (V1 outs) /\ length outs = length rows /\
    forall i r, nth_error rows i = Some r -> exists v, nth_error outs i = Some v /\
      sum (A1 r) (option_map A1 (row_at i w)) (option_map A1 (row_at i m)) = Ok (S0 v).
Proof.
  intros R Hw Hm. destruct (sum_2d c rows w m Hw Hm) as (outs & E & L & H). exists outs. split.
  { unfold sum. rewrite checked_2d by assumption. rewrite E. reflexivity. }
  split; [assumption|]. intros i r Hr. destruct (H i r Hr) as (v & Hv & Ev). exists v. split; [assumption|]. unfold sum.
  rewrite checked_1d by (eapply fits_row; eassumption). rewrite Ev. reflexivity.
Qed.
Print Assumptions C48_rows_sum.
Theorem C48_rows_mean fill c rows w m : rect c rows -> fits2 c rows w -> fits2 c rows m ->
  exists outs, mean fill (A2 c rows) (option_map (A2 c) w) (option_map (A2 c) m) = Ok (V1 outs) /\ length outs = length rows /\
    forall i r, nth_error rows i = Some r -> exists v, nth_error outs i = Some v /\
      mean fill (A1 r) (option_map A1 (row_at i w)) (option_map A1 (row_at i m)) = Ok (S0 v).
Proof. apply mean_2d. Qed.
Print Assumptions C48_rows_mean.
Theorem C48_rows_std fill c rows w m : rect c rows -> fits2 c rows w -> fits2 c rows m ->
  exists outs, std_dev fill (A2 c rows) (option_map (A2 c) w) (option_map (A2 c) m) = Ok (V1 outs) /\ length outs = length rows /\
    forall i r, nth_error rows i = Some r -> exists v, nth_error outs i = Some v /\
      std_dev fill (A1 r) (option_map A1 (row_at i w)) (option_map A1 (row_at i m)) = Ok (S0 v).
Proof.
  intros R Hw Hm. destruct (radicand_2d fill c rows w m R Hw Hm) as (outs & E & L & H). exists (map nsqrt outs). split.
  { unfold std_dev. rewrite checked_2d by assumption. rewrite E. reflexivity. }
  split; [rewrite map_length; assumption|]. intros i r Hr. destruct (H i r Hr) as (v & Hv & Ev). exists (nsqrt v). split; [apply map_nth_error; assumption|].
  unfold std_dev. rewrite checked_1d by (eapply fits_row; eassumption). rewrite Ev. reflexivity.
Qed.
Print Assumptions C48_rows_std.
(** Quantiles and medians of a table succeed exactly when they do on every row, and are those of the rows. *)
Theorem C48_rows_quantile ps sort fill c rows w m bs : rect c rows -> fits2 c rows w -> fits2 c rows m ->
  (quantile ps sort fill (A2 c rows) (option_map (A2 c) w) (option_map (A2 c) m) = Ok (V1 bs) <->
   (length bs = length rows /\ forall i r, nth_error rows i = Some r -> exists b, nth_error bs i = Some b /\
      quantile ps sort fill (A1 r) (option_map A1 (row_at i w)) (option_map A1 (row_at i m)) = Ok (S0 b))).
Proof. apply by_rows_2d. Qed.
Print Assumptions C48_rows_quantile.
Theorem C48_rows_median sort fill c rows w m bs : rect c rows -> fits2 c rows w -> fits2 c rows m ->
  (median sort fill (A2 c rows) (option_map (A2 c) w) (option_map (A2 c) m) = Ok (V1 bs) <->
   (length bs = length rows /\ forall i r, nth_error rows i = Some r -> exists b, nth_error bs i = Some b /\
      median sort fill (A1 r) (option_map A1 (row_at i w)) (option_map A1 (row_at i m)) = Ok (S0 b))).
Proof. apply by_rows_2d. Qed.
Print Assumptions C48_rows_median.
(** Counting a table is row by row only if there is a mask; without one it returns a single number. *)
Theorem C48_rows_count {A} c (rows : list (list A)) m : rect c rows -> fits2 c rows (Some m) ->
  exists outs, count (A2 c rows) None (Some (A2 c m)) = Ok (V1 outs) /\ length outs = length rows /\
    forall i r, nth_error rows i = Some r -> exists v, nth_error outs i = Some v /\ count (A1 r) None (Some (A1 (nth i m []))) = Ok (S0 v).
Proof.
  intros R Hm. pose proof (count_2d c rows (Some m) R Hm) as H. cbn [option_map] in H. unfold count.
  pose proof (fun C => @checked_2d A num C c rows None (Some m)) as K. cbn [option_map] in K. rewrite K by (exact I || assumption).
  cbn [count_impl count_is] in *. destruct H as [L H]. eexists. split; [reflexivity|]. split; [assumption|].
  intros i r Hr. destruct (H i r Hr) as (v & Hv & Ev). exists v. split; [assumption|].
  pose proof (fun C => @checked_1d A num C r None (Some (nth i m []))) as K1. cbn [option_map] in K1. rewrite K1.
  - cbn [row_at option_map] in Ev. unfold count_impl. injection Ev as <-. reflexivity.
  - apply (fits_row (B := num) c rows None (Some m) i r R I Hm Hr).
Qed.
Print Assumptions C48_rows_count.
Theorem C48_rows_count_refuted : forall {A} c (rows : list (list A)),
  count (A2 c rows) None None = Ok (S0 (Z.of_nat c)) /\ forall outs, count (A2 c rows) None None <> Ok (V1 outs).
Proof. intros. split; [reflexivity|discriminate]. Qed.
Print Assumptions C48_rows_count_refuted.
(** Weights or a mask of another shape are refused. *)
Theorem C48_shape (x : list Q) (w : list Q) (m : list bool) ps sort fill : length w <> length x \/ length m <> length x ->
  sum (fin1 x) (Some (fin1 w)) (m1 (Some m)) = Err AssertionError /\ mean (Fin fill) (fin1 x) (Some (fin1 w)) (m1 (Some m)) = Err AssertionError /\
  std_dev (Fin fill) (fin1 x) (Some (fin1 w)) (m1 (Some m)) = Err AssertionError /\ count (fin1 x) (Some (fin1 w)) (m1 (Some m)) = Err AssertionError /\
  quantile ps sort fill (A1 x) (Some (A1 w)) (Some (A1 m)) = Err AssertionError /\ median sort fill (A1 x) (Some (A1 w)) (Some (A1 m)) = Err AssertionError.
Proof.
  intros H.
  assert (B : (length w =? length x) && (length m =? length x) = false).
  { destruct H as [H|H]; apply Nat.eqb_neq in H; rewrite H; [reflexivity|apply andb_false_r]. }
  unfold sum, mean, std_dev, count, quantile, median, by_rows, checked, fin1, m1. cbn [option_map same_shape]. rewrite !map_length, B. auto 6.
Qed.
Print Assumptions C48_shape.

(** The shape of an array, as numpy reports it. *)
Definition shape_of {A} (a : arr A) : list nat := match a with A1 l => [length l] | A2 c rows => [length rows; c] end.
Lemma same_shape_iff {A B} (a : arr A) (b : arr B) : same_shape a b = true <-> shape_of a = shape_of b.
Proof.
  destruct a as [l|c r], b as [l'|c' r']; cbn [same_shape shape_of]; split; try discriminate.
  - intros H. apply Nat.eqb_eq in H. congruence. - intros [= H]. apply Nat.eqb_eq, H.
  - intros H. apply andb_prop in H. destruct H as [H1 H2]. apply Nat.eqb_eq in H1, H2. congruence.
  - intros [= H1 H2]. rewrite H1, H2, !Nat.eqb_refl. reflexivity.
Qed.
Lemma checked_bad {A B C} (x : arr A) (w : option (arr B)) (m : option (arr bool)) (k : result C) :
  (exists a, w = Some a /\ shape_of a <> shape_of x) \/ (exists a, m = Some a /\ shape_of a <> shape_of x) -> checked x w m k = Err AssertionError.
Proof.
  intros H. unfold checked. match goal with |- (if ?b then _ else _) = _ => replace b with false; [reflexivity|] end. symmetry.
  destruct H as [(a & -> & N)|(a & -> & N)]; rewrite <- same_shape_iff in N; apply Bool.not_true_is_false in N; rewrite N; [reflexivity|apply andb_false_r].
Qed.
(** Weights or a mask of another shape -- another number of dimensions, of rows or of columns -- are refused by every reduction. *)
Theorem C48_shape_refused : forall (x : arr num) (xq : arr Q) w wq m mq,
  ((exists a, w = Some a /\ shape_of a <> shape_of x) \/ (exists a, m = Some a /\ shape_of a <> shape_of x) ->
     sum x w m = Err AssertionError /\ count x w m = Err AssertionError /\ (forall fill, mean fill x w m = Err AssertionError /\ std_dev fill x w m = Err AssertionError)) /\
  ((exists a, wq = Some a /\ shape_of a <> shape_of xq) \/ (exists a, mq = Some a /\ shape_of a <> shape_of xq) ->
     forall sort fill, median sort fill xq wq mq = Err AssertionError /\ (forall ps, quantile ps sort fill xq wq mq = Err AssertionError)).
Proof.
  intros x xq w wq m mq. split; intros H.
  - unfold sum, count, mean, std_dev. rewrite !(checked_bad x w m) by exact H. split; [reflexivity|]. split; [reflexivity|]. intros fill. rewrite !(checked_bad x w m) by exact H. auto.
  - intros sort fill. unfold median, quantile, by_rows. split; [|intros ps]; apply checked_bad, H.
Qed.
Print Assumptions C48_shape_refused.

Lemma inf_sign_is pos q : inf_sign pos q = match (q ?= 0)%Q with Eq => NaN | Gt => if pos then PInf else NInf | Lt => if pos then NInf else PInf end.
Proof.
  unfold inf_sign. destruct (q ?= 0)%Q eqn:E.
  - apply Qeq_alt, Qeq_bool_iff in E. rewrite E. reflexivity.
  - apply Qlt_alt in E. destruct (Qeq_bool q 0) eqn:Z; [apply Qeq_bool_iff in Z; lra|]. replace (Qltb 0 q) with false; [destruct pos; reflexivity|]. symmetry. apply Qltb_ge. lra.
  - apply Qgt_alt in E. destruct (Qeq_bool q 0) eqn:Z; [apply Qeq_bool_iff in Z; lra|]. replace (Qltb 0 q) with true; [destruct pos; reflexivity|]. symmetry. apply Qltb_lt. lra.
Qed.
Lemma nmul_cases a b : (nmul a b = NaN <-> undefined_product a b) /\ (nmul a b = PInf <-> infinite_product true a b) /\ (nmul a b = NInf <-> infinite_product false a b).
Proof.
  unfold infinite_product, undefined_product, infinite. destruct a as [p| | |], b as [q| | |]; cbn [nmul sign_of]; rewrite ?inf_sign_is; try destruct (p ?= 0)%Q; try destruct (q ?= 0)%Q;
    (split; [|split]; split; intros H; try discriminate; try reflexivity; try tauto; intuition discriminate || intuition congruence || idtac).
Qed.
Lemma nsum_cases l : (nsum l = NaN <-> In NaN l \/ (In PInf l /\ In NInf l)) /\ (nsum l = PInf <-> In PInf l /\ ~ In NaN l /\ ~ In NInf l) /\ (nsum l = NInf <-> In NInf l /\ ~ In NaN l /\ ~ In PInf l).
Proof.
  induction l as [|a l IH]; [cbn; intuition discriminate|]. change (nsum (a :: l)) with (nadd a (nsum l)). cbn [In].
  destruct IH as (I1 & I2 & I3).
  assert (F : forall q, nsum l = Fin q -> ~ In NaN l /\ ~ In PInf l /\ ~ In NInf l).
  { intros q E. rewrite E in *. assert (NN : ~ In NaN l) by (intros H; assert (Fin q = NaN) by (apply I1; auto); discriminate).
    assert (D : forall x : num, In x l \/ ~ In x l). { intros x. destruct (in_dec (fun x y : num => ltac:(repeat decide equality)) x l); auto. }
    split; [exact NN|]. destruct (D PInf) as [P|P], (D NInf) as [N|N]; try (split; assumption); exfalso.
    - assert (Fin q = NaN) by (apply I1; auto); discriminate.
    - assert (Fin q = PInf) by (apply I2; auto); discriminate.
    - assert (Fin q = NInf) by (apply I3; auto); discriminate. }
  destruct (nsum l) as [q| | |] eqn:E.
  - destruct (F q eq_refl) as (N1 & N2 & N3). clear F I1 I2 I3. destruct a; cbn [nadd]; intuition (try discriminate; try congruence).
  - clear F. assert (X : In PInf l /\ ~ In NaN l /\ ~ In NInf l) by (apply I2; reflexivity). clear I1 I2 I3 E. destruct X as (N1 & N2 & N3). destruct a; cbn [nadd]; intuition (try discriminate; try congruence).
  - clear F. assert (X : In NInf l /\ ~ In NaN l /\ ~ In PInf l) by (apply I3; reflexivity). clear I1 I2 I3 E. destruct X as (N1 & N2 & N3). destruct a; cbn [nadd]; intuition (try discriminate; try congruence).
  - clear F. assert (X : In NaN l \/ (In PInf l /\ In NInf l)) by (apply I1; reflexivity). clear I1 I2 I3 E. destruct a; cbn [nadd]; intuition (try discriminate; try congruence).
Qed.
(** Weighted sums of arbitrary floats: NaN exactly if some product is undefined (a NaN, or zero times infinity -- so also for a
    masked-out or zero-weighted infinity) or there are infinite products of both signs; otherwise infinite exactly if a product is. *)
Theorem C48_sum_special : forall x w, length w = length x -> exists v, sum (A1 x) (Some (A1 w)) None = Ok (S0 v) /\
  let undef := exists a b, In (a, b) (combine x w) /\ undefined_product a b in
  let inf s := exists a b, In (a, b) (combine x w) /\ infinite_product s a b in
  (v = NaN <-> undef \/ (inf true /\ inf false)) /\ (v = PInf <-> inf true /\ ~ undef /\ ~ inf false) /\ (v = NInf <-> inf false /\ ~ undef /\ ~ inf true).
Proof.
  intros x w L. exists (nsum (zip_with nmul x w)). split.
  - unfold sum, checked. cbn [same_shape]. rewrite L, Nat.eqb_refl. reflexivity.
  - assert (K : forall r, In r (zip_with nmul x w) <-> exists a b, In (a, b) (combine x w) /\ nmul a b = r).
    { intros r. unfold zip_with. rewrite in_map_iff. split; [intros ([a b] & E & I); exists a, b; auto|intros (a & b & I & E); exists (a, b); auto]. }
    destruct (nsum_cases (zip_with nmul x w)) as (A & B & C). cbv zeta. rewrite A, B, C. 
    assert (KN : In NaN (zip_with nmul x w) <-> exists a b, In (a, b) (combine x w) /\ undefined_product a b) by (rewrite K; split; intros (a & b & I & E); exists a, b; split; try exact I; apply (nmul_cases a b), E).
    assert (KP : In PInf (zip_with nmul x w) <-> exists a b, In (a, b) (combine x w) /\ infinite_product true a b) by (rewrite K; split; intros (a & b & I & E); exists a, b; split; try exact I; apply (nmul_cases a b), E).
    assert (KM : In NInf (zip_with nmul x w) <-> exists a b, In (a, b) (combine x w) /\ infinite_product false a b) by (rewrite K; split; intros (a & b & I & E); exists a, b; split; try exact I; apply (nmul_cases a b), E).
    rewrite KN, KP, KM. split; [reflexivity|]. split; reflexivity.
Qed.
Print Assumptions C48_sum_special.
(** Without weights every weight is one (so the above holds of plain sums); a mask acts as weights 0 and 1. *)
Theorem C48_sum_mask_as_weights : forall x m, length m = length x -> sum (A1 x) None (Some (A1 m)) = sum (A1 x) (Some (A1 (map (fun b : bool => if b then Fin 1 else Fin 0) m))) None.
Proof.
  intros x m L. unfold sum, checked. cbn [same_shape]. rewrite map_length, L, Nat.eqb_refl. cbn [andb]. f_equal. unfold sum_impl. cbn [option_map amap]. replace (map of_bool m) with (map (fun b : bool => if b then Fin 1 else Fin 0) m); [reflexivity|]. apply map_ext. intros []; reflexivity.
Qed.
Print Assumptions C48_sum_mask_as_weights.
Example C48_nonvacuous :
  fits [1; 2; 3]%Q (Some [1; 1; 2]%Q) (Some [true; false; true]) /\
  mean (Fin 0) (fin1 [1; 2; 3]%Q) (finw1 (Some [1; 1; 2]%Q)) (m1 (Some [true; false; true])) = Ok (S0 (Fin (7 # 3))) /\
  rect 2 [[1; 2]%Q; [3; 4]%Q] /\
  mean (Fin 0) (A2 2 [[Fin 1; Fin 2]; [Fin 3; Fin 5]]) None (Some (A2 2 [[true; true]; [false; true]])) = Ok (V1 [Fin (3 # 2); Fin (5 # 1)]).
Proof. repeat split; try reflexivity; repeat constructor. Qed.

(** ** C49: quantiles *)
(** One probability, one row: between the least and the largest selected sample. *)
Theorem C49_bounded ps sort fill x w m lo hi qs i q : fits x w m -> good_weights m w -> Forall (fun p => 0 <= p /\ p <= 1)%Q ps ->
  bounds (sel m x) lo hi -> quantile ps sort fill (A1 x) (option_map A1 w) (option_map A1 m) = Ok (S0 qs) -> nth_error qs i = Some q ->
  (lo <= q /\ q <= hi)%Q.
Proof.
  intros Hf Hw Hp (Hlo & Hhi & B) E Hi. unfold quantile in E. rewrite by_rows_1d in E by assumption.
  assert (Hx : sel m x <> []) by (intros H; rewrite H in Hlo; contradiction).
  destruct (quantile_1d ps sort fill x w m) as [qs'|] eqn:Eq; [|discriminate]. injection E as <-. rewrite quantile_1d_eq in Eq by assumption.
  destruct (mapM_nth _ _ _ Eq) as [L N]. destruct (nth_error ps i) as [p|] eqn:Ep.
  - destruct (N i p Ep) as (b & Hb & Eb). assert (b = q) by congruence. subst.
    rewrite Forall_forall in Hp. destruct (Hp p (nth_error_In _ _ Ep)) as [P0 P1].
    destruct (quantile_at_bounded sort x w m p lo hi Hf Hx Hw P0 P1 B) as (u & Eu & Hu). assert (u = q) by congruence. subst. exact Hu.
  - apply nth_error_None in Ep. assert (i < length qs') by (apply nth_error_Some; congruence). lia.
Qed.
Print Assumptions C49_bounded.
(** A larger probability gives a larger quantile. *)
Theorem C49_monotone ps fill x w m qs i j p1 p2 q1 q2 : fits x w m -> good_weights m w -> sel m x <> [] ->
  quantile ps true fill (A1 x) (option_map A1 w) (option_map A1 m) = Ok (S0 qs) ->
  nth_error ps i = Some p1 -> nth_error ps j = Some p2 -> (p1 <= p2)%Q -> nth_error qs i = Some q1 -> nth_error qs j = Some q2 -> (q1 <= q2)%Q.
Proof.
  intros Hf Hw Hx E Hp1 Hp2 Hp Hq1 Hq2. unfold quantile in E. rewrite by_rows_1d in E by assumption.
  destruct (quantile_1d ps true fill x w m) as [qs'|] eqn:Eq; [|discriminate]. injection E as <-. rewrite quantile_1d_eq in Eq by assumption.
  destruct (mapM_nth _ _ _ Eq) as [L N]. destruct (N i p1 Hp1) as (b1 & Hb1 & E1). destruct (N j p2 Hp2) as (b2 & Hb2 & E2).
  assert (b1 = q1) by congruence. assert (b2 = q2) by congruence. subst. eapply (quantile_at_mono x w m p1 p2); eassumption.
Qed.
Print Assumptions C49_monotone.
(** Probabilities in [0, 1] never raise, and give one quantile each. *)
Theorem C49_total ps sort fill x w m : fits x w m -> good_weights m w -> Forall (fun p => 0 <= p /\ p <= 1)%Q ps ->
  exists qs, quantile ps sort fill (A1 x) (option_map A1 w) (option_map A1 m) = Ok (S0 qs) /\ length qs = length ps.
Proof.
  intros Hf Hw Hp. destruct (quantile_1d_total ps sort fill x w m Hf Hw Hp) as (qs & E & L). exists qs. split; [|assumption].
  unfold quantile. rewrite by_rows_1d by assumption. rewrite E. reflexivity.
Qed.
Print Assumptions C49_total.
(** Unweighted, any probability outside [0, 1] among those asked for raises ValueError. *)
Theorem C49_out_of_range ps sort fill x m : fits (B := Q) x None m -> sel m x <> [] -> (exists p, In p ps /\ ~ ((0 <= p)%Q /\ (p <= 1)%Q)) ->
  quantile ps sort fill (A1 x) None (option_map A1 m) = Err ValueError.
Proof.
  intros Hf Hx Hp. change (@None (arr Q)) with (option_map (@A1 Q) None). unfold quantile. rewrite by_rows_1d by assumption. rewrite quantile_1d_eq by assumption.
  assert (G : mapM (quantile_at sort x None m) ps = Err ValueError); [|rewrite G; reflexivity].
  induction ps as [|p0 ps IH]; [destruct Hp as (p & [] & _)|]. cbn [mapM]. destruct (Qle_bool 0 p0 && Qle_bool p0 1) eqn:E.
  - rewrite IH. { unfold quantile_at at 1, np_quantile. rewrite E. reflexivity. } destruct Hp as (p & [<-|Hp] & N); [|exists p; auto]. apply andb_true_iff in E. rewrite !Qle_bool_iff in E. contradiction.
  - unfold quantile_at at 1, np_quantile. rewrite E. reflexivity.
Qed.
Print Assumptions C49_out_of_range.
(** Finding: with weights no probability is refused: one outside [0, 1] silently gives a value between the extremes. *)
Theorem C49_out_of_range_weighted_refuted ps sort fill x w m lo hi : fits x (Some w) m -> good_weights m (Some w) -> bounds (sel m x) lo hi ->
  exists qs, quantile ps sort fill (A1 x) (Some (A1 w)) (option_map A1 m) = Ok (S0 qs) /\ length qs = length ps /\ forall q, In q qs -> (lo <= q /\ q <= hi)%Q.
Proof.
  intros Hf Hw (Hlo & _ & Hb). assert (Hx : sel m x <> []) by (intros H; rewrite H in Hlo; contradiction). change (Some (A1 w)) with (option_map A1 (Some w)). unfold quantile. rewrite by_rows_1d by assumption. rewrite quantile_1d_eq by assumption.
  assert (G : exists qs, mapM (quantile_at sort x (Some w) m) ps = Ok qs /\ length qs = length ps /\ forall q, In q qs -> (lo <= q /\ q <= hi)%Q).
  { induction ps as [|p ps (qs & E & L & H)]; [exists []; split; [reflexivity|]; split; [reflexivity|intros q []]|]. destruct Hf as [Fw Fm]. destruct Hw as [Hw Hp].
    destruct (wq_bounded sort (sel m x) (map (fun a => a / Qsum (sel m w))%Q (sel m w)) p lo hi) as (u & Eu & Hu); [rewrite map_length; apply sel_len; assumption|exact Hx|apply norm_nonneg; assumption|exact Hb|].
    exists (u :: qs). cbn [mapM]. unfold quantile_at at 1. rewrite Eu. cbn [bind]. rewrite E. split; [reflexivity|]. split; [cbn; congruence|]. intros q [<-|Hq]; auto. }
  destruct G as (qs & -> & L & H). exists qs. split; [reflexivity|]. split; assumption.
Qed.
Print Assumptions C49_out_of_range_weighted_refuted.
Example ex_out_of_range_weighted : exists q, quantile [2]%Q true 0 (A1 [5; 3; 4]%Q) (Some (A1 [1; 1; 1]%Q)) None = Ok (S0 [q]) /\ (q == 5)%Q.
Proof. eexists. split; [vm_compute; reflexivity|reflexivity]. Qed.
(** The k-th smallest of n samples is the quantile at k/(n-1). *)
Theorem C49_order_statistics sort fill x s k v : 1 < length x -> k < length x ->
  Permutation s x -> ascending Qltb s -> nth_error s k = Some v ->
  exists q, quantile [inject_Z (Z.of_nat k) / inject_Z (Z.of_nat (length x - 1))]%Q sort fill (A1 x) None None = Ok (S0 [q]) /\ (q == v)%Q.
Proof.
  intros Hn Hk Hp Ha Hv. change (@None (arr Q)) with (option_map (@A1 Q) None). change (@None (arr bool)) with (option_map (@A1 bool) None).
  destruct (nth_error (np_sort Qltb x) k) as [v'|] eqn:Ev; [|apply nth_error_None in Ev; rewrite sort_len in Ev; lia].
  destruct (np_quantile_order x k v' Hk Hn Ev) as (u & Eu & Hu). exists u. split.
  - unfold quantile. rewrite by_rows_1d by (split; exact I). rewrite quantile_1d_eq by (cbn [sel]; intros ->; cbn in Hn; lia). cbn [mapM quantile_at sel].
    change (inject_Z (Z.of_nat ?a)) with (zq a). rewrite Eu. reflexivity.
  - rewrite Hu. eapply (asc_perm_nth s (np_sort Qltb x)); try eassumption; [apply sort_asc, Q_weak_order|].
    eapply Permutation_trans; [exact Hp|]. apply Permutation_sym, sort_perm.
Qed.
Print Assumptions C49_order_statistics.
(** Unweighted, the median is the quantile at 1/2. *)
Theorem C49_median sort sort' fill fill' x m : fits (B := Q) x None m -> sel m x <> [] ->
  exists u v, median sort fill (A1 x) None (option_map A1 m) = Ok (S0 u) /\ quantile [1 # 2] sort' fill' (A1 x) None (option_map A1 m) = Ok (S0 [v]) /\ (u == v)%Q.
Proof.
  intros Hf Hx. change (@None (arr Q)) with (option_map (@A1 Q) None). unfold median, quantile. rewrite !by_rows_1d by assumption.
  destruct (np_median_quantile (sel m x) Hx) as (u & Eu & Hu). exists (np_median (sel m x)), u. split.
  - unfold median_1d, impl_1d. destruct (sel m x); [congruence|reflexivity].
  - split; [|symmetry; assumption]. rewrite quantile_1d_eq by assumption. cbn [mapM quantile_at]. rewrite Eu. reflexivity.
Qed.
Print Assumptions C49_median.
(** Equal weights are not the same as no weights. *)
Theorem C49_uniform_weights_refuted :
  (exists q, quantile [1 # 2] true 0 (A1 [0; 1]%Q) None None = Ok (S0 [q]) /\ q == 1 # 2)%Q /\
  (exists q, quantile [1 # 2] true 0 (A1 [0; 1]%Q) (Some (A1 [1; 1]%Q)) None = Ok (S0 [q]) /\ q == 0)%Q.
Proof. split; eexists; (split; [vm_compute; reflexivity|reflexivity]). Qed.
Print Assumptions C49_uniform_weights_refuted.

(** Error bars: lower and upper error are never negative; the value is between the extremes. *)
Theorem C49_errorbar spec ps fill x w m : od_get String.eqb ps_map spec = Some ps -> length ps = 3 -> fits x w m -> good_weights m w ->
  exists v lo hi, errorbar spec fill (A1 x) (option_map A1 w) (option_map A1 m) = Ok (S0 (v, lo, hi)) /\ (0 <= lo)%Q /\ (0 <= hi)%Q /\
    (forall a b, bounds (sel m x) a b -> (a <= v - lo /\ v + hi <= b)%Q).
Proof.
  intros Hs L3 Hf Hw. unfold errorbar. rewrite Hs. destruct (spec_probs spec ps Hs) as [Hp [L|(p1 & p2 & p3 & -> & P12 & P23)]]; [lia|].
  destruct (C49_total [p1; p2; p3] true fill x w m Hf Hw Hp) as (qs & E & Lq). rewrite E. cbn [bind].
  destruct qs as [|q1 [|q2 [|q3 [|]]]]; try discriminate. cbn [bars rmap bind]. exists q2, (q2 - q1)%Q, (q3 - q2)%Q. split; [reflexivity|].
  assert (D : sel m x = [] \/ sel m x <> []) by (destruct (sel m x); [left; reflexivity|right; discriminate]). destruct D as [Ex|Ex].
  - pose proof E as E0. unfold quantile in E. rewrite by_rows_1d in E by assumption. unfold quantile_1d, impl_1d in E. rewrite Ex in E. injection E as <- <- <-.
    split; [lra|]. split; [lra|]. intros a b (Ha & _). rewrite Ex in Ha. contradiction.
  - pose proof (fun i j a b c d H1 H2 H3 H4 => C49_monotone [p1; p2; p3] fill x w m [q1; q2; q3] i j a b c d Hf Hw Ex E H1 H2 H3 H4) as M.
    pose proof (M 0 1 p1 p2 q1 q2 eq_refl eq_refl P12 eq_refl eq_refl). pose proof (M 1 2 p2 p3 q2 q3 eq_refl eq_refl P23 eq_refl eq_refl).
    split; [lra|]. split; [lra|]. intros a b Hb.
    pose proof (C49_bounded _ _ _ _ _ _ a b _ 0 q1 Hf Hw Hp Hb E eq_refl). pose proof (C49_bounded _ _ _ _ _ _ a b _ 2 q3 Hf Hw Hp Hb E eq_refl). lra.
Qed.
Print Assumptions C49_errorbar.
(** The three specs of two probabilities, accepted by the quantile, always raise ValueError in an error bar. *)
Theorem C49_errorbar_two_probs spec fill x w m : In spec ["1sigma"; "2sigma"; "3sigma"]%string -> fits x w m -> good_weights m w ->
  errorbar spec fill (A1 x) (option_map A1 w) (option_map A1 m) = Err ValueError.
Proof.
  intros H Hf Hw. unfold errorbar. assert (Hs : exists p1 p2, od_get String.eqb ps_map spec = Some [p1; p2]).
  { destruct H as [<-|[<-|[<-|[]]]]; do 2 eexists; reflexivity. }
  destruct Hs as (p1 & p2 & Hs). rewrite Hs. destruct (spec_probs spec _ Hs) as [Hp _].
  destruct (C49_total [p1; p2] true fill x w m Hf Hw Hp) as (qs & E & L). rewrite E. cbn [bind].
  destruct qs as [|a [|b [|]]]; try discriminate. reflexivity.
Qed.
Print Assumptions C49_errorbar_two_probs.
(** A table of error bars is row by row. *)
Theorem C49_errorbar_rows spec ps fill c rows w m : od_get String.eqb ps_map spec = Some ps -> length ps = 3 -> rect c rows -> rows <> [] ->
  fits2 c rows w -> fits2 c rows m -> (forall i, i < length rows -> good_weights (row_at i m) (row_at i w)) ->
  exists bs, errorbar spec fill (A2 c rows) (option_map (A2 c) w) (option_map (A2 c) m) = Ok (V1 bs) /\ length bs = length rows /\
    forall i r, nth_error rows i = Some r -> exists b, nth_error bs i = Some b /\
      errorbar spec fill (A1 r) (option_map A1 (row_at i w)) (option_map A1 (row_at i m)) = Ok (S0 b).
Proof.
  intros Hs L3 R Hne Hw Hm Hg. destruct (spec_probs spec ps Hs) as [Hp _].
  assert (T : exists qs, length qs = length rows /\ forall i r, nth_error rows i = Some r -> exists b, nth_error qs i = Some b /\
      quantile ps true fill (A1 r) (option_map A1 (row_at i w)) (option_map A1 (row_at i m)) = Ok (S0 b)).
  { assert (G : forall k, k <= length rows -> exists qs, length qs = k /\ forall i r, i < k -> nth_error rows i = Some r -> exists b, nth_error qs i = Some b /\
      quantile ps true fill (A1 r) (option_map A1 (row_at i w)) (option_map A1 (row_at i m)) = Ok (S0 b)).
    { induction k as [|k IH]; intros Hk; [exists []; split; [reflexivity|intros; lia]|]. destruct IH as (qs & L & H); [lia|].
      destruct (nth_error rows k) as [r|] eqn:Er; [|apply nth_error_None in Er; lia].
      destruct (C49_total ps true fill r (row_at k w) (row_at k m)) as (q & Eq & _); [eapply fits_row; eassumption|apply Hg; lia|assumption|].
      exists (qs ++ [q]). split; [rewrite app_length; cbn; lia|]. intros i r' Hi Hr'. destruct (Nat.eq_dec i k) as [->|N].
      - exists q. split; [rewrite nth_error_app2, L, Nat.sub_diag by lia; reflexivity|]. assert (r' = r) by congruence. subst. assumption.
      - destruct (H i r') as (b & Hb & Eb); [lia|assumption|]. exists b. split; [rewrite nth_error_app1 by lia; assumption|assumption]. }
    destruct (G (length rows) (le_n _)) as (qs & L & H). exists qs. split; [assumption|]. intros i r Hr. apply H; [apply nth_error_Some; congruence|assumption]. }
  destruct T as (qs & Lq & Hq). pose proof (proj2 (C48_rows_quantile ps true fill c rows w m qs R Hw Hm) (conj Lq Hq)) as E.
  unfold errorbar. rewrite Hs, E. cbn [bind]. destruct qs as [|q0 qs']; [destruct rows; [congruence|discriminate]|]. set (qs := q0 :: qs') in *.
  destruct (mapM_ex bars qs) as [bs Hbs].
  { intros a Ha. apply In_nth_error in Ha. destruct Ha as [i Hi]. assert (Li : i < length rows) by (rewrite <- Lq; apply nth_error_Some; congruence).
    destruct (nth_error rows i) as [r|] eqn:Er; [|apply nth_error_None in Er; lia]. destruct (Hq i r Er) as (b & Hb & Eb). assert (b = a) by congruence. subst.
    destruct (C49_total ps true fill r (row_at i w) (row_at i m)) as (q & Eq & Ll); [eapply fits_row; eassumption|apply Hg; lia|assumption|].
    assert (q = a) by congruence. subst. rewrite L3 in Ll. destruct a as [|? [|? [|? [|]]]]; try discriminate. eexists. reflexivity. }
  rewrite Hbs. exists bs. destruct (mapM_nth _ _ _ Hbs) as [Lb Nb]. split; [reflexivity|]. split; [congruence|]. intros i r Hr.
  destruct (Hq i r Hr) as (q & Hqi & Eq). destruct (Nb i q Hqi) as (b & Hb & Eb). exists b. split; [assumption|]. rewrite Eq. cbn [bind]. rewrite Eb. reflexivity.
Qed.
Print Assumptions C49_errorbar_rows.
Example C49_nonvacuous :
  good_weights (Some [true; false; true]) (Some [1; -5; 3]%Q) /\ bounds [3; 1; 2]%Q 1 3 /\
  (exists v lo hi, errorbar "median+1sigma" 0 (A1 [3; 1; 2; 7]%Q) None None = Ok (S0 (v, lo, hi)) /\ v == 5 # 2 /\ lo == 102 # 100 /\ hi == 258 # 100)%Q.
Proof.
  split; [|split].
  - split; [|reflexivity]. cbn. intros a [<-|[<-|[]]]; lra.
  - split; [cbn; auto|]. split; [cbn; auto|]. cbn. intros a [<-|[<-|[<-|[]]]]; lra.
  - do 3 eexists. split; [vm_compute; reflexivity|]. repeat split; reflexivity.
Qed.

(** ** C50: nothing selected *)
Theorem C50_empty fill ps sort x w m : fits x w m -> sel m x = [] ->
  mean (Fin fill) (fin1 x) (finw1 w) (m1 m) = Ok (S0 (Fin fill)) /\
  quantile ps sort fill (A1 x) (option_map A1 w) (option_map A1 m) = Ok (S0 (map (fun _ => fill) ps)) /\
  median sort fill (A1 x) (option_map A1 w) (option_map A1 m) = Ok (S0 fill) /\
  count (fin1 x) (finw1 w) (m1 m) = Ok (S0 0%Z).
Proof.
  intros Hf Hx. split; [apply mean_empty; assumption|]. unfold quantile, median. rewrite !by_rows_1d by assumption.
  unfold quantile_1d, median_1d, impl_1d. rewrite Hx. split; [reflexivity|]. split; [reflexivity|].
  unfold count. rewrite checked_fits by assumption. rewrite count_1d by apply Hf. rewrite Hx. reflexivity.
Qed.
Print Assumptions C50_empty.
(** The mean's fill value may be anything, and so may the (unselected) samples. *)
Theorem C50_empty_mean_any fill x w m : fits x w m -> sel m x = [] -> mean fill (A1 x) (option_map A1 w) (option_map A1 m) = Ok (S0 fill).
Proof. intros [Hw Hm] Hx. apply mean_empty_any; assumption. Qed.
Print Assumptions C50_empty_mean_any.
(** Sum ignores the fill value: an empty sum is 0. *)
Theorem C50_empty_sum x w m : fits x w m -> sel m x = [] -> exists q, sum (fin1 x) (finw1 w) (m1 m) = Ok (S0 (Fin q)) /\ (q == 0)%Q.
Proof.
  intros Hf Hx. destruct (C48_sum_value x w m Hf) as (q & E & Q). exists q. split; [assumption|]. rewrite Q, Hx. reflexivity.
Qed.
Print Assumptions C50_empty_sum.
(** The standard deviation of an empty sample is the square root of the fill value: NaN for the default fill -1e10 (and any
    negative one), so the fill value itself is not returned. *)
Theorem C50_empty_std fill x w m : fits x w m -> sel m x = [] ->
  std_dev (Fin fill) (fin1 x) (finw1 w) (m1 m) = Ok (S0 (if Qltb fill 0 then RNaN else RFin (sqrt (Q2R fill)))).
Proof.
  intros Hf Hx. unfold std_dev. rewrite checked_fits by assumption. rewrite radicand_empty by assumption. reflexivity.
Qed.
Print Assumptions C50_empty_std.
Theorem C50_empty_std_refuted : std_dev (Fin (-10000000000)) (A1 []) None None = Ok (S0 RNaN).
Proof. reflexivity. Qed.
Print Assumptions C50_empty_std_refuted.
(** Error bars of an empty sample: the fill value with zero errors. *)
Theorem C50_empty_errorbar spec ps fill x w m : od_get String.eqb ps_map spec = Some ps -> length ps = 3 -> fits x w m -> sel m x = [] ->
  exists a b, errorbar spec fill (A1 x) (option_map A1 w) (option_map A1 m) = Ok (S0 (fill, a, b)) /\ (a == 0)%Q /\ (b == 0)%Q.
Proof.
  intros Hs L Hf Hx. unfold errorbar. rewrite Hs. unfold quantile. rewrite by_rows_1d by assumption. unfold quantile_1d, impl_1d. rewrite Hx.
  destruct ps as [|p1 [|p2 [|p3 [|]]]]; try discriminate. cbn [map rmap bind bars]. do 2 eexists. split; [reflexivity|]. split; ring.
Qed.
Print Assumptions C50_empty_errorbar.
Theorem C50_empty_errorbar_sd fill x w m : fits x w m -> sel m x = [] ->
  errorbar_sd (Fin fill) (fin1 x) (finw1 w) (m1 m) =
  let sd := S0 (if Qltb fill 0 then RNaN else RFin (sqrt (Q2R fill))) in Ok (S0 (Fin fill), sd, sd).
Proof.
  intros Hf Hx. unfold errorbar_sd. rewrite mean_empty by assumption. cbn [bind]. rewrite C50_empty_std by assumption. reflexivity.
Qed.
Print Assumptions C50_empty_errorbar_sd.
(** A table with no rows: quantiles give an empty result, error bars raise ValueError. *)
Theorem C50_no_rows_refuted spec ps fill c : od_get String.eqb ps_map spec = Some ps ->
  quantile ps true fill (A2 c []) None None = Ok (V1 []) /\ errorbar spec fill (A2 c []) None None = Err ValueError.
Proof. intros H. split; [reflexivity|]. unfold errorbar. rewrite H. reflexivity. Qed.
Print Assumptions C50_no_rows_refuted.
(** Rows of a table with nothing selected are filled, the others are not affected (instance of C48_rows_mean). *)
Example C50_nonvacuous :
  mean (Fin (-1)) (A2 2 [[Fin 1; NaN]; [PInf; NaN]]) None (Some (A2 2 [[true; true]; [false; false]])) = Ok (V1 [NaN; Fin (-1)]) /\
  fits [1; 2]%Q (Some [1; 1]%Q) (Some [false; false]) /\ sel (Some [false; false]) [1; 2]%Q = [].
Proof. repeat split; reflexivity. Qed.
(** The named quantile levels: n-sigma intervals are symmetric and hold 68, 95 and 99 percent; the one-sided ones likewise. *)
Theorem C49_levels : forall name coverage, In (name, coverage) [("1sigma", 68 # 100); ("2sigma", 95 # 100); ("3sigma", 99 # 100)]%string ->
  exists lo hi, od_get String.eqb ps_map name = Some [lo; hi] /\ od_get String.eqb ps_map ("median+" ++ name)%string = Some [lo; 1 # 2; hi]%Q /\
    (lo + hi == 1)%Q /\ (hi - lo == coverage)%Q /\ In coverage (match od_get String.eqb ps_map "lower_3sigmas"%string with Some l => l | None => [] end) /\
    exists u, In u (match od_get String.eqb ps_map "upper_3sigmas"%string with Some l => l | None => [] end) /\ (u == 1 - coverage)%Q.
Proof.
  intros name coverage [E|[E|[E|[]]]]; inversion E; subst; do 2 eexists; (split; [reflexivity|]); (split; [reflexivity|]); (split; [reflexivity|]); (split; [reflexivity|]);
    (split; [cbn; tauto|]); [exists (32 # 100)%Q|exists (5 # 100)%Q|exists (1 # 100)%Q]; (split; [cbn; tauto|reflexivity]).
Qed.
Print Assumptions C49_levels.
(** Any other name of a set of levels is refused, before the data are looked at. *)
Theorem C49_unknown_levels : forall spec fill x w m,
  ~ In spec ["1sigma"; "2sigma"; "3sigma"; "median+1sigma"; "median+2sigma"; "median+3sigma"; "lower_3sigmas"; "upper_3sigmas"]%string ->
  errorbar spec fill x w m = Err KeyError.
Proof.
  intros spec fill x w m H. unfold errorbar. cbn [ps_map od_get].
  repeat match goal with |- context [String.eqb ?a ?b] => destruct (String.eqb_spec a b); [exfalso; subst; apply H; cbn; tauto|] end. reflexivity.
Qed.
Print Assumptions C49_unknown_levels.
