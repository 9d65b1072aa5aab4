(** C72: densities on the plane, percentile levels, scatter plots (plot/two_dim.py). *)
From Coq Require Import QArith Reals Qreals Lqa.
From Verif Require Import Base OrderSpec BinSpec BinModel BinProofs BinProofs2 BinProofs3 BinProofs4 BinProofs5 NearSpec KernModel NearModel NearProofs TwoSpec TwoModel TwoProofs.
Local Open Scope list_scope. Local Open Scope nat_scope.

(** Histogram2D.fit: the density of a cell times its area is the fraction of the weight inside the rectangle that lies in the
    cell (cells half-open, the last row and column closed). *)
Theorem C72_fit : forall xb yb xr yr x y w h, h2_fit xb yb xr yr x y w = Ok h ->
  axis_edges xb xr = Ok (h2_xe h) /\ axis_edges yb yr = Ok (h2_ye h) /\ ascending Qltb (h2_xe h) /\ ascending Qltb (h2_ye h) /\
  length (h2_z h) = length (h2_xe h) - 1 /\ Forall (fun row => length row = length (h2_ye h) - 1) (h2_z h) /\
  forall i j a b c d, nth_error (h2_xe h) i = Some a -> nth_error (h2_xe h) (S i) = Some b -> nth_error (h2_ye h) j = Some c -> nth_error (h2_ye h) (S j) = Some d ->
    (a < b -> c < d -> ~ box_weight (h2_xe h) (h2_ye h) (samples2 x y w) == 0 ->
     at2 (h2_z h) i j * ((b - a) * (d - c)) * box_weight (h2_xe h) (h2_ye h) (samples2 x y w) == cell_weight (h2_xe h) (h2_ye h) (samples2 x y w) i j)%Q.
Proof.
  intros xb yb xr yr x y w h E. destruct (fit_spec _ _ _ _ _ _ _ _ E) as (_ & E1 & E2 & s & Hs & Hz). cbv zeta in *.
  pose proof (axis_asc _ _ _ E1) as A1. pose proof (axis_asc _ _ _ E2) as A2. split; [exact E1|]. split; [exact E2|]. split; [exact A1|]. split; [exact A2|].
  split; [rewrite Hz; unfold table; rewrite map_length, seq_length; reflexivity|]. split.
  { rewrite Hz. apply Forall_forall. intros row Hr. unfold table in Hr. apply in_map_iff in Hr. destruct Hr as (i & <- & _). rewrite map_length, seq_length. reflexivity. }
  intros i j a b c d Ha Hb Hc Hd Lab Lcd NZ.
  assert (Hi : S i < length (h2_xe h)) by (apply nth_error_Some; congruence). assert (Hj : S j < length (h2_ye h)) by (apply nth_error_Some; congruence).
  rewrite Hz, at2_table, at2_table by lia. rewrite cell_is by assumption. specialize (Hs ltac:(lia) ltac:(lia)).
  unfold width. rewrite (nth_error_nth _ _ 0%Q Ha), (nth_error_nth _ _ 0%Q Hb), (nth_error_nth _ _ 0%Q Hc), (nth_error_nth _ _ 0%Q Hd). rewrite <- Hs in *. field. repeat split; lra.
Qed.
Print Assumptions C72_fit.
(** The density integrates to one. *)
Theorem C72_mass : forall xb yb xr yr x y w h, h2_fit xb yb xr yr x y w = Ok h -> increasing Qltb (h2_xe h) -> increasing Qltb (h2_ye h) ->
  2 <= length (h2_xe h) -> 2 <= length (h2_ye h) -> ~ (box_weight (h2_xe h) (h2_ye h) (samples2 x y w) == 0)%Q ->
  (Qsum (map (fun i => Qsum (map (fun j => at2 (h2_z h) i j * (width (h2_xe h) i * width (h2_ye h) j)) (seq 0 (length (h2_ye h) - 1)))) (seq 0 (length (h2_xe h) - 1))) == 1)%Q.
Proof.
  intros xb yb xr yr x y w h E I1 I2 L1 L2 NZ. destruct (C72_fit _ _ _ _ _ _ _ _ E) as (_ & _ & A1 & A2 & _ & _ & H).
  set (B := box_weight (h2_xe h) (h2_ye h) (samples2 x y w)) in *.
  rewrite (Qsum_ext _ (fun i => (1 / B) * Qsum (map (cell_weight (h2_xe h) (h2_ye h) (samples2 x y w) i) (seq 0 (length (h2_ye h) - 1))))%Q).
  - assert (M : forall (f : nat -> Q) l, (Qsum (map (fun i => 1 / B * f i) l) == 1 / B * Qsum (map f l))%Q) by (intros f l; induction l as [|k l IH]; cbn [map Qsum]; [ring|rewrite IH; ring]).
    rewrite M, box_sum by assumption. fold B. field. exact NZ.
  - intros i Hi. apply in_seq in Hi.
    assert (M : forall (f : nat -> Q) l, (Qsum (map (fun i => 1 / B * f i) l) == 1 / B * Qsum (map f l))%Q) by (intros f l; induction l as [|k l IH]; cbn [map Qsum]; [ring|rewrite IH; ring]).
    rewrite <- M. apply Qsum_ext. intros j Hj. apply in_seq in Hj.
    destruct (nth_error (h2_xe h) i) as [a|] eqn:Ea; [|apply nth_error_None in Ea; lia]. destruct (nth_error (h2_xe h) (S i)) as [b|] eqn:Eb; [|apply nth_error_None in Eb; lia].
    destruct (nth_error (h2_ye h) j) as [c|] eqn:Ec; [|apply nth_error_None in Ec; lia]. destruct (nth_error (h2_ye h) (S j)) as [d|] eqn:Ed; [|apply nth_error_None in Ed; lia].
    assert (a < b)%Q by (apply Qltb_lt; eapply I1; [|exact Ea|exact Eb]; lia). assert (c < d)%Q by (apply Qltb_lt; eapply I2; [|exact Ec|exact Ed]; lia).
    specialize (H i j a b c d Ea Eb Ec Ed ltac:(assumption) ltac:(assumption) NZ).
    unfold width. rewrite (nth_error_nth _ _ 0%Q Ea), (nth_error_nth _ _ 0%Q Eb), (nth_error_nth _ _ 0%Q Ec), (nth_error_nth _ _ 0%Q Ed). rewrite <- H. field. exact NZ.
Qed.
Print Assumptions C72_mass.

(** Histogram2D.on: the density of the cell (edge i, edge i+1] the point is in - closed on the other side than in fit -; outside
    the first and the last edge zero, or that of the closest cell. *)
Theorem C72_on : forall xb yb xr yr x y w h px py, h2_fit xb yb xr yr x y w = Ok h -> 2 <= length (h2_xe h) -> 2 <= length (h2_ye h) ->
  (forall zero i j, right_closed (h2_xe h) i px -> right_closed (h2_ye h) j py -> h2_on zero h px py = at2 (h2_z h) i j) /\
  (outside (h2_xe h) px \/ outside (h2_ye h) py -> h2_on true h px py = 0%Q) /\
  (forall i j, nearest_cell (h2_xe h) i px -> nearest_cell (h2_ye h) j py -> h2_on false h px py = at2 (h2_z h) i j).
Proof.
  intros xb yb xr yr x y w h px py E L1 L2. destruct (C72_fit _ _ _ _ _ _ _ _ E) as (_ & _ & A1 & A2 & _).
  assert (Near : forall i j, nearest_cell (h2_xe h) i px -> nearest_cell (h2_ye h) j py -> h2_on false h px py = at2 (h2_z h) i j).
  { intros i j N1 N2. unfold h2_on. cbv zeta. cbn [andb]. rewrite (clip_nearest _ _ _ A1 L1 N1), (clip_nearest _ _ _ A2 L2 N2), !Nat2Z.id. reflexivity. }
  split; [|split; [|exact Near]].
  - intros [|] i j R1 R2; [|apply Near; left; assumption].
    unfold h2_on. cbv zeta. rewrite (clip_nearest _ _ _ A1 L1 (or_introl R1)), (clip_nearest _ _ _ A2 L2 (or_introl R2)), !Nat2Z.id, (clip_inside _ _ _ A1 R1), (clip_inside _ _ _ A2 R2), !Z.eqb_refl. reflexivity.
  - intros O. unfold h2_on. cbv zeta. cbn [andb].
    assert (Hb : negb (Z.of_nat (searchsorted_left Qltb (h2_xe h) px) - 1 =? zclip 0 (Z.of_nat (length (h2_xe h) - 1) - 1) (Z.of_nat (searchsorted_left Qltb (h2_xe h) px) - 1))%Z
       || negb (Z.of_nat (searchsorted_left Qltb (h2_ye h) py) - 1 =? zclip 0 (Z.of_nat (length (h2_ye h) - 1) - 1) (Z.of_nat (searchsorted_left Qltb (h2_ye h) py) - 1))%Z = true).
    { apply orb_true_iff. destruct O as [O|O]; [left|right]; apply negb_true_iff, Z.eqb_neq; intros Z; symmetry in Z; [exact (clip_outside _ _ A1 L1 O Z)|exact (clip_outside _ _ A2 L2 O Z)]. }
    rewrite Hb. reflexivity.
Qed.
Print Assumptions C72_on.
(** Every point is either outside or in exactly one cell, so C72_on settles every point. *)
Theorem C72_on_complete : forall e x, ascending Qltb e -> 2 <= length e -> (outside e x \/ exists i, right_closed e i x) /\ exists i, nearest_cell e i x.
Proof.
  intros e x A L. destruct (ssl_spec Qltb e x Q_weak_order A) as [Lc S]. set (c := searchsorted_left Qltb e x) in *.
  destruct (nth_error e 0) as [f|] eqn:Ef; [|apply nth_error_None in Ef; lia]. destruct (nth_error e (length e - 1)) as [l|] eqn:El; [|apply nth_error_None in El; lia].
  destruct c as [|k] eqn:Ec.
  - pose proof (S _ _ Ef) as Q. apply Qltb_ge in Q. split; [left; left; eauto|]. exists 0. right. left. eauto.
  - destruct (Nat.eq_dec (Datatypes.S k) (length e)) as [H|H].
    + replace k with (length e - 1) in * by lia. pose proof (S _ _ El) as Q. replace (Nat.ltb (length e - 1) (Datatypes.S (length e - 1))) with true in Q by (symmetry; apply Nat.ltb_lt; lia).
      apply Qltb_lt in Q. split; [left; right; eauto|]. exists (length e - 2). right. right. split; [lia|]. exists l. replace (Datatypes.S (length e - 2)) with (length e - 1) by lia. auto.
    + destruct (nth_error e k) as [a|] eqn:Ea; [|apply nth_error_None in Ea; lia]. destruct (nth_error e (Datatypes.S k)) as [b|] eqn:Eb; [|apply nth_error_None in Eb; lia].
      assert (R : right_closed e k x).
      { exists a, b. split; [exact Ea|]. split; [exact Eb|]. split; [apply Qltb_lt; rewrite (S _ _ Ea); apply Nat.ltb_lt; lia|apply Qltb_ge; rewrite (S _ _ Eb); apply Nat.ltb_ge; lia]. }
      split; [right; eauto|]. exists k. left. exact R.
Qed.
Print Assumptions C72_on_complete.
(** Finding: a sample on an interior edge is counted in the cell on the right and read from the cell on the left. *)
Theorem C72_edge_refuted : forall e i x, increasing Qltb e -> S (S i) < length e -> nth_error e (S i) = Some x ->
  in_window e (S i) (S (S i)) x = true /\ right_closed e i x /\ ~ right_closed e (S i) x.
Proof.
  intros e i x I L H. destruct (nth_error e i) as [a|] eqn:Ea; [|apply nth_error_None in Ea; lia]. destruct (nth_error e (S (S i))) as [b|] eqn:Eb; [|apply nth_error_None in Eb; lia].
  pose proof (I i (S i) _ _ ltac:(lia) Ea H) as Q1. pose proof (I (S i) (S (S i)) _ _ ltac:(lia) H Eb) as Q2. apply Qltb_lt in Q1. split; [|split].
  - unfold in_window. rewrite H, Eb, Q2. assert (Qle_bool x x = true) by (apply Qle_bool_iff; lra). rewrite H0. reflexivity.
  - exists a, x. split; [exact Ea|]. split; [exact H|]. split; [exact Q1|lra].
  - intros (a' & b' & N1 & _ & Q & _). assert (a' = x) by congruence. subst. lra.
Qed.
Print Assumptions C72_edge_refuted.

(** on_meshgrid: row j, column i ('xy' indexing) is the density at (x_i, y_j); with 'ij' indexing row i, column j. *)
Theorem C72_meshgrid : forall A (on : Q -> Q -> A) x y i j a b, nth_error x i = Some a -> nth_error y j = Some b ->
  (exists row, nth_error (on_meshgrid on true x y) j = Some row /\ nth_error row i = Some (on a b)) /\
  (exists row, nth_error (on_meshgrid on false x y) i = Some row /\ nth_error row j = Some (on a b)) /\
  length (on_meshgrid on true x y) = length y /\ length (on_meshgrid on false x y) = length x.
Proof.
  intros A on x y i j a b Ha Hb. assert (Hi : i < length x) by (apply nth_error_Some; congruence). assert (Hj : j < length y) by (apply nth_error_Some; congruence).
  unfold on_meshgrid, mesh_flat. split; [|split].
  - destruct (reshape_nth (length y) (length x) (map (fun p => on (fst p) (snd p)) (flat_map (fun b => map (fun a => (a, b)) x) y)) j i Hj Hi) as (row & E & N).
    exists row. split; [exact E|]. rewrite N, nth_error_map. rewrite (mesh_flat_nth on y x (fun a b => (a, b)) i j a b Hb Ha). reflexivity.
  - destruct (reshape_nth (length x) (length y) (map (fun p => on (fst p) (snd p)) (flat_map (fun a => map (fun b => (a, b)) y) x)) i j Hi Hj) as (row & E & N).
    exists row. split; [exact E|]. rewrite N, nth_error_map. rewrite (mesh_flat_nth on x y (fun b a => (a, b)) j i b a Ha Hb). reflexivity.
  - unfold reshape. rewrite !map_length, !seq_length. auto.
Qed.
Print Assumptions C72_meshgrid.

Lemma centers_inside e i a b : increasing Qltb e -> nth_error e i = Some a -> nth_error e (S i) = Some b -> exists c, nth_error (centers e) i = Some c /\ right_closed e i c.
Proof.
  intros I Ha Hb. pose proof (I i (S i) _ _ ltac:(lia) Ha Hb) as Q. apply Qltb_lt in Q. exists ((1 # 2) * (b + a))%Q. split.
  - unfold centers. apply zipwith_nth. exists b, a. rewrite tl_nth. split; [exact Hb|]. split; [|reflexivity]. apply removelast_nth. split; [exact Ha|]. apply nth_error_Some. congruence.
  - exists a, b. split; [exact Ha|]. split; [exact Hb|]. split; lra.
Qed.
Lemma scatter_edges x y range nb w tr s xr yr : scatter2d x y range nb w tr = Ok s -> default_range range x y = Ok (xr, yr) ->
  (fst xr < snd xr)%Q -> (fst yr < snd yr)%Q ->
  (1 <= fst nb)%Z /\ (1 <= snd nb)%Z /\ s_data s = (x, y) /\ s_tr s = tr /\ h2_fit (inl (fst nb)) (inl (snd nb)) xr yr x y w = Ok (s_h s) /\
  s_edges s = (h2_xe (s_h s), h2_ye (s_h s)) /\ h2_xe (s_h s) = linspace (fst xr) (snd xr) (Z.to_nat (fst nb) + 1) /\ h2_ye (s_h s) = linspace (fst yr) (snd yr) (Z.to_nat (snd nb) + 1).
Proof.
  intros E D L1 L2. unfold scatter2d in E. rewrite D in E. cbn [bind] in E. destruct (h2_fit _ _ xr yr x y w) as [h|] eqn:F; [|discriminate]. cbn [rmap] in E. apply Ok_inj in E. subst s. cbn [s_data s_tr s_h s_edges].
  destruct (fit_spec _ _ _ _ _ _ _ _ F) as (_ & E1 & E2 & _).
  assert (G : forall n r e, axis_edges (inl n) r = Ok e -> (fst r < snd r)%Q -> (1 <= n)%Z /\ e = linspace (fst r) (snd r) (Z.to_nat n + 1)).
  { intros n [lo hi] e G L. unfold axis_edges in G. cbn [fst snd] in *. destruct (n <? 1)%Z eqn:N; [discriminate|]. apply Z.ltb_ge in N. destruct (Qltb hi lo); [discriminate|].
    assert (Qeq_bool lo hi = false) by (destruct (Qeq_bool lo hi) eqn:Q; [apply Qeq_bool_iff in Q; lra|reflexivity]). rewrite H in G. apply Ok_inj in G. split; [exact N|]. symmetry. exact G. }
  apply G in E1; [|exact L1]. apply G in E2; [|exact L2]. destruct E1 as [N1 E1]. destruct E2 as [N2 E2]. rewrite E1, E2, !Z2Nat.inj_add by lia. repeat (split; [try assumption; reflexivity|]). reflexivity.
Qed.
(** The mesh Scatter2D draws shows, in row j and column i, the fitted density of the cell between the i-th and next x edge and
    the j-th and next y edge; the edges handed to pcolormesh are those of the histogram. *)
Theorem C72_mesh : forall x y range nb w tr s xr yr, scatter2d x y range nb w tr = Ok s -> default_range range x y = Ok (xr, yr) ->
  (fst xr < snd xr)%Q -> (fst yr < snd yr)%Q ->
  s_edges s = (h2_xe (s_h s), h2_ye (s_h s)) /\
  forall i j, i < Z.to_nat (fst nb) -> j < Z.to_nat (snd nb) -> at2 (mesh_density s) j i = at2 (h2_z (s_h s)) i j /\ at2 (mesh_z s) j i = tr (at2 (h2_z (s_h s)) i j).
Proof.
  intros x y range nb w tr s xr yr E D L1 L2. destruct (scatter_edges _ _ _ _ _ _ _ _ _ E D L1 L2) as (N1 & N2 & _ & Ht & F & Ee & Ex & Ey).
  split; [exact Ee|]. intros i j Hi Hj.
  assert (I1 : increasing Qltb (h2_xe (s_h s))) by (rewrite Ex; apply linspace_incr; [lia|assumption]). assert (I2 : increasing Qltb (h2_ye (s_h s))) by (rewrite Ey; apply linspace_incr; [lia|assumption]).
  assert (Lx : length (h2_xe (s_h s)) = Z.to_nat (fst nb) + 1) by (rewrite Ex; apply linspace_length). assert (Ly : length (h2_ye (s_h s)) = Z.to_nat (snd nb) + 1) by (rewrite Ey; apply linspace_length).
  destruct (nth_error (h2_xe (s_h s)) i) as [a|] eqn:Ea; [|apply nth_error_None in Ea; lia]. destruct (nth_error (h2_xe (s_h s)) (S i)) as [b|] eqn:Eb; [|apply nth_error_None in Eb; lia].
  destruct (nth_error (h2_ye (s_h s)) j) as [c|] eqn:Ec; [|apply nth_error_None in Ec; lia]. destruct (nth_error (h2_ye (s_h s)) (S j)) as [d|] eqn:Ed; [|apply nth_error_None in Ed; lia].
  destruct (centers_inside _ _ _ _ I1 Ea Eb) as (p & Np & Rp). destruct (centers_inside _ _ _ _ I2 Ec Ed) as (q & Nq & Rq).
  destruct (C72_meshgrid _ (h2_on true (s_h s)) _ _ _ _ _ _ Np Nq) as ((row & E1 & E2) & _).
  assert (V : at2 (mesh_density s) j i = at2 (h2_z (s_h s)) i j).
  { unfold mesh_density. rewrite Ee. cbn [fst snd]. unfold at2 at 1. rewrite (nth_error_nth _ _ [] E1), (nth_error_nth _ _ 0%Q E2).
    eapply (C72_on _ _ _ _ _ _ _ _ p q F); [lia|lia|assumption|assumption]. }
  split; [exact V|]. rewrite <- V. unfold mesh_z. rewrite Ht. unfold at2, mesh_density. rewrite Ee. cbn [fst snd]. rewrite (nth_error_nth _ _ [] E1), (nth_error_nth _ _ 0%Q E2).
  erewrite (nth_error_nth (map (map tr) _)); [|rewrite nth_error_map, E1; reflexivity]. erewrite nth_error_nth; [reflexivity|]. rewrite nth_error_map, E2. reflexivity.
Qed.
Print Assumptions C72_mesh.
(** Finding: with the default range the samples with the smallest x (or y) are read as density 0, however full their cell, so
    scatter(hidden_in_p) shows them whenever the level is positive. *)
Theorem C72_min_sample_refuted : forall x y nb w s a b, scatter2d x y None nb w (fun v => v) = Ok s -> In (a, b) (combine x y) ->
  ((Forall (fun v => a <= v) x \/ Forall (fun v => b <= v) y) -> (exists v u, In v x /\ In u x /\ v < u) -> (exists v u, In v y /\ In u y /\ v < u) ->
  h2_on true (s_h s) a b = 0 /\ forall p, 0 < z_level (concat (mesh_z s)) p (-1) -> In (a, b) (shown s (Some p)))%Q.
Proof.
  intros x y nb w s a b E I M Vx Vy.
  assert (Mn : forall l lo hi, list_min l = Ok lo -> list_max l = Ok hi -> (exists v u, In v l /\ In u l /\ v < u)%Q -> (lo < hi)%Q /\ In lo l /\ forall v, In v l -> (lo <= v)%Q).
  { intros l lo hi E1 E2 (v & u & Iv & Iu & L). pose proof (p_range_spec (fun _ p => p) (Some l) None None) as P. unfold parse_p_range_spec in P. rewrite E1, E2 in P. cbn [bind] in P.
    destruct P as ((k & P1) & _ & P3). split; [|split; [eapply nth_error_In; exact P1|intros; apply P3; assumption]]. pose proof (P3 v Iv). pose proof (P3 u Iu). lra. }
  assert (D : exists xr yr, default_range None x y = Ok (xr, yr)) by (unfold scatter2d in E; destruct (default_range None x y) as [[xr yr]|]; [eauto|discriminate]).
  destruct D as (xr & yr & D). pose proof D as D'. unfold default_range in D'.
  destruct (list_min x) as [x0|] eqn:X0; [|discriminate]. destruct (list_max x) as [x1|] eqn:X1; [|discriminate]. destruct (list_min y) as [y0|] eqn:Y0; [|discriminate]. destruct (list_max y) as [y1|] eqn:Y1; [|discriminate].
  cbn [bind] in D'. assert (xr = (x0, x1)) by congruence. assert (yr = (y0, y1)) by congruence. subst xr yr. clear D'.
  destruct (Mn _ _ _ X0 X1 Vx) as (Lx & Ix & Mx). destruct (Mn _ _ _ Y0 Y1 Vy) as (Ly & Iy & My).
  destruct (scatter_edges _ _ _ _ _ _ _ _ _ E D Lx Ly) as (N1 & N2 & Hd & Ht & F & Ee & Ex & Ey). cbn [fst snd] in *.
  assert (Z : h2_on true (s_h s) a b = 0%Q).
  { assert (G : forall lo hi n, (1 <= n)%Z -> exists v, nth_error (linspace lo hi (Z.to_nat n + 1)) 0 = Some v /\ (v == lo)%Q).
    { intros lo hi n Hn. destruct (nth_error (linspace lo hi (Z.to_nat n + 1)) 0) as [v|] eqn:Ev; [|apply nth_error_None in Ev; rewrite linspace_length in Ev; lia].
      exists v. split; [reflexivity|]. apply linspace_val in Ev; [|lia]. rewrite Ev. change (inject_Z (Z.of_nat 0)) with 0%Q. ring. }
    eapply (C72_on _ _ _ _ _ _ _ _ a b F); [rewrite Ex, linspace_length; lia|rewrite Ey, linspace_length; lia|].
    destruct M as [M|M]; [left|right]; left.
    - rewrite Ex. destruct (G x0 x1 (fst nb) N1) as (v & Nv & Qv). exists v. split; [exact Nv|]. rewrite Forall_forall in M. specialize (M x0 Ix). lra.
    - rewrite Ey. destruct (G y0 y1 (snd nb) N2) as (v & Nv & Qv). exists v. split; [exact Nv|]. rewrite Forall_forall in M. specialize (M y0 Iy). lra. }
  split; [exact Z|]. intros p Hp. unfold shown. rewrite Hd, Ht. cbn [fst snd]. apply filter_In. split; [exact I|]. cbn [fst snd]. rewrite Z. apply Qltb_lt. exact Hp.
Qed.
Print Assumptions C72_min_sample_refuted.

(** z_level_at_percentile, for densities that are not negative and not all zero: the level is one of the values; the values at
    or above it add up to at least the fraction p of the total, those strictly above to at most p.  So it is the p-quantile of
    mass, from above. *)
Theorem C72_level : forall zs p, zs <> [] -> Forall (fun a => 0 <= a)%Q zs -> (0 < Qsum zs)%Q -> (0 <= p)%Q -> (p <= 1)%Q ->
  In (z_level zs p 0) zs /\ (p * Qsum zs <= mass_where (fun v => Qle_bool (z_level zs p 0) v) zs)%Q /\ (mass_where (fun v => Qltb (z_level zs p 0) v) zs <= p * Qsum zs)%Q.
Proof. intros zs p NE F P H0 H1. split; [apply lev_in; exact NE|]. apply lev_mass; assumption. Qed.
Print Assumptions C72_level.
(** A larger fraction has a lower (or the same) level; the level used for hiding points is at most the contour level. *)
Theorem C72_level_mono : forall zs p q sh, zs <> [] -> (p <= q)%Q -> (z_level zs q sh <= z_level zs p sh)%Q /\ (z_level zs p (-1) <= z_level zs p 0)%Q /\ In (z_level zs p sh) zs.
Proof. intros zs p q sh NE H. split; [apply lev_mono; assumption|]. split; [apply lev_shift; exact NE|apply lev_in; exact NE]. Qed.
Print Assumptions C72_level_mono.
(** Which samples scatter(hidden_in_p) shows: those whose density is below the level, in order. *)
Theorem C72_shown : forall x y range nb w tr s p q, scatter2d x y range nb w tr = Ok s ->
  shown s None = combine x y /\
  (In q (shown s (Some p)) <-> In q (combine x y) /\ (tr (h2_on true (s_h s) (fst q) (snd q)) < z_level (concat (mesh_z s)) p (-1))%Q).
Proof.
  intros x y range nb w tr s p q E. unfold scatter2d in E. destruct (default_range range x y) as [[xr yr]|]; [|discriminate]. cbn [bind] in E.
  destruct (h2_fit _ _ xr yr x y w) as [h|]; [|discriminate]. cbn [rmap] in E. apply Ok_inj in E. subst s. unfold shown. cbn [s_data s_tr s_h fst snd].
  split; [reflexivity|]. rewrite filter_In, Qltb_lt. reflexivity.
Qed.
Print Assumptions C72_shown.

Lemma up_incr l : strictly_up l = true -> forall i a b, nth_error l i = Some a -> nth_error l (S i) = Some b -> (a < b)%Q.
Proof.
  induction l as [|x l IH]; intros H i a b Ha Hb; [destruct i; discriminate|]. destruct l as [|y l]; [destruct i as [|[|i]]; discriminate|].
  cbn [strictly_up] in H. apply andb_prop in H. destruct H as [H1 H2]. destruct i as [|i]; [|eapply (IH H2 i); assumption].
  assert (a = x) by (cbn in Ha; congruence). assert (b = y) by (cbn in Hb; congruence). subst. apply Qltb_lt. exact H1.
Qed.
(** contour draws only for percentiles given in strictly descending order, at their (then strictly increasing) levels; in all
    other cases matplotlib's ValueError: ascending or equal percentiles, descending ones that share a level, a colour map
    beside the default colours, filled contours of a single percentile. *)
Theorem C72_contour : forall zs ps use_fill colors cmap, zs <> [] ->
  match contour zs ps use_fill colors cmap with
  | Ok levels => levels = map (fun p => z_level zs p 0) ps /\ colors && cmap = false /\ (use_fill = true -> 2 <= length ps) /\
      forall i p q, nth_error ps i = Some p -> nth_error ps (S i) = Some q -> (q < p)%Q /\ (z_level zs p 0 < z_level zs q 0)%Q
  | Err e => e = ValueError
  end.
Proof.
  intros zs ps uf co cm NE. unfold contour. cbv zeta. destruct (co && cm) eqn:C; [reflexivity|]. destruct (uf && Nat.ltb _ 2) eqn:U; [reflexivity|]. destruct (strictly_up _) eqn:S0; [|reflexivity].
  split; [reflexivity|]. split; [reflexivity|]. split.
  - intros ->. cbn [andb] in U. apply Nat.ltb_ge in U. rewrite map_length in U. exact U.
  - intros i p q Hp Hq. assert (L : (z_level zs p 0 < z_level zs q 0)%Q) by (eapply (up_incr _ S0 i); rewrite nth_error_map; [rewrite Hp|rewrite Hq]; reflexivity).
    split; [|exact L]. apply Qnot_le_lt. intros Z. pose proof (lev_mono zs NE p q 0%Z Z). lra.
Qed.
Print Assumptions C72_contour.
Theorem C72_contour_order_refuted : forall zs ps i p q use_fill colors cmap, zs <> [] -> nth_error ps i = Some p -> nth_error ps (S i) = Some q -> (p <= q)%Q ->
  contour zs ps use_fill colors cmap = Err ValueError.
Proof.
  intros zs ps i p q uf co cm NE Hp Hq L. pose proof (C72_contour zs ps uf co cm NE) as H. destruct (contour zs ps uf co cm) as [l|e]; [|rewrite H; reflexivity].
  destruct H as (_ & _ & _ & H). destruct (H i p q Hp Hq). lra.
Qed.
Print Assumptions C72_contour_order_refuted.
Theorem C72_contour_cmap_refuted : forall zs ps use_fill, contour zs ps use_fill true true = Err ValueError.
Proof. reflexivity. Qed.
Print Assumptions C72_contour_cmap_refuted.

(** KNearestNeighbor2D: with r the distance to the k-th nearest sample (k at most the number of samples), the density is k over
    pi r^2, or the weight of those k samples over pi r^2; a query that coincides with k samples has infinite density. *)
Theorem C72_knn : forall k x y w q, length x = length y -> 0 < k -> 0 < length x ->
  exists nb, nearest Qltb (fun a b => ((fst a - fst b) * (fst a - fst b) + (snd a - snd b) * (snd a - snd b))%Q) (combine x y) q (Nat.min k (length x)) nb /\
  let r2 := last (map fst nb) 0%Q in
  (0 <= r2)%Q /\ (forall d, In d (map fst nb) -> d <= r2)%Q /\
  ((0 < r2)%Q -> k2_on k x y w q = Ok (EFin (match w with None => INR (Nat.min k (length x)) | Some w => Q2R (Qsum (map (fun p => nth (snd p) w 0%Q) nb)) end / (PI * Q2R r2))%R)) /\
  ((r2 == 0)%Q -> w = None -> k2_on k x y w q = Ok EPInf).
Proof.
  intros k x y w q L Hk Hx. pose proof (query_nearest Qltb sq_dist (combine x y) q (Nat.min k (length x)) Q_weak_order) as N. unfold k2_on.
  assert (Lc : length (combine x y) = length x) by (rewrite combine_length, L; lia).
  destruct (Nat.eqb_spec (Nat.min k (length x)) 0); [lia|]. destruct (query Qltb sq_dist (combine x y) q (Nat.min k (length x))) as [nb|]; [|lia].
  exists nb. split; [exact N|]. cbv zeta. set (r2 := last (map fst nb) 0%Q). cbn [bind].
  destruct N as (Ln & (ND & Nn) & As & _). assert (Hl : nth_error (map fst nb) (length (map fst nb) - 1) = Some r2) by (apply last_nth_error; intros Z; apply (f_equal (@length Q)) in Z; rewrite map_length in Z; cbn in Z; lia).
  split; [|split; [|split]].
  - apply nth_error_In in Hl. apply in_map_iff in Hl. destruct Hl as ((d & i) & E & I). apply Nn in I. destruct I as (p & _ & I). cbn [fst] in E. rewrite <- E, I. unfold sq_dist. assert (SQ : forall u : Q, (0 <= u * u)%Q) by (intros u; nra). pose proof (SQ (fst q - fst p)%Q). pose proof (SQ (snd q - snd p)%Q). lra.
  - intros d Hd. apply In_nth_error in Hd. destruct Hd as [m Hm]. destruct (Nat.eq_dec m (length (map fst nb) - 1)) as [->|Ne]; [assert (d = r2) by congruence; subst; lra|].
    assert (m < length (map fst nb)) by (apply nth_error_Some; congruence). pose proof (As m (length (map fst nb) - 1) _ _ ltac:(lia) Hm Hl) as Q. apply Qltb_ge in Q. exact Q.
  - intros P. assert (PR : (0 < PI * Q2R r2)%R) by (apply Rmult_lt_0_compat; [apply PI_RGT_0|]; replace 0%R with (Q2R 0) by (unfold Q2R; cbn; Lra.lra); apply Qlt_Rlt; exact P).
    f_equal. fold r2. destruct w; unfold ediv; (destruct (Req_EM_T (PI * Q2R r2) 0); [Lra.lra|reflexivity]).
  - intros Z ->. f_equal. fold r2. unfold ediv. assert (E0 : (PI * Q2R r2 = 0)%R) by (apply Qeq_eqR in Z; rewrite Z; unfold Q2R; cbn; Lra.lra).
    destruct (Req_EM_T (PI * Q2R r2) 0); [|contradiction]. assert (0 < INR (Nat.min k (length x)))%R by (apply lt_0_INR; lia).
    destruct (Req_EM_T _ 0); [Lra.lra|]. destruct (Rlt_dec _ _); [reflexivity|contradiction].
Qed.
Print Assumptions C72_knn.

(** The edges of an axis: n equally wide bins over the range asked for (a range of no width is widened by 1/2 on both sides), or
    the edges given; fewer than one bin, a reversed range and unsorted edges are a ValueError. *)
Theorem C72_axis : forall n lo hi,
  ((n < 1)%Z -> axis_edges (inl n) (lo, hi) = Err ValueError) /\ ((hi < lo)%Q -> axis_edges (inl n) (lo, hi) = Err ValueError) /\
  ((1 <= n)%Z -> (lo <= hi)%Q -> exists e, axis_edges (inl n) (lo, hi) = Ok e /\ length e = Z.to_nat n + 1 /\
    let a := (if Qeq_bool lo hi then lo - (1 # 2) else lo)%Q in let b := (if Qeq_bool lo hi then hi + (1 # 2) else hi)%Q in
    forall k x, nth_error e k = Some x -> (x == a + inject_Z (Z.of_nat k) * (b - a) / inject_Z n)%Q).
Proof.
  intros n lo hi. unfold axis_edges. cbn [fst snd]. split; [|split].
  - intros H. destruct (Z.ltb_spec n 1); [reflexivity|lia].
  - intros H. destruct (Z.ltb_spec n 1); [reflexivity|]. replace (Qltb hi lo) with true by (symmetry; apply Qltb_lt; exact H). reflexivity.
  - intros H L. destruct (Z.ltb_spec n 1); [lia|]. replace (Qltb hi lo) with false by (symmetry; apply Qltb_ge; exact L).
    assert (N0 : ~ (inject_Z n == 0)%Q) by (intros Z; unfold Qeq in Z; cbn in Z; lia).
    assert (NN : (Z.of_nat (Z.to_nat n + 1 - 1) = n)%Z) by lia.
    destruct (Qeq_bool lo hi); (eexists; split; [reflexivity|]; split; [apply linspace_length|]; cbv zeta; intros k x Hk; apply linspace_nth in Hk; destruct Hk as [_ ->]; rewrite NN; field; exact N0).
Qed.
Print Assumptions C72_axis.
Theorem C72_axis_given : forall e r, (ascending Qltb e -> axis_edges (inr e) r = Ok e) /\ (~ ascending Qltb e -> axis_edges (inr e) r = Err ValueError).
Proof.
  intros e r. unfold axis_edges. split; intros H; destruct (nondecreasing e) eqn:N; try reflexivity.
  - apply nondec_spec in H. congruence.
  - apply nondec_spec in N. contradiction.
Qed.
Print Assumptions C72_axis_given.
(** Coordinates or weights that do not pair up are a ValueError, whatever the bins. *)
Theorem C72_fit_lengths : forall xb yb xr yr x y w, length x <> length y \/ (exists u, w = Some u /\ length u <> length x) ->
  h2_fit xb yb xr yr x y w = Err ValueError.
Proof.
  intros xb yb xr yr x y w H. unfold h2_fit. destruct (Nat.eqb_spec (length x) (length y)) as [E|E]; [|reflexivity]. cbn [negb].
  destruct H as [H|(u & -> & H)]; [contradiction|]. destruct (Nat.eqb_spec (length x) (length u)); [congruence|reflexivity].
Qed.
Print Assumptions C72_fit_lengths.

Example C72_example : exists s, scatter2d [0; 1; 2; 4]%Q [0; 3; 3; 4]%Q None (2, 2)%Z None (fun v => v) = Ok s /\
  map (map Qred) (h2_z (s_h s)) = [[1 # 16; 1 # 16]; [0; 1 # 8]]%Q /\ map (map Qred) (mesh_density s) = [[1 # 16; 0]; [1 # 16; 1 # 8]]%Q /\
  Qred (h2_on true (s_h s) 0 0) = 0%Q /\ Qred (h2_on true (s_h s) 1 3) = (1 # 16)%Q /\ Qred (h2_on false (s_h s) 9 9) = (1 # 8)%Q.
Proof. eexists. split; [reflexivity|]. vm_compute. auto 10. Qed.
Example C72_example_levels : contour [1; 4; 3; 2]%Q [8 # 10; 6 # 10; 3 # 10]%Q false true false = Ok [2; 3; 4]%Q /\
  contour [1; 4; 3; 2]%Q [4 # 10; 7 # 10]%Q false true false = Err ValueError /\ mass_where (fun v => Qle_bool 3 v) [1; 4; 3; 2]%Q == 7.
Proof. split; [vm_compute; reflexivity|]. split; [vm_compute; reflexivity|]. vm_compute. reflexivity. Qed.
