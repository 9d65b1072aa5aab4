(** Proofs about the entry points of the regression (C87). *)
From Coq Require Import QArith Qabs Reals Qreals.
From Verif Require Import Base OrderSpec BinSpec BinModel ReduSpec ReduModel ReduProofs ReduProofs2 ReduProps NearSpec NearModel NearProofs RegrSpec RegrModel RegrProofs RegeSpec RegeModel.
Local Open Scope list_scope. Local Open Scope nat_scope.

Lemma F2_nth {A B} (R : A -> B -> Prop) la lb i a : Forall2 R la lb -> nth_error la i = Some a -> exists b, nth_error lb i = Some b /\ R a b.
Proof. intros F. revert i. induction F as [|x x' la lb Hx F IH]; intros [|i] N; try discriminate; cbn in *; [exists x'; split; [reflexivity|congruence]|now apply IH]. Qed.
Lemma F2_len {A B} (R : A -> B -> Prop) la lb : Forall2 R la lb -> length lb = length la.
Proof. intros F. induction F; cbn; congruence. Qed.

Lemma row_at_map {A B} (f : A -> B) i (o : option (list (list A))) : row_at i (option_map (map (map f)) o) = option_map (map f) (row_at i o).
Proof. destruct o as [w|]; [|reflexivity]. cbn. f_equal. change (@nil B) with (map f []). apply map_nth. Qed.
Lemma fits2_map {A B C D} (f : A -> C) (g : B -> D) c (rows : list (list A)) (o : option (list (list B))) : fits2 c rows o -> fits2 c (map (map f) rows) (option_map (map (map g)) o).
Proof.
  destruct o as [w|]; [|exact (fun _ => I)]. intros [L R]. cbn. split; [rewrite !map_length; exact L|]. unfold rect in *. rewrite Forall_map.
  eapply Forall_impl; [|exact R]. intros r Hr. cbn. rewrite map_length. exact Hr.
Qed.
Lemma rect_map {A C} (f : A -> C) c (rows : list (list A)) : rect c rows -> rect c (map (map f) rows).
Proof. unfold rect. rewrite Forall_map. apply Forall_impl. intros r Hr. rewrite map_length. exact Hr. Qed.
Lemma fits2_map_l {A B C} (f : A -> C) c (rows : list (list A)) (o : option (list (list B))) : fits2 c rows o -> fits2 c (map (map f) rows) o.
Proof. destruct o as [w|]; [|exact (fun _ => I)]. intros [L R]. split; [rewrite map_length; exact L|exact R]. Qed.
Lemma nums_2 c (w : option (list (list Q))) : option_map nums (option_map (A2 c) w) = option_map (A2 c) (option_map (map (map Fin)) w).
Proof. destruct w; reflexivity. Qed.
Lemma nums_1 (w : option (list Q)) : option_map nums (option_map A1 w) = option_map A1 (option_map (map Fin) w).
Proof. destruct w; reflexivity. Qed.
Lemma by_rows_V1 {B} (f : list Q -> option (list Q) -> option (list bool) -> result B) c rows w m o : by_rows f (A2 c rows) w m = Ok o -> exists bs, o = V1 bs.
Proof.
  unfold by_rows, checked. intros H. repeat match type of H with context [if ?b then _ else _] => destruct b end; try discriminate;
  destruct (rows_2d f rows (option_map rows_of w) (option_map rows_of m)) as [bs|]; try discriminate; exists bs; cbn [rmap] in H; congruence.
Qed.

(** a two-dimensional reduction, read at one row, is the reduction of that row *)
Lemma reduce_rows r c rows w m v : rect c rows -> fits2 c rows w -> fits2 c rows m ->
  reduce r (A2 c rows) (option_map (A2 c) w) (option_map (A2 c) m) = Ok v ->
  forall i row, nth_error rows i = Some row -> exists vi, entry i v = Some vi /\ reduce r (A1 row) (option_map A1 (row_at i w)) (option_map A1 (row_at i m)) = Ok vi.
Proof.
  intros R Hw Hm H i row Hr.
  assert (Hr' : nth_error (map (map Fin) rows) i = Some (map Fin row)) by (apply map_nth_error; exact Hr).
  pose proof (rect_map Fin c rows R) as R'. pose proof (fits2_map Fin Fin c rows w Hw) as Hw'. pose proof (fits2_map_l Fin c rows m Hm) as Hm'.
  destruct r as [| |f|f|ps s f|s f|n f]; cbn [reduce] in *.
  - assert (Hwc : fits2 c rows (option_map (map (map Fin)) w)) by (destruct w as [w|]; [|exact I]; destruct Hw as [L0 R0]; split; [rewrite map_length; exact L0|apply rect_map; exact R0]).
    unfold count in *. rewrite nums_2 in H. rewrite checked_2d in H; [|exact Hwc|exact Hm].
    cbn [rmap] in H. injection H as <-. rewrite nums_1. rewrite checked_1d.
    2: { destruct (fits_row c rows w m i row R Hw Hm Hr) as [F1 F2]. split; [|exact F2]. destruct (row_at i w); cbn in *; [rewrite map_length|]; exact F1. }
    cbn [rmap]. eexists. split; [|reflexivity]. destruct m as [m|]; cbn [option_map row_at count_impl entry entry_of].
    + destruct Hm as [Lm Rm]. assert (Hi : i < length m) by (rewrite Lm; apply nth_error_Some; congruence). rewrite nth_error_map. rewrite (nth_error_nth' m [] Hi). reflexivity.
    + assert (length row = c) by (eapply Forall_forall in R; [exact R|eapply nth_error_In; exact Hr]). subst c. reflexivity.
  - unfold nums in H. cbn [amap] in H. change (option_map (amap Fin)) with (option_map nums) in H. rewrite nums_2 in H.
    destruct (C48_rows_sum c _ _ m R' Hw' Hm') as (outs & E & L & P). rewrite E in H. cbn [rmap] in H. injection H as <-.
    destruct (P i _ Hr') as (u & Hu & Eu). exists (VN (S0 u)). split; [cbn; rewrite Hu; reflexivity|]. rewrite nums_1. rewrite row_at_map in Eu. unfold nums. cbn [amap]. rewrite Eu. reflexivity.
  - unfold nums in H. cbn [amap] in H. change (option_map (amap Fin)) with (option_map nums) in H. rewrite nums_2 in H.
    destruct (C48_rows_mean (Fin f) c _ _ m R' Hw' Hm') as (outs & E & L & P). rewrite E in H. cbn [rmap] in H. injection H as <-.
    destruct (P i _ Hr') as (u & Hu & Eu). exists (VN (S0 u)). split; [cbn; rewrite Hu; reflexivity|]. rewrite nums_1. rewrite row_at_map in Eu. unfold nums. cbn [amap]. rewrite Eu. reflexivity.
  - unfold nums in H. cbn [amap] in H. change (option_map (amap Fin)) with (option_map nums) in H. rewrite nums_2 in H.
    destruct (C48_rows_std (Fin f) c _ _ m R' Hw' Hm') as (outs & E & L & P). rewrite E in H. cbn [rmap] in H. injection H as <-.
    destruct (P i _ Hr') as (u & Hu & Eu). exists (VR (S0 u)). split; [cbn; rewrite Hu; reflexivity|]. rewrite nums_1. rewrite row_at_map in Eu. unfold nums. cbn [amap]. rewrite Eu. reflexivity.
  - destruct (quantile ps s f _ _ _) as [o|] eqn:E; [|discriminate]. cbn [rmap] in H. injection H as <-. pose proof E as E'. unfold quantile in E'. apply by_rows_V1 in E'. destruct E' as [bs ->].
    apply (C48_rows_quantile ps s f c rows w m bs R Hw Hm) in E. destruct E as [L P]. destruct (P i row Hr) as (u & Hu & Eu). exists (VL (S0 u)). rewrite Eu. cbn. rewrite Hu. auto.
  - destruct (median s f _ _ _) as [o|] eqn:E; [|discriminate]. cbn [rmap] in H. injection H as <-. pose proof E as E'. unfold median in E'. apply by_rows_V1 in E'. destruct E' as [bs ->].
    apply (C48_rows_median s f c rows w m bs R Hw Hm) in E. destruct E as [L P]. destruct (P i row Hr) as (u & Hu & Eu). exists (VQ (S0 u)). rewrite Eu. cbn. rewrite Hu. auto.
  - destruct (String.eqb n "mean+sd").
    + unfold errorbar_sd in *. unfold nums in H. cbn [amap] in H. change (option_map (amap Fin)) with (option_map nums) in H. rewrite nums_2 in H.
      destruct (C48_rows_mean (Fin f) c _ _ m R' Hw' Hm') as (outs & E & L & P). destruct (C48_rows_std (Fin f) c _ _ m R' Hw' Hm') as (outs' & E' & L' & P').
      rewrite E, E' in H. cbn [bind rmap fst snd] in H. injection H as <-. destruct (P i _ Hr') as (u & Hu & Eu). destruct (P' i _ Hr') as (u' & Hu' & Eu').
      exists (VSd (S0 u) (S0 u')). split; [cbn; rewrite Hu, Hu'; reflexivity|]. rewrite nums_1. rewrite row_at_map in Eu, Eu'. unfold nums. cbn [amap]. rewrite Eu, Eu'. reflexivity.
    + unfold errorbar in *. destruct (od_get String.eqb ps_map n) as [ps|]; [|discriminate]. destruct (quantile ps true f (A2 c rows) _ _) as [o|] eqn:E; [|discriminate].
      pose proof E as E'. unfold quantile in E'. apply by_rows_V1 in E'. destruct E' as [bs ->].
      apply (C48_rows_quantile ps true f c rows w m bs R Hw Hm) in E. destruct E as [L P]. destruct (P i row Hr) as (u & Hu & Eu). rewrite Eu. cbn [bind] in *.
      destruct bs as [|b0 bs]; [discriminate|]. destruct (mapM bars (b0 :: bs)) as [es|] eqn:M; [|discriminate]. cbn [rmap] in H. injection H as <-. apply mapM_Ok in M.
      destruct (F2_nth _ _ _ i u M Hu) as (e & He & Be). rewrite Be. exists (VB (S0 e)). split; [cbn; rewrite He; reflexivity|reflexivity].
Qed.

(** the local regression with any acceptance rule *)
Definition row_of {X} (dist : X -> X -> Q) (tr : list X) (near : Q -> bool) (q : X) : list (Q * nat) := filter (fun p => near (fst p)) (dist_pairs dist tr q).
Lemma near_spec {X} (dist : X -> X -> Q) tr near q : neighbours dist tr q (row_of dist tr near q) /\
  forall i p, nth_error tr i = Some p -> (In i (map snd (row_of dist tr near q)) <-> near (dist q p) = true).
Proof. exact (radius_spec (fun d _ => near d) dist tr q 0%Q). Qed.
Lemma local_by_values {X} (dist : X -> X -> Q) tr y w near K names qs p : length y = length tr -> (forall w', w = Some w' -> length w' = length tr) ->
  local_by dist tr y w near K names names qs = Ok p ->
  length (p_y p) = length names /\ p_named p = named (combine (map fst names) (p_y p)) /\
  forall j c, nth_error names j = Some c -> exists col, nth_error (p_y p) j = Some col /\ length col = length qs /\
    forall i q, nth_error qs i = Some q -> exists v, nth_error col i = Some v /\
      reduce (snd c) (A1 (row_y y (row_of dist tr near q))) (option_map A1 (row_w w K (row_of dist tr near q))) None = Ok v.
Proof.
  intros Ly Lw H. unfold local_by in H.
  match type of H with bind (mapM ?f _) _ = _ => set (one := f) in * end.
  assert (One : forall q, one q = mapM (fun c => reduce (snd c) (A1 (row_y y (row_of dist tr near q))) (option_map A1 (row_w w K (row_of dist tr near q))) None) names).
  { intros q. unfold one. cbv zeta. fold (row_of dist tr near q). set (nb := row_of dist tr near q).
    assert (B : forall l, length l = length tr -> take l (map snd nb) = Ok (row_y l nb)).
    { intros l L. rewrite take_ok; [unfold row_y; now rewrite map_map|]. rewrite L, Forall_map, Forall_forall. intros [d i] I.
      destruct (near_spec dist tr near q) as [[_ N] _]. destruct (N d i I) as (p' & Np & _). apply nth_error_Some. cbn. congruence. }
    rewrite B by exact Ly. cbn [bind]. destruct w as [w|].
    - rewrite (B w) by (now apply Lw). cbn [rmap bind]. unfold row_w. destruct K as [K|]; cbn [option_map]; [|reflexivity]. unfold row_y at 2. rewrite zipwith_map. reflexivity.
    - cbn [bind]. unfold row_w. destruct K; reflexivity. }
  destruct (mapM one qs) as [preds|] eqn:P; [|discriminate]. cbn [bind] in H. destruct (mapM _ (seq 0 (length names))) as [cols|] eqn:Cs; [|discriminate]. cbn [bind] in H.
  assert (p = {| p_y := cols; p_named := named (combine (map fst names) cols) |}) by congruence. subst p. cbn [p_y p_named]. apply mapM_Ok in P, Cs.
  split; [rewrite (F2_len _ _ _ Cs), seq_length; reflexivity|]. split; [reflexivity|]. intros j c Nj.
  assert (Hj : j < length names) by (apply nth_error_Some; congruence).
  assert (Ns : nth_error (seq 0 (length names)) j = Some j) by (rewrite (nth_error_nth' _ 0) by (rewrite seq_length; exact Hj); rewrite seq_nth by exact Hj; reflexivity).
  destruct (F2_nth _ _ _ j j Cs Ns) as (col & Hc & Ec). exists col. split; [exact Hc|]. apply mapM_Ok in Ec.
  split; [rewrite (F2_len _ _ _ Ec), (F2_len _ _ _ P); reflexivity|]. intros i q Hq. destruct (F2_nth _ _ _ i q P Hq) as (pred & Hp & Ep). destruct (F2_nth _ _ _ i pred Ec Hp) as (v & Hv & Ev).
  exists v. split; [exact Hv|]. rewrite One in Ep. apply mapM_Ok in Ep. destruct (F2_nth _ _ _ j c Ep Nj) as (v' & Hv' & Rv). rewrite Hv' in Ev. congruence.
Qed.
Lemma local_call_by {X} (dist : X -> X -> Q) tr y w r K a qs : local_call dist tr y w r K a qs =
  bind (mapM create (iter a)) (fun names => bind (mapM create (iter_again a)) (fun calls => local_by dist tr y w (fun d => Qle_bool d r) K names calls qs)).
Proof. reflexivity. Qed.

Lemma Rleb_Q a b : Rleb (Q2R a) (Q2R b) = Qle_bool a b.
Proof.
  unfold Rleb. destruct (Rle_dec (Q2R a) (Q2R b)) as [H|H]; symmetry.
  - apply Qle_bool_iff. apply Rle_Qle. exact H.
  - destruct (Qle_bool a b) eqn:E; [|reflexivity]. exfalso. apply H. apply Qle_Rle. apply Qle_bool_iff. exact E.
Qed.
Lemma filter_ext_eq {A} (f g : A -> bool) l : (forall a, f a = g a) -> filter f l = filter g l.
Proof. intros H. induction l; cbn; [reflexivity|]. rewrite H, IHl. reflexivity. Qed.
Lemma mapM_ext_eq {A B} (f g : A -> result B) l : (forall a, f a = g a) -> mapM f l = mapM g l.
Proof. intros H. induction l; cbn; [reflexivity|]. rewrite H, IHl. reflexivity. Qed.
Lemma local_by_ext {X} (dist : X -> X -> Q) tr y w n1 n2 K names calls qs : (forall d, n1 d = n2 d) -> local_by dist tr y w n1 K names calls qs = local_by dist tr y w n2 K names calls qs.
Proof.
  intros H. unfold local_by. erewrite mapM_ext_eq; [reflexivity|]. intros q. cbv zeta.
  rewrite (filter_ext_eq (fun p => n1 (fst p)) (fun p => n2 (fst p)) (dist_pairs dist tr q)) by (intros; apply H). reflexivity.
Qed.
(** nearest neighbours of rows with one coordinate *)
Lemma nearest_line xs q k nb : nearest Qltb line_dist (map (fun a => [a]) xs) [q] k nb -> nearest Qltb (fun a b => Qabs (a - b)) xs q k nb.
Proof.
  intros (L & (ND & N) & A & F). split; [exact L|]. split; [split; [exact ND|]|split; [exact A|]].
  - intros d i I. destruct (N d i I) as (p & Hp & ->). rewrite nth_error_map in Hp. destruct (nth_error xs i) as [u|]; [|discriminate]. injection Hp as <-. exists u. auto.
  - intros i p Hp NI d Hd. apply (F i [p]); auto. rewrite nth_error_map, Hp. reflexivity.
Qed.
