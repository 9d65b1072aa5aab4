(** C73: secondary axes and filled bands. *)
From Coq Require Import Reals Lra Lia Permutation.
From Verif Require Import Base FmtModel LinModel LinProofs AxModel.
Local Open Scope list_scope. Local Open Scope nat_scope.

Definition on_x (l : string) : Prop := l = "top"%string \/ l = "bottom"%string.
Definition on_y (l : string) : Prop := l = "left"%string \/ l = "right"%string.
Lemma axis_of_spec l : (axis_of l = Some "x"%string <-> on_x l) /\ (axis_of l = Some "y"%string <-> on_y l) /\ (axis_of l = None <-> ~ on_x l /\ ~ on_y l).
Proof.
  unfold axis_of, on_x, on_y. destruct (String.eqb_spec l "top"); [subst; cbn; intuition congruence|]. destruct (String.eqb_spec l "bottom"); [subst; cbn; intuition congruence|].
  cbn. destruct (String.eqb_spec l "left"); [subst; cbn; intuition congruence|]. destruct (String.eqb_spec l "right"); [subst; cbn; intuition congruence|]. cbn. intuition congruence.
Qed.
Lemma fmt_one d k v : forall k', k' <> k -> od_get String.eqb (snd (fst (fmt_frame d [(k, v)]))) k' = od_get String.eqb d k'.
Proof.
  intros k' N. unfold fmt_frame. cbn [ior]. destruct (od_mem String.eqb d k); [|reflexivity]. destruct (apply_frame _) as [r cs]. cbn. apply od_get_set_other; [exact String.eqb_spec|exact N].
Qed.
(** An axis of the right kind appears where asked for, carrying the label and the ticks asked for and nothing else; any other
    location is refused before anything is drawn.  The parent's own ticks on that side are switched off -- nothing else happens to
    a parent whose frame was not formatted before -- and without hide_first_ticks the parent is not touched. *)
Theorem C73_secondary : forall d location ticks label hide, let o := secondary d location ticks label hide in
  (~ on_x location -> ~ on_y location -> o_res o = Err ValueError /\ o_axis o = None /\ o_new o = [] /\ o_parent o = [] /\ o_fmt o = d) /\
  (forall is_x : bool, (if is_x then on_x location else on_y location) -> let axis := (if is_x then "x" else "y")%string in
     o_axis o = Some (axis, location) /\
     o_new o = (if not_none label then [SetAxis "label" is_x label []] else []) ++ (if not_none ticks then [SetAxis "ticks" is_x ticks []] else []) /\
     (hide = false -> o_res o = Ok tt /\ o_parent o = [] /\ o_fmt o = d) /\
     (hide = true -> d = frame_fmt -> o_res o = Ok tt /\ o_parent o = [TickParams axis (PMap [("which"%string, PText "both"); (location, PBool false)]) []]) /\
     (forall k, k <> "tick_params"%string -> od_get String.eqb (o_fmt o) k = od_get String.eqb d k)).
Proof.
  intros d location ticks label hide o. destruct (axis_of_spec location) as (AX & AY & AN). split.
  - intros NX NY. unfold o, secondary. rewrite (proj2 AN (conj NX NY)). cbn. auto.
  - intros is_x H. assert (A : axis_of location = Some (if is_x then "x" else "y")%string) by (destruct is_x; [apply AX|apply AY]; exact H).
    unfold o, secondary. rewrite A.
    match goal with |- context [fmt_frame frame_fmt ?kw] => assert (F : fmt_frame frame_fmt kw = (Ok tt, snd (fst (fmt_frame frame_fmt kw)), (if not_none label then [SetAxis "label" is_x label []] else []) ++ (if not_none ticks then [SetAxis "ticks" is_x ticks []] else []))) by (destruct is_x, label, ticks; reflexivity); rewrite F end.
    destruct hide.
    + match goal with |- context [fmt_frame d ?kw] => pose proof (fmt_one d "tick_params" (snd (hd (""%string, PNone) kw))) as FO; cbn [snd hd] in FO;
        assert (FF : d = frame_fmt -> fmt_frame d kw = (Ok tt, snd (fst (fmt_frame frame_fmt kw)), [TickParams (if is_x then "x" else "y")%string (PMap [("which"%string, PText "both"); (location, PBool false)]) []])) by (intros ->; clear - H; destruct is_x; cbn in H; unfold on_x, on_y in H; repeat (destruct H as [H|H]); subst location; reflexivity);
        destruct (fmt_frame d kw) as [[r2 d2] c2] end.
      cbn [o_axis o_new o_res o_parent o_fmt]. split; [reflexivity|]. split; [reflexivity|]. split; [discriminate|]. split; [|exact FO].
      intros _ E. specialize (FF E). injection FF as -> _ ->. split; reflexivity.
    + cbn [o_axis o_new o_res o_parent o_fmt]. repeat split; auto; discriminate.
Qed.
Print Assumptions C73_secondary.
(** Redshift and lg(1+z) axes show the same place: the two functions are inverse and increasing. *)
Theorem C73_lgzp1 : (forall x, z_to_lgzp1 (lgzp1_to_z x) = x) /\ (forall z, (-1 < z)%R -> lgzp1_to_z (z_to_lgzp1 z) = z) /\ (forall x x', (x < x')%R -> (lgzp1_to_z x < lgzp1_to_z x')%R) /\ (forall x, (-1 < lgzp1_to_z x)%R) /\ lgzp1_to_z 0 = 0%R /\ lgzp1_to_z 1 = 9%R.
Proof.
  assert (L : (0 < ln 10)%R) by (rewrite <- ln_1; apply ln_increasing; lra).
  assert (P : forall x, (0 < Rpower 10 x)%R) by (intros; apply exp_pos).
  repeat split; intros; unfold z_to_lgzp1, lgzp1_to_z.
  - replace (1 + (Rpower 10 x - 1))%R with (Rpower 10 x) by ring. unfold Rpower. rewrite ln_exp. field. lra.
  - unfold Rpower. replace (ln (1 + z) / ln 10 * ln 10)%R with (ln (1 + z)) by (field; lra). rewrite exp_ln by lra. ring.
  - pose proof (Rpower_lt 10 x x' ltac:(lra) H). lra.
  - pose proof (P x). lra.
  - rewrite Rpower_O by lra. ring.
  - rewrite Rpower_1 by lra. ring.
Qed.
Print Assumptions C73_lgzp1.
(** Finding: the identical secondary axis can never be added. *)
Theorem C73_identical_refuted : forall d location ticks label hide, let o := identical fn_identical d location ticks label hide in o_res o = Err TypeError /\ o_axis o = None /\ o_parent o = [].
Proof. intros. unfold o, identical. cbn. auto. Qed.
Print Assumptions C73_identical_refuted.
(** With a pair of functions in its place the call is add_secondary_axis with the same location, ticks, label and hide_first_ticks;
    with a tuple of any other length it is a TypeError before anything is drawn. *)
Theorem C73_identical_repaired : forall d location ticks label hide,
  (forall f g, identical (VTuple [f; g]) d location ticks label hide = secondary d location ticks label hide) /\
  (forall l, length l <> 2 -> identical (VTuple l) d location ticks label hide = {| o_res := Err TypeError; o_axis := None; o_new := []; o_parent := []; o_fmt := d |}).
Proof. intros. split; [reflexivity|]. intros [|f [|g [|h l]]] L; try reflexivity. cbn in L. lia. Qed.
Print Assumptions C73_identical_repaired.
(** An axis interpolated from strictly monotone pairs: both directions pass through the pairs and undo each other at every real
    position, also beyond the data. *)
Theorem C73_interp : forall x x_new, length x = length x_new -> 2 <= length x -> climbing x -> climbing x_new \/ falling x_new ->
  exists f g : R -> R, interp_pair x x_new = Ok (fun t => Ok (f t), fun t => Ok (g t)) /\ (forall t, g (f t) = t) /\ (forall t, f (g t) = t) /\
    (forall i a b, nth_error x i = Some a -> nth_error x_new i = Some b -> f a = b /\ g b = a).
Proof.
  intros x x_new E L C C'. set (pts := combine x x_new). assert (LP : length pts = length x) by (unfold pts; rewrite combine_length, E, Nat.min_id; reflexivity).
  assert (S : sorted pts) by (unfold sorted, pts; rewrite combine_fst; assumption). assert (M : map snd pts = x_new) by (apply combine_snd; exact E).
  assert (NODE : forall i a b, nth_error x i = Some a -> nth_error x_new i = Some b -> nth_error pts i = Some (a, b)).
  { unfold pts. clear. intros i. revert x x_new. induction i as [|i IH]; intros [|u x] [|v x_new] a b Ha Hb; try discriminate; cbn in *; [congruence|apply IH; assumption]. }
  assert (SW : combine x_new x = map (fun p => (snd p, fst p)) pts) by apply combine_swap.
  set (sw := map (fun p : R * R => (snd p, fst p)) pts) in *. assert (LS : length sw = length x) by (unfold sw; rewrite map_length; exact LP).
  assert (SWSW : map (fun p : R * R => (snd p, fst p)) sw = pts) by (unfold sw; rewrite map_map; rewrite <- (map_id pts) at 2; apply map_ext; intros [u v]; reflexivity).
  assert (N : forall f g : R -> R, (forall t, g (f t) = t) -> (forall i p, nth_error pts i = Some p -> f (fst p) = snd p) -> forall i a b, nth_error x i = Some a -> nth_error x_new i = Some b -> f a = b /\ g b = a).
  { intros f g I F i a b Ha Hb. pose proof (F i (a, b) (NODE i a b Ha Hb)) as Q. cbn in Q. split; [exact Q|]. rewrite <- Q. apply I. }
  destruct C' as [C'|C'].
  - exists (pwl pts), (pwl sw). unfold interp_pair. rewrite (interp1d_sorted x x_new true E L C). rewrite (interp1d_sorted x_new x true); [|auto|lia|exact C'].
    fold pts. rewrite SW. split; [reflexivity|]. assert (SS : sorted sw) by (unfold sorted, sw; rewrite map_fst_swap, M; exact C').
    assert (I : forall t, pwl sw (pwl pts t) = t) by (intros; apply pwl_inverse; [lia|exact S|rewrite M; exact C']).
    split; [exact I|]. split; [|apply N; [exact I|intros i p Hp; apply (pwl_node pts i); [exact S|lia|exact Hp]]].
    intros t. rewrite <- SWSW at 1. apply pwl_inverse; [lia|exact SS|]. unfold sw. rewrite map_map. cbn [snd]. exact S.
  - exists (pwl pts), (pwl (rev sw)). unfold interp_pair. rewrite (interp1d_sorted x x_new true E L C). rewrite (interp1d_rev x_new x); [|auto|lia|exact C'].
    fold pts. rewrite SW. split; [reflexivity|]. assert (SS : sorted (rev sw)) by (apply rev_sorted; unfold sw; rewrite map_fst_swap, M; exact C').
    assert (I : forall t, pwl (rev sw) (pwl pts t) = t) by (intros; apply pwl_inverse_rev; [lia|exact S|rewrite M; exact C']).
    split; [exact I|]. split; [|apply N; [exact I|intros i p Hp; apply (pwl_node pts i); [exact S|lia|exact Hp]]].
    intros t. assert (R : rev (map (fun p : R * R => (snd p, fst p)) (rev sw)) = pts) by (rewrite map_rev, rev_involutive; exact SWSW). rewrite <- R.
    apply pwl_inverse_rev; [rewrite rev_length; lia|exact SS|]. rewrite map_rev. unfold sw. rewrite map_map. cbn [snd].
    change (falling (rev (map fst pts))). intros i j a b Lij Ha Hb. assert (J : j < length (map fst pts)) by (rewrite <- (rev_length (map fst pts)); apply nth_error_Some; congruence).
    rewrite nth_rev in Ha, Hb by lia. eapply S; [|exact Hb|exact Ha]. lia.
Qed.
Print Assumptions C73_interp.

Lemma combine_rev {A B} : forall (x : list A) (y : list B), length x = length y -> combine (rev x) (rev y) = rev (combine x y).
Proof.
  induction x as [|a x IH]; intros [|b y] E; try reflexivity; try discriminate E. cbn [rev combine]. cbn in E.
  assert (CA : forall (u : list A) (v : list B) u' v', length u = length v -> combine (u ++ u') (v ++ v') = combine u v ++ combine u' v').
  { induction u as [|c u IHu]; intros [|e v] u' v' Luv; try discriminate Luv; [reflexivity|]. cbn. rewrite IHu by (cbn in Luv; lia). reflexivity. }
  rewrite CA by (rewrite !rev_length; lia). rewrite IH by lia. reflexivity.
Qed.
Lemma falling_rev l : falling l -> climbing (rev l).
Proof.
  intros F i j a b Lij Ha Hb. assert (J : j < length l) by (rewrite <- (rev_length l); apply nth_error_Some; congruence).
  rewrite nth_rev in Ha, Hb by lia. eapply F; [|exact Hb|exact Ha]. lia.
Qed.
Lemma climbing_rev l : climbing l -> falling (rev l).
Proof.
  intros F i j a b Lij Ha Hb. assert (J : j < length l) by (rewrite <- (rev_length l); apply nth_error_Some; congruence).
  rewrite nth_rev in Ha, Hb by lia. eapply F; [|exact Hb|exact Ha]. lia.
Qed.
Lemma interp1d_falling x y : length x = length y -> 2 <= length x -> falling x -> interp1d x y true = interp1d (rev x) (rev y) true.
Proof.
  intros E L F. rewrite (interp1d_rev x y E L F). rewrite (interp1d_sorted (rev x) (rev y) true).
  - rewrite combine_rev by exact E. reflexivity.
  - rewrite !rev_length. exact E.
  - rewrite rev_length. exact L.
  - apply falling_rev, F.
Qed.
Lemma interp1d_either x y : length x = length y -> 2 <= length x -> climbing x \/ falling x -> interp1d (rev x) (rev y) true = interp1d x y true.
Proof.
  intros E L [C|F]; [|symmetry; apply interp1d_falling; assumption].
  rewrite (interp1d_falling (rev x) (rev y)); [rewrite !rev_involutive; reflexivity|rewrite !rev_length; exact E|rewrite rev_length; exact L|apply climbing_rev, C].
Qed.
(** The same for pairs whose positions descend. *)
Theorem C73_interp_descending : forall x x_new, length x = length x_new -> 2 <= length x -> falling x -> climbing x_new \/ falling x_new ->
  exists f g : R -> R, interp_pair x x_new = Ok (fun t => Ok (f t), fun t => Ok (g t)) /\ (forall t, g (f t) = t) /\ (forall t, f (g t) = t) /\
    (forall i a b, nth_error x i = Some a -> nth_error x_new i = Some b -> f a = b /\ g b = a).
Proof.
  intros x x_new E L F C.
  destruct (C73_interp (rev x) (rev x_new)) as (f & g & H & I1 & I2 & N).
  - rewrite !rev_length. exact E.
  - rewrite rev_length. exact L.
  - apply falling_rev, F.
  - destruct C as [C|C]; [right; apply climbing_rev, C|left; apply falling_rev, C].
  - exists f, g. split; [|split; [exact I1|split; [exact I2|]]].
    + rewrite <- H. unfold interp_pair. rewrite (interp1d_either x x_new E L (or_intror F)).
      rewrite (interp1d_either x_new x); [reflexivity|auto|lia|exact C].
    + intros i a b Ha Hb. assert (J : i < length x) by (apply nth_error_Some; congruence).
      apply (N (length x - S i)).
      * rewrite nth_rev by lia. replace (length x - S (length x - S i)) with i by lia. exact Ha.
      * rewrite nth_rev by lia. rewrite <- E. replace (length x - S (length x - S i)) with i by lia. exact Hb.
Qed.
Print Assumptions C73_interp_descending.

Lemma ins_perm p : forall l, Permutation (ins p l) (p :: l).
Proof. induction l as [|q l IH]; cbn [ins]; [reflexivity|]. destruct (Rlt_dec (fst q) (fst p)); [|reflexivity]. rewrite IH. apply perm_swap. Qed.
Lemma isort_perm : forall l, Permutation (isort l) l.
Proof. induction l as [|p l IH]; cbn [isort]; [reflexivity|]. rewrite ins_perm. constructor. exact IH. Qed.
Lemma distinct_lt : forall l p, distinct (p :: l) = true -> Forall (fun q => (fst p < fst q)%R) l /\ distinct l = true.
Proof.
  induction l as [|q l IH]; intros p H; [split; [constructor|reflexivity]|]. cbn [distinct] in H. apply andb_prop in H. destruct H as [H1 H2].
  destruct (Rlt_dec (fst p) (fst q)) as [Lt|]; [|discriminate]. split; [|exact H2]. constructor; [exact Lt|].
  destruct (IH q H2) as [G _]. rewrite Forall_forall in G |- *. intros r Hr. specialize (G r Hr). lra.
Qed.
Lemma distinct_nodup : forall l, distinct l = true -> NoDup (map fst l).
Proof.
  induction l as [|p l IH]; intros H; [constructor|]. destruct (distinct_lt l p H) as [F D]. cbn [map]. constructor; [|apply IH, D].
  intros Hin. apply in_map_iff in Hin. destruct Hin as (q & Eq & Hq). rewrite Forall_forall in F. specialize (F q Hq). lra.
Qed.
Lemma interp1d_cases x y : interp1d x y true = Err ValueError \/
  (length x = length y /\ 2 <= length x /\ NoDup x /\ exists f, interp1d x y true = Ok f).
Proof.
  unfold interp1d. destruct (Nat.eqb_spec (length x) (length y)) as [E|E]; cbn [negb]; [|left; reflexivity].
  destruct (Nat.ltb_spec (length (isort (combine x y))) 2) as [L|L]; [left; reflexivity|].
  destruct (distinct (isort (combine x y))) eqn:D; cbn [negb]; [|left; reflexivity]. right.
  pose proof (isort_perm (combine x y)) as P. split; [exact E|]. split.
  - rewrite (Permutation_length P), combine_length, E, Nat.min_id in L. lia.
  - split; [|eexists; reflexivity]. apply distinct_nodup in D. apply (Permutation_map fst) in P. apply (Permutation_NoDup P) in D.
    rewrite combine_fst in D by exact E. exact D.
Qed.
(** What is refused: unequal lengths, fewer than two pairs, a position that occurs twice on either axis; always a ValueError. *)
Theorem C73_interp_refused : forall x x_new,
  (length x <> length x_new \/ length x < 2 \/ ~ NoDup x \/ ~ NoDup x_new -> interp_pair x x_new = Err ValueError) /\
  (forall e, interp_pair x x_new = Err e -> e = ValueError).
Proof.
  intros x x_new. unfold interp_pair.
  destruct (interp1d_cases x x_new) as [->|(E & L & N & f & ->)]; cbn [bind]; [split; [reflexivity|intros e [= <-]; reflexivity]|].
  destruct (interp1d_cases x_new x) as [->|(E' & L' & N' & g & ->)]; cbn [bind]; [split; [reflexivity|intros e [= <-]; reflexivity]|].
  split; [|discriminate]. intros [H|[H|[H|H]]]; exfalso; [exact (H E)|lia|exact (H N)|exact (H N')].
Qed.
Print Assumptions C73_interp_refused.
(** The polygon runs along the first curve and back along the second.  (Finding: only the total lengths are compared, so curves
    given with swapped lengths are filled from mismatched coordinates.) *)
Theorem C73_band : forall (A : Type) (x1 y1 x2 y2 : list A),
  (length x1 = length y1 -> length x2 = length y2 -> band x1 y1 x2 y2 = Ok (combine x1 y1 ++ rev (combine x2 y2))) /\
  (band x1 y1 x2 y2 = Err ValueError <-> length x1 + length x2 <> length y1 + length y2) /\
  (length x1 + length x2 = length y1 + length y2 -> exists v, band x1 y1 x2 y2 = Ok v).
Proof.
  assert (CR : forall A (x y : list A), length x = length y -> combine (rev x) (rev y) = rev (combine x y)).
  { intros A. induction x as [|a x IH]; intros [|b y] E; try reflexivity; try discriminate E. cbn [rev combine]. cbn in E.
    assert (CA : forall (u v : list A) u' v', length u = length v -> combine (u ++ u') (v ++ v') = combine u v ++ combine u' v') by (induction u as [|c u IHu]; intros [|e v] u' v' Luv; try discriminate Luv; [reflexivity|cbn; rewrite IHu by (cbn in Luv; lia); reflexivity]).
    rewrite CA by (rewrite !rev_length; lia). rewrite IH by lia. reflexivity. }
  intros A x1 y1 x2 y2. unfold band. cbv zeta. rewrite !app_length, !rev_length. split; [|split].
  - intros E1 E2. rewrite E1, E2, Nat.eqb_refl. f_equal. rewrite <- CR by exact E2.
    clear E2. revert y1 E1. induction x1 as [|a x1 IH]; intros [|b y1] E1; try discriminate E1; [reflexivity|]. cbn in *. rewrite IH by lia. reflexivity.
  - destruct (Nat.eqb_spec (length x1 + length x2) (length y1 + length y2)); split; intros; try discriminate; try congruence; reflexivity.
  - intros E. rewrite E, Nat.eqb_refl. eauto.
Qed.
Print Assumptions C73_band.
Theorem C73_band_mismatch_refuted : exists x1 y1 x2 y2 : list nat, length x1 <> length y1 /\ band x1 y1 x2 y2 = Ok [(1, 4); (2, 5); (3, 6)].
Proof. exists [1; 2], [4], [3], [6; 5]. cbn. split; [lia|reflexivity]. Qed.
Print Assumptions C73_band_mismatch_refuted.

Example C73_cases : on_x "top" /\ climbing [0; 1; 3]%R /\ falling [5; 4; 1]%R.
Proof.
  split; [left; reflexivity|]. split; intros i j a b L Ha Hb.
  - destruct i as [|[|[|i]]]; destruct j as [|[|[|j]]]; cbn in Ha, Hb; try lia; try discriminate; try (destruct j; discriminate); injection Ha as <-; injection Hb as <-; lra.
  - destruct i as [|[|[|i]]]; destruct j as [|[|[|j]]]; cbn in Ha, Hb; try lia; try discriminate; try (destruct j; discriminate); injection Ha as <-; injection Hb as <-; lra.
Qed.
