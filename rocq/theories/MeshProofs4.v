From Coq Require Import QArith Qround Qabs Qminmax Permutation Lqa Lia.
From Verif Require Import Base OrderSpec BinSpec BinProofs BinProofs2 BinProofs3 BinProofs4 MeshSpec ProcModel ProcProofs MeshModel MeshProofs MeshProofs2 MeshProofs3.
Local Open Scope list_scope. Local Open Scope nat_scope.

Lemma x2xi_between m x z : (0 < l_grid m)%Q -> (inject_Z z * l_grid m <= x)%Q -> (x < (inject_Z z + 1) * l_grid m)%Q -> x2xi m x = z.
Proof.
  intros H A B. assert (z <= x2xi m x)%Z by (apply (x2xi_spec m x z H); exact A).
  assert (x2xi m x < z + 1)%Z by (apply (x2xi_spec2 m x (z + 1) H); rewrite inject_Z_plus; exact B). lia.
Qed.
Lemma interval_cell m y i : (0 < n_grids m)%Z -> (0 < l_box m)%Q -> (0 <= i < n_grids m)%Z ->
  ((x2xi m y mod n_grids m = i)%Z <-> in_interval (l_box m) (l_grid m) y i).
Proof.
  intros Hn Hl Hi. pose proof (l_grid_pos m Hn Hl) as Hg. split.
  - intros E. exists (- (x2xi m y / n_grids m))%Z. pose proof (x2xi_shift m y (- (x2xi m y / n_grids m)) Hn Hl) as X.
    pose proof (Z.div_mod (x2xi m y) (n_grids m) ltac:(lia)) as D. assert (XE : x2xi m (y + inject_Z (- (x2xi m y / n_grids m)) * l_box m) = i) by nia.
    split; [apply (x2xi_spec m _ i Hg); lia|]. assert (x2xi m (y + inject_Z (- (x2xi m y / n_grids m)) * l_box m) < i + 1)%Z as U by lia.
    apply (x2xi_spec2 m _ (i + 1) Hg) in U. rewrite inject_Z_plus in U. exact U.
  - intros (k & A & B). pose proof (x2xi_between m _ i Hg A B) as E. rewrite x2xi_shift in E by assumption.
    pose proof (Z.div_mod (x2xi m y) (n_grids m) ltac:(lia)). pose proof (Z.mod_pos_bound (x2xi m y) (n_grids m) Hn).
    assert (x2xi m y / n_grids m + k = 0)%Z by nia. nia.
Qed.
Lemma cell_in_cell m y c : (0 < n_grids m)%Z -> (0 < l_box m)%Q -> (let '(i0, i1, i2) := c in (0 <= i0 < n_grids m)%Z /\ (0 <= i1 < n_grids m)%Z /\ (0 <= i2 < n_grids m)%Z) ->
  (let '(i0, i1, i2) := c in x2xi_f m y = flat (n_grids m) i0 i1 i2) <-> in_cell (l_box m) (l_grid m) y c.
Proof.
  intros Hn Hl. destruct c as [[i0 i1] i2], y as [[y0 y1] y2]. intros (H0 & H1 & H2). unfold x2xi_f, in_cell.
  rewrite <- !(interval_cell m) by assumption. split.
  - intros E. apply flat_inj in E; try apply Z.mod_pos_bound; assumption.
  - intros (-> & -> & ->). reflexivity.
Qed.
Lemma nearest_spec m x : (0 < n_grids m)%Z -> (0 < l_box m)%Q -> (0 <= x_to_xi m x < n_grids m)%Z /\
  forall i, (0 <= i < n_grids m)%Z -> (x_to_xi m x = i <-> nearest (l_box m) (l_grid m) x i).
Proof.
  intros Hn Hl. pose proof (x_to_xi_spec m x Hn Hl) as [R (k & A & B)]. split; [exact R|]. intros i Hi. split.
  - intros <-. exists k. auto.
  - intros (k' & A' & B'). apply (x_to_xi_unique m x i k' Hn Hl Hi A' B').
Qed.
Definition wf_field (f : dfield) : Prop := (0 < n_grids (df_mesh f))%Z /\ (0 < l_box (df_mesh f))%Q /\
  length (df_data f) = Z.to_nat (n_grids (df_mesh f) * n_grids (df_mesh f) * n_grids (df_mesh f)).
Lemma df_add_spec f xs ws : match df_add f xs ws with
  | Ok f' => match ws with Some w => length xs = length w | None => True end /\ df_mesh f' = df_mesh f /\ length (df_data f') = length (df_data f) /\
      df_data f' = fold_left (fun d p => add_1 (df_mesh f) d (fst p) (snd p)) (particles xs ws) (df_data f)
  | Err e => e = AssertionError /\ exists w, ws = Some w /\ length xs <> length w
  end.
Proof.
  unfold df_add. destruct ws as [w|].
  - destruct (Nat.eqb_spec (length xs) (length w)) as [L|L]; [|split; [reflexivity|exists w; auto]]. simpl. repeat split; auto; [apply fold_add_1_len].
  - simpl. split; [exact I|]. split; [reflexivity|]. split.
    + change (length (lin_add (df_mesh f) (df_data f) xs None) = length (df_data f)). rewrite lin_add_points. apply fold_add_1_len.
    + change (lin_add (df_mesh f) (df_data f) xs None = fold_left (fun d p => add_1 (df_mesh f) d (fst p) (snd p)) (points xs None) (df_data f)). apply lin_add_points.
Qed.
Lemma df_add_wf f xs ws f' : wf_field f -> df_add f xs ws = Ok f' -> wf_field f'.
Proof.
  intros (H1 & H2 & H3) E. pose proof (df_add_spec f xs ws) as S. rewrite E in S. destruct S as (_ & M & L & _). unfold wf_field. rewrite M, L. auto.
Qed.
Lemma df_add_total f xs ws f' : wf_field f -> df_add f xs ws = Ok f' -> (Qsum (df_data f') == Qsum (df_data f) + Qsum (map snd (particles xs ws)))%Q.
Proof.
  intros (H1 & H2 & H3) E. pose proof (df_add_spec f xs ws) as S. rewrite E in S. destruct S as (_ & M & L & D). rewrite D.
  change (particles xs ws) with (points xs ws). rewrite <- lin_add_points. apply lin_add_sum; assumption.
Qed.
Lemma df_add_cell f xs ws f' i j k v : wf_field f -> df_add f xs ws = Ok f' -> (0 <= i < n_grids (df_mesh f))%Z -> (0 <= j < n_grids (df_mesh f))%Z -> (0 <= k < n_grids (df_mesh f))%Z ->
  (forall p, In p (particles xs ws) -> in_box (l_box (df_mesh f)) (fst p)) ->
  at3 (n_grids (df_mesh f)) (df_data f) i j k = Some v ->
  exists v', at3 (n_grids (df_mesh f)) (df_data f') i j k = Some v' /\
    (v' == v + Qsum (map (fun p => snd p * cloud3 (n_grids (df_mesh f)) (l_grid (df_mesh f)) (fst p) i j k) (particles xs ws)))%Q.
Proof.
  intros (H1 & H2 & H3) E Hi Hj Hk B V. pose proof (df_add_spec f xs ws) as S. rewrite E in S. destruct S as (_ & M & L & D).
  unfold at3 in *. rewrite D. destruct (fold_add_1_nth (df_mesh f) (particles xs ws) (df_data f) _ v H1 V) as (v' & N & Ev).
  exists v'. split; [exact N|]. rewrite Ev. apply Qplus_comp; [reflexivity|]. clear -H1 H2 Hi Hj Hk B. pose proof (flat_range _ _ _ _ Hi Hj Hk) as R. unfold flat in R.
  induction (particles xs ws) as [|[[[x0 x1] x2] w] ps IH]; [reflexivity|]. cbn [map Qsum]. 
  change (Qsum (?a :: ?b)) with (a + Qsum b)%Q. rewrite IH by (intros p Hp; apply B; right; exact Hp). apply Qplus_comp; [|reflexivity]. cbn [fst snd].
  apply Qmult_comp; [reflexivity|]. rewrite Z2Nat.id by lia. fold (flat (n_grids (df_mesh f)) i j k). rewrite deposit_shares by assumption.
  destruct (B _ (or_introl eq_refl)) as ((A1 & A2) & (A3 & A4) & (A5 & A6)). unfold cloud3. rewrite !share_cloud by assumption. reflexivity.
Qed.
Lemma Qsum_map_perm {A} (f : A -> Q) l l' : Permutation l l' -> (Qsum (map f l) == Qsum (map f l'))%Q.
Proof.
  intros P. induction P; cbn [map]; try reflexivity.
  - change (f x + Qsum (map f l) == f x + Qsum (map f l'))%Q. rewrite IHP. reflexivity.
  - change (f y + (f x + Qsum (map f l)) == f x + (f y + Qsum (map f l)))%Q. ring.
  - rewrite IHP1. exact IHP2.
Qed.
Lemma Forall2_nth_Qeq a b : length a = length b -> (forall i u, nth_error a i = Some u -> exists w, nth_error b i = Some w /\ (u == w)%Q) -> Qeql a b.
Proof.
  revert b. induction a as [|x a IH]; intros [|y b] L H; try discriminate; [constructor|]. constructor.
  - destruct (H 0 x eq_refl) as (w & E & K). simpl in E. injection E as <-. exact K.
  - apply IH; [simpl in L; lia|]. intros i u Hu. exact (H (S i) u Hu).
Qed.
Lemma fold_same m ps ps' d : (0 < n_grids m)%Z -> (forall c, (Qsum (map (fun p => snd p * deposit m (fst p) c) ps) == Qsum (map (fun p => snd p * deposit m (fst p) c) ps'))%Q) ->
  Qeql (fold_left (fun d p => add_1 m d (fst p) (snd p)) ps d) (fold_left (fun d p => add_1 m d (fst p) (snd p)) ps' d).
Proof.
  intros Hn H. apply Forall2_nth_Qeq; [rewrite !fold_add_1_len; reflexivity|]. intros i u Hu.
  assert (Hi : i < length d). { rewrite <- (fold_add_1_len m ps d). apply nth_error_Some. congruence. }
  destruct (nth_error d i) as [v|] eqn:V; [|apply nth_error_None in V; lia].
  destruct (fold_add_1_nth m ps d i v Hn V) as (u1 & E1 & Q1). destruct (fold_add_1_nth m ps' d i v Hn V) as (u2 & E2 & Q2).
  exists u2. split; [exact E2|]. assert (u = u1) by congruence. subst u1. rewrite Q1, Q2, H. reflexivity.
Qed.
(** Moving every particle by whole periods, and reordering. *)
Lemma df_add_perm f xs ws xs' ws' f1 f2 : wf_field f -> df_add f xs ws = Ok f1 -> df_add f xs' ws' = Ok f2 -> Permutation (particles xs ws) (particles xs' ws') ->
  Qeql (df_data f1) (df_data f2).
Proof.
  intros (H1 & _) E1 E2 P. pose proof (df_add_spec f xs ws) as S1. pose proof (df_add_spec f xs' ws') as S2. rewrite E1 in S1. rewrite E2 in S2.
  destruct S1 as (_ & _ & _ & ->). destruct S2 as (_ & _ & _ & ->). apply fold_same; [exact H1|]. intros c. apply Qsum_map_perm. exact P.
Qed.
Lemma df_add_shift f xs ws ks f1 f2 : wf_field f -> length ks = length xs -> df_add f xs ws = Ok f1 ->
  df_add f (map (fun p => image (l_box (df_mesh f)) (fst p) (snd p)) (combine xs ks)) ws = Ok f2 -> Qeql (df_data f1) (df_data f2).
Proof.
  intros (H1 & H2 & _) L E1 E2. pose proof (df_add_spec f xs ws) as S1. pose proof (df_add_spec f (map (fun p => image (l_box (df_mesh f)) (fst p) (snd p)) (combine xs ks)) ws) as S2.
  rewrite E1 in S1. rewrite E2 in S2. destruct S1 as (_ & _ & _ & ->). destruct S2 as (_ & _ & _ & ->). apply fold_same; [exact H1|]. intros c. clear E1 E2. destruct ws as [w|]; simpl.
  - revert ks w L. induction xs as [|x xs IH]; intros [|k ks] [|wt w] L; try discriminate; try reflexivity. cbn [combine map fst snd].
    change (Qsum (?a :: ?b)) with (a + Qsum b)%Q. rewrite (IH ks w) by (simpl in L; lia). rewrite deposit_shift by assumption. reflexivity.
  - rewrite !map_map. revert ks L. induction xs as [|x xs IH]; intros [|k ks] L; try discriminate; try reflexivity. cbn [combine map fst snd].
    change (Qsum (?a :: ?b)) with (a + Qsum b)%Q. rewrite (IH ks) by (simpl in L; lia). rewrite deposit_shift by assumption. reflexivity.
Qed.
Lemma df_add_nonneg f xs ws f' : wf_field f -> df_add f xs ws = Ok f' -> (forall p, In p (particles xs ws) -> (0 <= snd p)%Q) ->
  Forall2 Qle (df_data f) (df_data f').
Proof.
  intros (H1 & _ & _) E P. pose proof (df_add_spec f xs ws) as S. rewrite E in S. destruct S as (_ & M & L & D).
  assert (G : forall i v, nth_error (df_data f) i = Some v -> exists v', nth_error (df_data f') i = Some v' /\ (v <= v')%Q).
  { intros i v V. rewrite D. destruct (fold_add_1_nth (df_mesh f) (particles xs ws) (df_data f) i v H1 V) as (v' & N & Ev). exists v'. split; [exact N|]. rewrite Ev.
    assert (0 <= Qsum (map (fun p => snd p * deposit (df_mesh f) (fst p) (Z.of_nat i)) (particles xs ws)))%Q; [|lra].
    clear -P H1. induction (particles xs ws) as [|p ps IH]; [apply Qle_refl|]. change (0 <= snd p * deposit (df_mesh f) (fst p) (Z.of_nat i) + Qsum (map (fun p => snd p * deposit (df_mesh f) (fst p) (Z.of_nat i)) ps))%Q.
    specialize (IH (fun q Hq => P q (or_intror Hq))). pose proof (Qmult_le_0_compat _ _ (P p (or_introl eq_refl)) (deposit_nonneg (df_mesh f) (fst p) (Z.of_nat i) H1)). lra. }
  clear -G L. revert L G. generalize (df_data f'). induction (df_data f) as [|x a IH]; intros [|y b] L G; try discriminate; [constructor|]. constructor.
  - destruct (G 0 x eq_refl) as (v' & E & K). simpl in E. injection E as <-. exact K.
  - apply IH; [simpl in L; lia|]. intros i v V. exact (G (S i) v V).
Qed.
(** Interpolation is the adjoint of the deposit of one unit particle. *)
Lemma value_adjoint m d x f' : (0 < n_grids m)%Z -> (0 < l_box m)%Q -> length d = Z.to_nat (n_grids m * n_grids m * n_grids m) ->
  df_add (df_new (l_box m) (n_grids m)) [x] None = Ok f' -> (value_at m d x == Qsum (map (fun p => fst p * snd p) (combine d (df_data f'))))%Q.
Proof.
  intros Hn Hl Ld E. rewrite value_deposit by assumption. pose proof (df_add_spec (df_new (l_box m) (n_grids m)) [x] None) as S. rewrite E in S. destruct S as (_ & M & L & D).
  unfold df_new in D, L, M. cbn [df_mesh df_data] in *. rewrite repeat_length in L.
  assert (Em : {| n_grids := n_grids m; l_box := l_box m |} = m) by (destruct m; reflexivity). rewrite Em in *.
  assert (G : forall c, c < length d -> exists w, nth_error (df_data f') c = Some w /\ (w == deposit m x (Z.of_nat c))%Q).
  { intros c Hc. rewrite D. destruct (fold_add_1_nth m (particles [x] None) (repeat 0%Q (Z.to_nat (n_grids m * n_grids m * n_grids m))) c 0%Q Hn) as (w & N & Ew).
    - apply nth_error_repeat. lia.
    - exists w. split; [exact N|]. rewrite Ew. simpl. ring. }
  assert (L2 : length (df_data f') = length d) by lia. clear -G L2.
  assert (K : forall s d b, length b = length d -> (forall c, c < length d -> exists w, nth_error b c = Some w /\ (w == deposit m x (Z.of_nat (s + c)))%Q) ->
     (Qsum (map (fun c => nth (c - s) d 0 * deposit m x (Z.of_nat c)) (seq s (length d))) == Qsum (map (fun p => fst p * snd p) (combine d b)))%Q).
  { clear. intros s d. revert s. induction d as [|v d IH]; intros s [|w b] L G; try discriminate; [reflexivity|]. cbn [length seq map combine fst snd].
    change (Qsum (?a :: ?b)) with (a + Qsum b)%Q. apply Qplus_comp.
    - destruct (G 0 ltac:(simpl; lia)) as (w' & E & K). simpl in E. injection E as <-. rewrite K, Nat.add_0_r, Nat.sub_diag. reflexivity.
    - rewrite <- (IH (S s) b); [|simpl in L; lia|].
      + apply Qsum_ext. intros c Hc. apply in_seq in Hc. replace (c - s) with (S (c - S s)) by lia. reflexivity.
      + intros c Hc. destruct (G (S c) ltac:(simpl; lia)) as (w' & E & K). exists w'. split; [exact E|]. rewrite K. replace (s + S c) with (S s + c) by lia. reflexivity. }
  specialize (K 0 d (df_data f') L2 G). rewrite <- K. apply Qsum_ext. intros c _. rewrite Nat.sub_0_r. reflexivity.
Qed.
(** Joining dumps of partial fields. *)
Lemma join_parts l n parts : (0 < n)%Z -> (0 < l)%Q -> parts <> [] -> (forall p, In p parts -> match snd p with Some w => length (fst p) = length w | None => True end) ->
  forall fs, mapM (fun p => df_add (df_new l n) (fst p) (snd p)) parts = Ok fs ->
  exists out, join_dumps fs = Ok out /\ df_mesh out = {| n_grids := n; l_box := l |} /\
    Qeql (df_data out) (fold_left (fun d p => add_1 {| n_grids := n; l_box := l |} d (fst p) (snd p)) (flat_map (fun p => particles (fst p) (snd p)) parts) (df_data (df_new l n))).
Proof.
  intros Hn Hl NE W fs E. set (m := {| n_grids := n; l_box := l |}). set (N := Z.to_nat (n * n * n)).
  assert (F : Forall2 (fun p f => df_mesh f = m /\ length (df_data f) = N /\ forall c, c < N -> exists v, nth_error (df_data f) c = Some v /\
     (v == Qsum (map (fun q => snd q * deposit m (fst q) (Z.of_nat c)) (particles (fst p) (snd p))))%Q) parts fs).
  { clear NE W. revert fs E. induction parts as [|p parts IH]; intros fs E; simpl in E; [apply Ok_inj in E; subst; constructor|].
    destruct (df_add (df_new l n) (fst p) (snd p)) as [f|] eqn:A; [|discriminate]. simpl in E.
    destruct (mapM (fun p => df_add (df_new l n) (fst p) (snd p)) parts) as [fs'|] eqn:B; [|discriminate]. simpl in E. apply Ok_inj in E. subst fs. constructor; [|apply IH; reflexivity].
    pose proof (df_add_spec (df_new l n) (fst p) (snd p)) as S. rewrite A in S. destruct S as (_ & M & L & D). split; [exact M|].
    change (df_data (df_new l n)) with (repeat 0%Q N) in L, D. rewrite repeat_length in L. split; [exact L|]. intros c Hc. rewrite D. change (df_mesh (df_new l n)) with m.
    destruct (fold_add_1_nth m (particles (fst p) (snd p)) (repeat 0%Q N) c 0%Q Hn) as (v & Nv & Ev); [apply nth_error_repeat; exact Hc|].
    exists v. split; [exact Nv|]. rewrite Ev. ring. }
  destruct F as [|p f parts fs (M & L & D) F]; [contradiction|]. unfold join_dumps.
  destruct (join_rest_spec fs (df_data f)) as (out & J & Lo & O).
  { intros g Hg. apply In_nth_error in Hg. destruct Hg as (i & Hg). rewrite L. clear -F Hg. revert i Hg. induction F as [|q h ps hs (_ & Lh & _) F IH]; intros [|i] Hg; try discriminate; simpl in Hg.
    - injection Hg as <-. exact Lh.
    - exact (IH i Hg). }
  rewrite J. simpl. exists {| df_mesh := df_mesh f; df_data := out |}. split; [reflexivity|]. split; [exact M|]. cbn [df_data].
  apply Forall2_nth_Qeq; [rewrite fold_add_1_len, Lo, L; change (df_data (df_new l n)) with (repeat 0%Q N); rewrite repeat_length; reflexivity|].
  intros c u Hu. assert (Hc : c < N) by (rewrite <- L, <- Lo; apply nth_error_Some; congruence).
  destruct (D c Hc) as (v & Nv & Ev). destruct (O c v Nv) as (u' & Nu & Eu). assert (u' = u) by congruence. subst u'.
  change (particles (fst p) (snd p) ++ flat_map (fun p => particles (fst p) (snd p)) parts) with (flat_map (fun p => particles (fst p) (snd p)) (p :: parts)).
  destruct (fold_add_1_nth m (flat_map (fun p => particles (fst p) (snd p)) (p :: parts)) (df_data (df_new l n)) c 0%Q Hn) as (w & Nw & Ew); [apply nth_error_repeat; exact Hc|].
  exists w. split; [exact Nw|]. rewrite Eu, Ev, Ew. cbn [flat_map]. rewrite map_app, Qsum_app.
  assert (R : (Qsum (map (fun g => nth c (df_data g) 0%Q) fs) == Qsum (map (fun q => snd q * deposit m (fst q) (Z.of_nat c)) (flat_map (fun p => particles (fst p) (snd p)) parts)))%Q).
  { clear -F Hc. induction F as [|q h ps hs (_ & _ & Dh) F IH]; [reflexivity|]. cbn [map flat_map]. change (Qsum (?a :: ?b)) with (a + Qsum b)%Q. rewrite map_app, Qsum_app, IH.
    destruct (Dh c Hc) as (v & Nv & Ev). rewrite (nth_error_nth _ _ _ Nv), Ev. reflexivity. }
  rewrite R. ring.
Qed.
