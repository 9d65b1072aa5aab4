From Coq Require Import QArith Lqa Lia.
From Verif Require Import Base OrderSpec BinSpec BinModel BinProofs BinProofs2 BinProofs3 BinProofs4 ReduModel DensSpec DensModel.
Local Open Scope list_scope. Local Open Scope nat_scope.

Lemma last_ge (e : list Q) j a : ascending Qltb e -> nth_error e j = Some a -> (a <= last e 0)%Q.
Proof.
  intros A N. assert (e <> []) by (intros ->; destruct j; discriminate).
  pose proof (last_nth_error e 0%Q H) as L. assert (j < length e) by (apply nth_error_Some; congruence).
  destruct (Nat.eq_dec j (length e - 1)) as [->|]; [assert (a = last e 0%Q) by congruence; subst; lra|].
  apply Qltb_ge. apply (A j (length e - 1) a (last e 0%Q)); auto; lia.
Qed.
Lemma ss_fin e q j a : ascending Qltb e -> nth_error e j = Some a ->
  (j < searchsorted_right np_lt (map Fin e) (Fin q) <-> (a <= q)%Q).
Proof.
  intros A N. pose proof (ss_index np_lt (map Fin e) (Fin q) np_weak_order (asc_map_Fin e A)) as [_ H].
  specialize (H j (Fin a)). rewrite nth_error_map, N in H. specialize (H eq_refl). unfold bs_locate in H. cbn in H.
  rewrite Qltb_ge in H. rewrite <- H. lia.
Qed.
(** bin_count and the closed-right bin *)
Lemma bin_count_side e i x : ascending Qltb e -> S i < length e -> (bin_count e x = S i <-> in_side e i x = true).
Proof.
  intros A L.
  assert (LE : searchsorted_right np_lt (map Fin e) x <= length e) by (rewrite <- (map_length Fin e); apply ss_le).
  destruct x as [q| | |]; cbn [in_side]; unfold bin_count; cbn [num_eqb].
  - destruct (nth_error e i) as [lo|] eqn:Ni; [|apply nth_error_None in Ni; lia].
    destruct (nth_error e (S i)) as [hi|] eqn:Nj; [|apply nth_error_None in Nj; lia].
    assert (NE : e <> []) by (intros ->; cbn in L; lia).
    pose proof (last_nth_error e 0%Q NE) as NL.
    pose proof (ss_fin e q i lo A Ni) as Hi. pose proof (ss_fin e q (S i) hi A Nj) as Hj. pose proof (ss_fin e q _ _ A NL) as HL.
    pose proof (last_ge e _ _ A Ni). pose proof (last_ge e _ _ A Nj).
    unfold in_window. rewrite Ni, Nj, Bool.andb_true_iff, Bool.orb_true_iff, Bool.andb_true_iff, !Qle_bool_iff, Qltb_lt, Nat.eqb_eq.
    destruct (Qeq_bool q (last e 0%Q)) eqn:E.
    + apply Qeq_bool_iff in E. assert (length e - 1 < searchsorted_right np_lt (map Fin e) (Fin q)) by (apply HL; rewrite E; lra).
      split.
      * intro C. split; [apply Hi; lia|]. right. split; [lia|]. assert (S i = length e - 1) as Q1 by lia. rewrite Q1 in Nj.
        assert (hi = last e 0%Q) by congruence. subst. lra.
      * intros [C [C2|[C2 C3]]]; [lra|]. lia.
    + assert (~ (q == last e 0)%Q) by (intro X; apply Qeq_bool_iff in X; congruence).
      split.
      * intro C. split; [apply Hi; lia|]. left. apply Qnot_le_lt. intro X. apply Hj in X. lia.
      * intros [C C2]. apply Hi in C. assert (q < hi)%Q.
        { destruct C2 as [|[C2 C3]]; [assumption|]. assert (S i = length e - 1) as Q1 by lia. rewrite Q1 in Nj.
          assert (hi = last e 0%Q) by congruence. subst. apply Qnot_le_lt. intro X. apply H1. lra. }
        assert (~ S i < searchsorted_right np_lt (map Fin e) (Fin q)) by (intro X; apply Hj in X; lra). lia.
  - assert (searchsorted_right np_lt (map Fin e) PInf = length e) as ->.
    { clear. induction e as [|a e IH]; cbn; [reflexivity|]. now rewrite IH. }
    split; [lia|discriminate].
  - assert (searchsorted_right np_lt (map Fin e) NInf = 0) as -> by (destruct e; reflexivity). split; [lia|discriminate].
  - assert (searchsorted_right np_lt (map Fin e) NaN = length e) as ->.
    { clear. induction e as [|a e IH]; cbn; [reflexivity|]. now rewrite IH. }
    split; [lia|discriminate].
Qed.
Lemma bin_count_within e x : ascending Qltb e -> 2 <= length e -> (within e x = true <-> exists i, S i < length e /\ bin_count e x = S i).
Proof.
  intros A L.
  assert (LE : searchsorted_right np_lt (map Fin e) x <= length e) by (rewrite <- (map_length Fin e); apply ss_le).
  split.
  - destruct x as [q| | |]; try discriminate. cbn [within]. rewrite Bool.andb_true_iff, !Qle_bool_iff. intros [H1 H2].
    assert (NE : e <> []) by (intros ->; cbn in L; lia).
    pose proof (last_nth_error e 0%Q NE) as NL. pose proof (ss_fin e q _ _ A NL) as HL.
    assert (N0 : nth_error e 0 = Some (nth 0 e 0%Q)) by (apply nth_error_nth'; lia). pose proof (ss_fin e q _ _ A N0) as H0.
    apply H0 in H1. unfold bin_count. cbn [num_eqb]. destruct (Qeq_bool q (last e 0%Q)) eqn:E.
    + apply Qeq_bool_iff in E. assert (length e - 1 < searchsorted_right np_lt (map Fin e) (Fin q)) by (apply HL; rewrite E; lra).
      exists (length e - 2). lia.
    + assert (~ (q == last e 0)%Q) by (intro X; apply Qeq_bool_iff in X; congruence).
      assert (~ length e - 1 < searchsorted_right np_lt (map Fin e) (Fin q)) by (intro X; apply HL in X; lra).
      exists (searchsorted_right np_lt (map Fin e) (Fin q) - 1). lia.
  - intros (i & Li & C). apply (bin_count_side e i x A Li) in C. destruct x as [q| | |]; try discriminate. cbn [in_side within] in *.
    destruct (nth_error e i) as [lo|] eqn:Ni; [|apply nth_error_None in Ni; lia].
    destruct (nth_error e (S i)) as [hi|] eqn:Nj; [|apply nth_error_None in Nj; lia].
    unfold in_window in C. rewrite Ni, Nj, Bool.andb_true_iff, Bool.orb_true_iff, Bool.andb_true_iff, !Qle_bool_iff, Qltb_lt, Nat.eqb_eq in C.
    pose proof (last_ge e _ _ A Nj). rewrite Bool.andb_true_iff, !Qle_bool_iff.
    assert (nth 0 e 0 <= lo)%Q.
    { destruct i; [apply nth_error_nth with (d := 0%Q) in Ni; rewrite Ni; lra|].
      apply Qltb_ge. apply (A 0 (S i)); auto; [lia|]. apply nth_error_nth'. lia. }
    destruct C as [C [C2|[C2 C3]]]; split; lra.
Qed.
(** the cells *)
Lemma cells_spec gs idx : In idx (cells gs) <-> is_cell gs idx.
Proof.
  revert idx. induction gs as [|g gs IH]; intro idx; cbn [cells].
  - split; [intros [<-|[]]; constructor|]. intro H. inversion H. now left.
  - rewrite in_flat_map. split.
    + intros (i & Hi & H). apply in_map_iff in H as (t & <- & Ht). apply in_seq in Hi. constructor; [lia|]. now apply IH.
    + intro H. inversion H as [|i ? idx' ? Li F]; subst. exists i. split; [apply in_seq; lia|]. apply in_map. now apply IH.
Qed.
Lemma NoDup_app_ {A} (l l' : list A) : NoDup l -> NoDup l' -> (forall a, In a l -> ~ In a l') -> NoDup (l ++ l').
Proof.
  intros N N' D. induction N as [|a l Na N IH]; cbn; [assumption|]. constructor.
  - rewrite in_app_iff. intros [|]; [contradiction|]. now apply (D a); [left|].
  - apply IH. intros b Hb. apply D. now right.
Qed.
Lemma cells_NoDup gs : NoDup (cells gs).
Proof.
  induction gs as [|g gs IH]; cbn [cells]; [repeat constructor; tauto|].
  generalize (seq_NoDup (length g - 1) 0). generalize (seq 0 (length g - 1)) as l. induction 1 as [|i l Ni N IHl]; cbn; [constructor|].
  apply NoDup_app_; [|assumption|].
  - apply FinFun.Injective_map_NoDup; [|assumption]. intros x y E. congruence.
  - intros a Ha Hb. apply in_map_iff in Ha as (t & <- & _). apply in_flat_map in Hb as (j & Hj & Hb). apply in_map_iff in Hb as (t' & E & _). congruence.
Qed.
(** counts *)
Lemma bincount_gen gs s h j : (fold_left (fun h p => bump h (zipwith bin_count gs (fst p)) (snd p)) s h j
  == h j + weight_where (fun x => if list_eq_dec Nat.eq_dec j (zipwith bin_count gs x) then true else false) s)%Q.
Proof.
  revert h. induction s as [|[x w] s IH]; intro h; cbn [fold_left]; [unfold weight_where; cbn; lra|].
  rewrite IH. unfold weight_where, bump. cbn [filter fst snd]. destruct (list_eq_dec Nat.eq_dec j (zipwith bin_count gs x)); cbn [map Qsum snd]; lra.
Qed.
Lemma bincount_spec gs s j : (bincount gs s j
  == weight_where (fun x => if list_eq_dec Nat.eq_dec j (zipwith bin_count gs x) then true else false) s)%Q.
Proof. unfold bincount. rewrite bincount_gen. lra. Qed.
Lemma weight_where_ext {X} (f g : X -> bool) s : (forall p, In p s -> f (fst p) = g (fst p)) -> weight_where f s = weight_where g s.
Proof. intro H. unfold weight_where. f_equal. f_equal. apply filter_ext_in2. exact H. Qed.
Definition asc_grid (gs : list (list Q)) : Prop := Forall (fun g => ascending Qltb g) gs.
Lemma count_cell gs idx x : asc_grid gs -> is_cell gs idx -> length x = length gs ->
  (if list_eq_dec Nat.eq_dec (map S idx) (zipwith bin_count gs x) then true else false) = in_cell gs idx x.
Proof.
  intros A C L. assert (map S idx = zipwith bin_count gs x <-> in_cell gs idx x = true).
  { revert x L. induction C as [|i g idx gs Li C IH]; intros [|a x] L; try discriminate; cbn [map zipwith in_cell].
    - tauto.
    - inversion A; subst. specialize (IH H2 x (f_equal pred L)). rewrite Bool.andb_true_iff, <- IH, <- (bin_count_side g i a H1 Li).
      split; [intro E; inversion E; now split|]. intros [-> ->]. reflexivity. }
  destruct list_eq_dec as [E|E]; symmetry; [tauto|]. apply Bool.not_true_is_false. tauto.
Qed.
Lemma core_cell gs idx s : asc_grid gs -> is_cell gs idx -> Forall (fun p => length (fst p) = length gs) s ->
  (bincount gs s (map S idx) == weight_where (in_cell gs idx) s)%Q.
Proof.
  intros A C F. rewrite bincount_spec. rewrite (weight_where_ext _ (in_cell gs idx)); [reflexivity|].
  intros p Hp. rewrite Forall_forall in F. now apply count_cell; [| |apply F].
Qed.
(** exchanging the sums *)
Lemma sum_single {X} (eqd : forall a b : X, {a = b} + {a <> b}) (l : list X) c w : NoDup l ->
  (Qsum (map (fun i => if eqd i c then w else 0) l) == if in_dec eqd c l then w else 0)%Q.
Proof.
  induction 1 as [|a l Na N IH]; cbn [map Qsum]; [destruct in_dec as [[]|]; reflexivity|].
  rewrite IH. destruct (eqd a c) as [->|Ne].
  - destruct (in_dec eqd c l); [contradiction|]. destruct (in_dec eqd c (c :: l)) as [|n']; [lra|]. exfalso. apply n'. now left.
  - destruct (in_dec eqd c l); destruct (in_dec eqd c (a :: l)) as [I|I]; try lra.
    + exfalso. apply I. now right.
    + destruct I; [contradiction|contradiction].
Qed.
Lemma in_cell_in gs x : asc_grid gs -> Forall (fun g => 2 <= length g) gs -> length x = length gs ->
  (in_extent gs x = true <-> exists idx, is_cell gs idx /\ in_cell gs idx x = true).
Proof.
  revert x. induction gs as [|g gs IH]; intros [|a x] A F L; try discriminate; cbn [in_extent].
  - split; [|reflexivity]. intros _. exists []. split; [constructor|reflexivity].
  - inversion A; inversion F; subst. rewrite Bool.andb_true_iff, (IH x H2 H6 (f_equal pred L)), (bin_count_within g a H1 H5). split.
    + intros [(i & Li & B) (idx & C & I)]. exists (i :: idx). split; [now constructor|]. cbn [in_cell]. rewrite Bool.andb_true_iff. split; [|assumption].
      now apply bin_count_side.
    + intros (idx & C & I). inversion C as [|i ? idx' ? Li C']; subst. cbn [in_cell] in I. apply Bool.andb_true_iff in I as [I1 I2]. split.
      * exists i. split; [assumption|]. now apply bin_count_side.
      * now exists idx'.
Qed.
Lemma in_cell_unique gs idx idx' x : asc_grid gs -> is_cell gs idx -> is_cell gs idx' -> length x = length gs ->
  in_cell gs idx x = true -> in_cell gs idx' x = true -> idx = idx'.
Proof.
  intros A C C' L I I'. rewrite <- (count_cell gs idx x A C L) in I. rewrite <- (count_cell gs idx' x A C' L) in I'.
  destruct list_eq_dec as [E|]; [|discriminate]. destruct list_eq_dec as [E'|] in I'; [|discriminate].
  assert (M : map S idx = map S idx') by congruence. revert M. clear. revert idx'. induction idx as [|i idx IH]; intros [|i' idx'] M; try discriminate; [reflexivity|].
  inversion M. f_equal. now apply IH.
Qed.
Lemma Qsum_plus {A} (f g : A -> Q) l : (Qsum (map (fun a => f a + g a) l) == Qsum (map f l) + Qsum (map g l))%Q.
Proof. induction l; cbn [map Qsum]; [lra|]. rewrite IHl. lra. Qed.
Lemma cells_total gs s : asc_grid gs -> Forall (fun g => 2 <= length g) gs -> Forall (fun p => length (fst p) = length gs) s ->
  (Qsum (map (fun idx => weight_where (in_cell gs idx) s) (cells gs)) == weight_where (in_extent gs) s)%Q.
Proof.
  intros A F Fs. induction Fs as [|[x w] s L Fs IH]; cbn [fst] in *.
  - assert (Z : (forall l : list (list nat), Qsum (map (fun idx => weight_where (in_cell gs idx) (@nil (list num * Q))) l) == 0)%Q).
    { induction l; cbn [map Qsum]; [reflexivity|]. rewrite IHl. unfold weight_where. cbn. lra. }
    rewrite Z. unfold weight_where. cbn. reflexivity.
  - rewrite (Qsum_ext _ (fun idx => (if in_cell gs idx x then w else 0) + weight_where (in_cell gs idx) s)%Q).
    2:{ intros idx _. unfold weight_where. cbn [filter fst]. destruct (in_cell gs idx x); cbn [map Qsum snd]; lra. }
    rewrite Qsum_plus, IH.
    assert (E : (weight_where (in_extent gs) ((x, w) :: s) == (if in_extent gs x then w else 0) + weight_where (in_extent gs) s)%Q).
    { unfold weight_where. cbn [filter fst]. destruct (in_extent gs x); cbn [map Qsum snd]; lra. }
    rewrite E. apply Qplus_comp; [|reflexivity].
    destruct (in_extent gs x) eqn:X.
    + apply (in_cell_in gs x A F L) in X as (c & C & I).
      rewrite (Qsum_ext _ (fun idx => if list_eq_dec Nat.eq_dec idx c then w else 0)%Q).
      * rewrite sum_single by apply cells_NoDup. destruct in_dec as [|n]; [reflexivity|]. exfalso. apply n. now apply cells_spec.
      * intros idx Hi. apply cells_spec in Hi. destruct list_eq_dec as [->|ne]; [rewrite I; reflexivity|].
        destruct (in_cell gs idx x) eqn:I'; [|reflexivity]. exfalso. apply ne. now apply (in_cell_unique gs idx c x).
    + rewrite (Qsum_ext _ (fun _ => 0)%Q).
      * generalize (cells gs). clear. induction l; cbn [map Qsum]; [reflexivity|]. rewrite IHl. lra.
      * intros idx Hi. apply cells_spec in Hi. destruct (in_cell gs idx x) eqn:I'; [|reflexivity].
        exfalso. assert (in_extent gs x = true) by (apply (in_cell_in gs x A F L); now exists idx). congruence.
Qed.
(** ** division by the volume *)
Lemma width_pos g i : increasing Qltb g -> S i < length g -> (0 < width g i)%Q.
Proof.
  intros I L. unfold width. assert (nth i g 0 < nth (S i) g 0)%Q; [|lra].
  apply Qltb_lt. apply (I i (S i)); [lia| |]; apply nth_error_nth'; lia.
Qed.
Lemma volume_pos gs idx : good_grid gs -> is_cell gs idx -> (0 < cell_volume gs idx)%Q.
Proof.
  intros G C. induction C as [|i g idx gs Li C IH]; cbn [cell_volume]; [lra|]. inversion G as [|? ? [_ I] G']; subst.
  apply Qmult_lt_0_compat; [now apply width_pos|now apply IH].
Qed.
Lemma over_widths_fin gs idx q : good_grid gs -> is_cell gs idx -> exists r, over_widths gs idx (Fin q) = Fin r /\ (r == q / cell_volume gs idx)%Q.
Proof.
  intros G C. revert q. induction C as [|i g idx gs Li C IH]; intro q; cbn [over_widths cell_volume].
  - exists q. split; [reflexivity|]. field.
  - inversion G as [|? ? [_ I] G']; subst. pose proof (width_pos g i I Li) as P. pose proof (volume_pos gs idx G' C) as V. cbn [ndiv].
    destruct (Qeq_bool (width g i) 0) eqn:E; [apply Qeq_bool_iff in E; lra|].
    destruct (IH G' (q / width g i)%Q) as (r & -> & R). exists r. split; [reflexivity|]. rewrite R. field. split; lra.
Qed.
Lemma good_asc gs : good_grid gs -> asc_grid gs.
Proof. intro G. unfold asc_grid, good_grid in *. rewrite Forall_forall in *. intros g Hg. apply increasing_ascending; [apply Q_weak_order|now apply G]. Qed.
Lemma good_len gs : good_grid gs -> Forall (fun g => 2 <= length g) gs.
Proof. intro G. unfold good_grid in *. rewrite Forall_forall in *. intros g Hg. now apply G. Qed.
Lemma weighted_len (gs : list (list Q)) rows (w : option (list Q)) : Forall (fun r => length r = length gs) rows -> Forall (fun p => length (fst p) = length gs) (weighted rows w).
Proof.
  intro F. rewrite Forall_forall in *. intros [x q] H. cbn. apply F. unfold weighted in H. now apply in_combine_l in H.
Qed.
Definition rows_ok (x : arr num) : Prop := arr_ok x = true.
Lemma points_len x c rows : arr_ok x = true -> points x = (c, rows) -> Forall (fun r => length r = c) rows.
Proof.
  destruct x as [l|c' r]; cbn; intros A E; inversion E; subst.
  - clear. induction l; constructor; auto.
  - apply forallb_forall in A || rewrite forallb_forall in A. rewrite Forall_forall. intros r Hr. apply A in Hr. now apply Nat.eqb_eq in Hr.
Qed.
Lemma fit_spec gs density x w :
  let '(c, rows) := points x in
  match fit gs density x w with
  | Ok h => c = length gs /\ length (match w with Some w => w | None => repeat 1%Q (length rows) end) = length rows /\
            h = (fun idx => let core := fun idx => bincount gs (weighted rows w) (map S idx) in
                            if density then ndiv (over_widths gs idx (Fin (core idx))) (Fin (Qsum (map core (cells gs)))) else Fin (core idx))
  | Err e => (c <> length gs /\ e = AssertionError) \/ (c = length gs /\ e = ValueError /\ exists w', w = Some w' /\ length w' <> length rows)
  end.
Proof.
  destruct (points x) as [c rows] eqn:P. unfold fit. rewrite P. destruct (Nat.eqb_spec c (length gs)) as [->|N]; [|now left].
  unfold histogramdd. destruct (Nat.eqb_spec (length (match w with Some w => w | None => repeat 1%Q (length rows) end)) (length rows)) as [E|E]; cbn [negb].
  - split; [reflexivity|]. split; [assumption|]. reflexivity.
  - right. split; [reflexivity|]. split; [reflexivity|]. destruct w as [w'|]; [now exists w'|]. rewrite repeat_length in E. contradiction.
Qed.
(** ** evaluation *)
Definition loc_out (id : Z) (g : list Q) : bool := ((id <? 0) || (id >=? Z.of_nat (length g) - 1))%Z.
Lemma locate_bin g i a : ascending Qltb g -> S i < length g -> (in_bin g i a = true <-> grid_locate g a = Z.of_nat i).
Proof.
  intros A L. pose proof (grid_locate_spec g a A) as [R H].
  destruct (nth_error g i) as [lo|] eqn:Ni; [|apply nth_error_None in Ni; lia].
  destruct (nth_error g (S i)) as [hi|] eqn:Nj; [|apply nth_error_None in Nj; lia].
  pose proof (H i (Fin lo)) as Hi. pose proof (H (S i) (Fin hi)) as Hj. rewrite nth_error_map in Hi, Hj. rewrite Ni in Hi. rewrite Nj in Hj.
  specialize (Hi eq_refl). specialize (Hj eq_refl). unfold in_bin. rewrite Ni, Nj. destruct a as [q| | |]; cbn in Hi, Hj.
  - rewrite Qltb_ge in Hi, Hj. rewrite Bool.andb_true_iff, Qle_bool_iff, Qltb_lt. split.
    + intros [B1 B2]. apply Hi in B1. assert (~ (Z.of_nat (S i) <= grid_locate g (Fin q))%Z) by (rewrite Hj; lra). lia.
    + intro E. split; [apply Hi; lia|]. apply Qnot_le_lt. rewrite <- Hj. lia.
  - split; [discriminate|]. intro E. assert (Z.of_nat (S i) <= grid_locate g PInf)%Z by now apply Hj. lia.
  - split; [discriminate|]. intro E. assert (X : false = true -> False) by discriminate. destruct Hi as [Hi _]. specialize (Hi ltac:(lia)). discriminate.
  - split; [discriminate|]. intro E. assert (Z.of_nat (S i) <= grid_locate g NaN)%Z by now apply Hj. lia.
Qed.
Lemma eval_in gs h fill idx x : asc_grid gs -> is_cell gs idx -> in_cell_open gs idx x = true -> eval1 gs h fill x = Ok (h idx).
Proof.
  intros A C I.
  assert (K : map Z.to_nat (clipped_ids gs x) = idx /\ is_out gs x = false /\ forallb (fun id => (0 <=? id)%Z) (clipped_ids gs x) = true).
  { revert x I. induction C as [|i g idx gs Li C IH]; intros [|a x] I; try discriminate; [now repeat split|].
    cbn [in_cell_open] in I. apply Bool.andb_true_iff in I as [I1 I2]. inversion A; subst. destruct (IH H2 x I2) as (K1 & K2 & K3).
    apply (locate_bin g i a H1 Li) in I1. unfold clipped_ids, is_out, md_locate in *. cbn [zipwith existsb map forallb] in *. rewrite I1, K1, K2, K3.
    assert (Z1 : zclip 0 (Z.of_nat (length g) - 2) (Z.of_nat i) = Z.of_nat i) by (unfold zclip; lia). rewrite Z1, Nat2Z.id.
    split; [reflexivity|]. split.
    - rewrite Bool.orb_false_r. apply Bool.orb_false_iff. split; [apply Z.ltb_ge; lia|]. rewrite Z.geb_leb. apply Z.leb_gt. lia.
    - rewrite Bool.andb_true_r. apply Z.leb_le. lia. }
  destruct K as (K1 & K2 & K3). unfold eval1. now rewrite K1, K2, K3.
Qed.
Lemma eval_out gs h fill x : asc_grid gs -> Forall (fun g => 2 <= length g) gs -> length x = length gs ->
  (forall idx, is_cell gs idx -> in_cell_open gs idx x = false) -> eval1 gs h fill x = Ok fill.
Proof.
  intros A F L N.
  assert (O : is_out gs x = true).
  { apply Bool.not_false_is_true. intro O.
    assert (E : exists idx, is_cell gs idx /\ in_cell_open gs idx x = true).
    { clear N. revert x L O. induction gs as [|g gs IH]; intros [|a x] L O; try discriminate; [exists []; split; [constructor|reflexivity]|].
      inversion A; inversion F; subst. unfold is_out, md_locate in O. cbn [zipwith existsb] in O. apply Bool.orb_false_iff in O as [O1 O2].
      destruct (IH H2 H6 x (f_equal pred L) O2) as (idx & C & I). apply Bool.orb_false_iff in O1 as [O3 O4].
      apply Z.ltb_ge in O3. rewrite Z.geb_leb in O4. apply Z.leb_gt in O4.
      exists (Z.to_nat (grid_locate g a) :: idx). split; [constructor; [lia|assumption]|]. cbn [in_cell_open]. rewrite I, Bool.andb_true_r.
      apply locate_bin; [assumption|lia|lia]. }
    destruct E as (idx & C & I). rewrite (N idx C) in I. discriminate. }
  unfold eval1. rewrite O. assert (K : forallb (fun id => (0 <=? id)%Z) (clipped_ids gs x) = true); [|now rewrite K].
  clear - F L. revert x L. induction gs as [|g gs IH]; intros [|a x] L; try discriminate; [reflexivity|]. inversion F; subst.
  unfold clipped_ids, md_locate. cbn [zipwith forallb]. apply Bool.andb_true_iff. split; [apply Z.leb_le; unfold zclip; lia|]. apply IH; auto.
Qed.
Lemma eval_single gs h fill x : length x = length gs -> Exists (fun g => length g = 1) gs -> eval1 gs h fill x = Err IndexError.
Proof.
  intros L E. unfold eval1. assert (K : forallb (fun id => (0 <=? id)%Z) (clipped_ids gs x) = false); [|now rewrite K].
  revert x L. induction E as [g gs L1|g gs E IH]; intros [|a x] L; try discriminate; unfold clipped_ids, md_locate; cbn [zipwith forallb].
  - rewrite L1. apply Bool.andb_false_iff. left. apply Z.leb_gt. unfold zclip. lia.
  - apply Bool.andb_false_iff. right. apply IH. exact (f_equal pred L).
Qed.
Lemma eval_extra gs h fill x extra : length x = length gs -> eval1 gs h fill (x ++ extra) = eval1 gs h fill x.
Proof.
  intro L. assert (M : md_locate gs (x ++ extra) = md_locate gs x).
  { unfold md_locate. revert x L. induction gs as [|g gs IH]; intros [|a x] L; try discriminate; cbn; [now destruct extra|]. f_equal. apply IH. exact (f_equal pred L). }
  unfold eval1, is_out, clipped_ids. now rewrite M.
Qed.
