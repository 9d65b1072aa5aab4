From Coq Require Import QArith Qround Qabs Qminmax Lqa Permutation.
From Verif Require Import Base OrderSpec BinSpec BinModel BinProofs BinProofs2.
Local Open Scope list_scope. Local Open Scope nat_scope.

(** ** conservation *)
Lemma Qsum_upd d k v w : nth_error d k = Some v -> (Qsum (upd_nth d k (v + w)) == Qsum d + w)%Q.
Proof.
  revert k. induction d as [|a d IH]; intros [|k] H; simpl in *; try discriminate.
  - injection H as <-. ring.
  - rewrite (IH _ H). ring.
Qed.
Lemma Qsum_add_at d i w : (Qsum (add_at d i w) == Qsum d + (if ((0 <=? i) && (i <? Z.of_nat (length d)))%Z then w else 0))%Q.
Proof.
  unfold add_at. destruct ((0 <=? i) && (i <? Z.of_nat (length d)))%Z eqn:E; [|ring].
  apply andb_prop in E. destruct E as [E1 E2]. apply Z.leb_le in E1. apply Z.ltb_lt in E2.
  apply Qsum_upd. apply nth_error_nth'. lia.
Qed.
Lemma Qsum_fold_add {X} (idx : X -> Z) (w : X -> Q) l d :
  (Qsum (fold_left (fun d p => add_at d (idx p) (w p)) l d) ==
   Qsum d + Qsum (map w (filter (fun p => (0 <=? idx p) && (idx p <? Z.of_nat (length d)))%Z l)))%Q.
Proof.
  revert d. induction l as [|p l IH]; intros d; simpl; [ring|]. rewrite IH, Qsum_add_at, add_at_length.
  destruct ((0 <=? idx p) && (idx p <? Z.of_nat (length d)))%Z; simpl; ring.
Qed.
Lemma bd_run_total_gen s h : (Qsum (bd_data (bd_run s h)) == Qsum (bd_data s) +
  weight_where (fun x => (0 <=? locate (bd_bins s) x) && (locate (bd_bins s) x <? Z.of_nat (length (bd_data s))))%Z (samples h))%Q.
Proof.
  revert s. induction h as [|c h IH]; intros s; unfold bd_run; simpl.
  - unfold weight_where. simpl. ring.
  - unfold bd_run in IH. rewrite IH, bd_step_len, bd_step_bins. unfold weight_where, samples. simpl. rewrite filter_app, map_app, Qsum_app.
    assert (Qsum (bd_data (bd_step s c)) == Qsum (bd_data s) + Qsum (map snd (filter (fun p => (0 <=? locate (bd_bins s) (fst p)) && (locate (bd_bins s) (fst p) <? Z.of_nat (length (bd_data s))))%Z (call_samples c))))%Q as ->; [|ring].
    unfold bd_step, bd_add, call_samples. destruct c as [x [w|]]; cbn [fst snd].
    + rewrite map_length. destruct (Nat.eqb (length x) (length w)) eqn:E; cbn [bd_data].
      * rewrite (Qsum_fold_add (X := Z * Q) fst snd). apply Qplus_comp; [reflexivity|]. generalize (length (bd_data s)). intros m. clear. revert w.
        induction x as [|a x IH]; intros [|b w]; simpl; try reflexivity. destruct (_ && _)%bool; simpl; rewrite IH; reflexivity.
      * simpl. ring.
    + cbn [bd_data]. rewrite (Qsum_fold_add (X := Z) (fun i => i) (fun _ => 1%Q)). apply Qplus_comp; [reflexivity|]. generalize (length (bd_data s)). intros m. clear.
      induction x as [|a x IH]; simpl; try reflexivity. destruct (_ && _)%bool; simpl; rewrite IH; reflexivity.
Qed.
Lemma last_nth_error {A} (l : list A) d : l <> [] -> nth_error l (length l - 1) = Some (last l d).
Proof.
  induction l as [|x l IH]; intros H; [congruence|]. destruct l as [|y l]; [reflexivity|].
  replace (length (x :: y :: l) - 1) with (S (length (y :: l) - 1)) by (simpl; lia). cbn [nth_error]. rewrite IH by discriminate. reflexivity.
Qed.
Lemma Qsum_repeat0 n : (Qsum (repeat 0 n) == 0)%Q.
Proof. induction n as [|n IH]; simpl; [reflexivity|]. rewrite IH. ring. Qed.
Lemma bd_run_total b h : made b -> (forall x w, In (x, w) (samples h) -> castable b x) ->
  (Qsum (bd_data (bd_run (bd_new b) h)) == weight_where (in_range (x_edges b)) (samples h))%Q.
Proof.
  intros M C. rewrite bd_run_total_gen. cbn [bd_new bd_data bd_bins]. rewrite Qsum_repeat0, repeat_length, Qplus_0_l.
  destruct (made_edges b M) as (L & N & A). unfold weight_where.
  rewrite (filter_ext_in2 _ (fun p => in_range (x_edges b) (fst p))); [reflexivity|].
  intros [x w] Hin. cbn [fst]. destruct (locate_index b x M (C _ _ Hin)) as [R B].
  assert (E0 : nth_error (x_edges b) 0 = Some (nth 0 (x_edges b) 0%Q)) by (apply nth_error_nth'; lia).
  assert (E1 : nth_error (x_edges b) (Z.to_nat (n_bins b)) = Some (last (x_edges b) 0%Q)).
  { rewrite <- (last_nth_error (x_edges b) 0%Q) by (destruct (x_edges b); [simpl in L; lia|discriminate]). f_equal. lia. }
  assert (B0 := B 0 (Fin (nth 0 (x_edges b) 0%Q)) ltac:(rewrite nth_error_map, E0; reflexivity)).
  assert (B1 := B _ (Fin (last (x_edges b) 0%Q)) ltac:(rewrite nth_error_map, E1; reflexivity)).
  replace (Z.of_nat (Z.to_nat (n_bins b))) with (n_bins b) in * by lia.
  replace (in_range (x_edges b) x) with (negb (np_lt x (Fin (nth 0 (x_edges b) 0%Q))) && np_lt x (Fin (last (x_edges b) 0%Q)))%bool.
  2:{ destruct x; simpl; try reflexivity. unfold Qltb at 1. rewrite negb_involutive. reflexivity. }
  simpl Z.of_nat in B0.
  destruct (np_lt x (Fin (nth 0 (x_edges b) 0%Q))) eqn:F0, (np_lt x (Fin (last (x_edges b) 0%Q))) eqn:F1; simpl.
  - apply andb_false_iff. left. apply Z.leb_gt. destruct (Z_lt_le_dec (locate b x) 0) as [|G]; [assumption|]. apply B0 in G. discriminate.
  - apply andb_false_iff. left. apply Z.leb_gt. destruct (Z_lt_le_dec (locate b x) 0) as [|G]; [assumption|]. apply B0 in G. discriminate.
  - apply andb_true_intro. split; [apply Z.leb_le; apply B0; reflexivity|]. apply Z.ltb_lt.
    destruct (Z_lt_le_dec (locate b x) (n_bins b)) as [|G]; [assumption|]. apply B1 in G. discriminate.
  - apply andb_false_iff. right. apply Z.ltb_ge. apply B1. reflexivity.
Qed.
(** A rejected call changes nothing; accepted iff the lengths agree. *)
Lemma bd_add_result s x w : match bd_add s x w with
  | Ok s' => bd_bins s' = bd_bins s /\ (forall w', w = Some w' -> length w' = length x)
  | Err e => e = AssertionError /\ exists w', w = Some w' /\ length w' <> length x
  end.
Proof.
  unfold bd_add. destruct w as [w|]; [rewrite map_length; destruct (Nat.eqb_spec (length x) (length w))|]; simpl.
  - split; [reflexivity|]. intros w' E; injection E as <-; congruence.
  - split; [reflexivity|]. exists w. split; [reflexivity|congruence].
  - split; [reflexivity|discriminate].
Qed.

(** ** class Bin *)
Lemma nth_error_firstn {A} (l : list A) n i : nth_error (firstn n l) i = if Nat.ltb i n then nth_error l i else None.
Proof.
  revert n i. induction l as [|a l IH]; intros n i.
  - rewrite firstn_nil. destruct (Nat.ltb i n), i; reflexivity.
  - destruct n as [|n]; [destruct i; reflexivity|]. destruct i as [|i]; [reflexivity|]. simpl. rewrite IH. reflexivity.
Qed.
Lemma nth_error_skipn {A} (l : list A) n i : nth_error (skipn n l) i = nth_error l (n + i).
Proof. revert n. induction l as [|a l IH]; intros [|n]; simpl; auto. destruct i; reflexivity. Qed.

Fixpoint window (x : list Q) (i n : nat) : Q := match n with 0 => 0%Q | S n' => (window x i n' + nth (i + n') x 0)%Q end.
Lemma combine_spec x n_comb : match combine_adjacent_bins x n_comb with
  | Ok out => (1 <= n_comb <= Z.of_nat (length x))%Z /\ Z.of_nat (length out) = (Z.of_nat (length x) - n_comb + 1)%Z /\
      forall i v, nth_error out i = Some v -> (v == Qsum (firstn (Z.to_nat n_comb) (skipn i x)))%Q
  | Err e => e = AssertionError /\ ((n_comb < 1)%Z \/ (Z.of_nat (length x) < n_comb)%Z)
  end.
Proof.
  unfold combine_adjacent_bins. destruct (Z.leb_spec 1 n_comb) as [H1|H1]; cbn [negb]; [|auto].
  destruct (Z.ltb_spec 0 (Z.of_nat (length x) - n_comb + 1)) as [H2|H2]; cbn [negb]; [|split; [reflexivity|lia]].
  set (m := Z.to_nat (Z.of_nat (length x) - n_comb + 1)). set (n := Z.to_nat n_comb).
  assert (Lx : length x = m + n - 1) by lia.
  assert (G : forall c, c <= n - 1 ->
     length (fold_left (fun out b => zipwith Qplus out (firstn m (skipn b x))) (seq 1 c) (firstn m x)) = m /\
     forall i v, nth_error (fold_left (fun out b => zipwith Qplus out (firstn m (skipn b x))) (seq 1 c) (firstn m x)) i = Some v ->
       (v == Qsum (firstn (S c) (skipn i x)))%Q).
  { induction c as [|c IH]; intros Hc.
    - simpl. split; [rewrite firstn_length; lia|]. intros i v H. rewrite nth_error_firstn in H. destruct (Nat.ltb i m); [|discriminate].
      replace i with (i + 0) in H by lia. rewrite <- nth_error_skipn in H. destruct (skipn i x) as [|a l]; [discriminate|].
      injection H as ->. simpl. ring.
    - destruct IH as [IL IV]; [lia|]. rewrite seq_S, fold_left_app. cbn [fold_left]. change (1 + c) with (S c).
      set (prev := fold_left (fun out b => zipwith Qplus out (firstn m (skipn b x))) (seq 1 c) (firstn m x)) in *.
      split; [rewrite zipwith_length, IL, firstn_length, skipn_length; lia|].
      intros i v H. apply zipwith_nth in H. destruct H as (a & b & Ha & Hb & ->). rewrite (IV _ _ Ha).
      rewrite nth_error_firstn in Hb. destruct (Nat.ltb i m); [|discriminate]. rewrite nth_error_skipn in Hb.
      replace (S c + i) with (i + S c) in Hb by lia. rewrite <- nth_error_skipn in Hb.
      revert Hb. generalize (skipn i x) as l. generalize (S c) as k. clear. intros k l Hb.
      replace (Qsum (firstn (S k) l)) with (Qsum (firstn k l ++ [b])).
      { rewrite Qsum_app. simpl. ring. }
      f_equal. revert l Hb. induction k as [|k IH]; intros [|a l] Hb; simpl in *; try discriminate.
      + injection Hb as ->. reflexivity.
      + f_equal. apply IH. assumption. }
  destruct (G (n - 1) (le_n _)) as [L V]. split; [lia|]. split; [rewrite L; lia|].
  intros i v H. rewrite (V i v H). replace (S (n - 1)) with n by lia. reflexivity.
Qed.

Lemma strided_nth {C} (f : Q -> Q -> C) e stride out : 1 <= stride -> strided f e stride = Ok out ->
  length out = length e - stride /\ forall i c, nth_error out i = Some c <->
    exists lo hi, nth_error e i = Some lo /\ nth_error e (i + stride) = Some hi /\ c = f lo hi.
Proof.
  intros H E. unfold strided in E. destruct stride as [|s]; [lia|].
  assert (E' : out = zipwith f (firstn (length e - S s) e) (skipn (S s) e)) by congruence. clear E. subst out. split.
  - rewrite zipwith_length, firstn_length. rewrite (skipn_length (S s) e). lia.
  - intros i c. rewrite zipwith_nth. split; intros (lo & hi & H1 & H2 & H3).
    + rewrite nth_error_firstn in H1. destruct (Nat.ltb i (length e - S s)); [|discriminate]. rewrite nth_error_skipn in H2.
      exists lo, hi. rewrite Nat.add_comm. auto.
    + exists lo, hi. rewrite nth_error_firstn, nth_error_skipn, Nat.add_comm. split; [|auto].
      assert (i + S s < length e) by (apply nth_error_Some; congruence).
      destruct (Nat.ltb_spec i (length e - S s)); [assumption|lia].
Qed.

Lemma concat_const_nth {A} (ls : list (list A)) s i k : (forall l, In l ls -> length l = s) -> k < s ->
  nth_error (concat ls) (i * s + k) = match nth_error ls i with Some l => nth_error l k | None => None end.
Proof.
  intros H Hk. revert i. induction ls as [|l ls IH]; intros i; simpl.
  - destruct (i * s + k), i; reflexivity.
  - assert (length l = s) by (apply H; left; reflexivity). destruct i as [|i]; simpl.
    + apply nth_error_app1. lia.
    + rewrite nth_error_app2 by lia. rewrite <- IH by (intros; apply H; right; assumption). f_equal. lia.
Qed.
Lemma concat_const_len {A} (ls : list (list A)) s : (forall l, In l ls -> length l = s) -> length (concat ls) = length ls * s.
Proof. induction ls as [|l ls IH]; intros H; simpl; [reflexivity|]. rewrite app_length, IH, (H l) by (try intros; try apply H; simpl; auto). reflexivity. Qed.
Lemma linspace_open_nth a b n k : k < n -> nth_error (linspace_open a b n) k = Some (a + inject_Z (Z.of_nat k) * ((b - a) / inject_Z (Z.of_nat n)))%Q.
Proof. intros H. unfold linspace_open. rewrite nth_error_map_seq. destruct (Nat.ltb_spec k n); [reflexivity|lia]. Qed.
Lemma zipwith_In_len e s l : In l (zipwith (fun lo hi => linspace_open lo hi s) (removelast e) (tl e)) -> length l = s.
Proof.
  intros H. apply In_nth_error in H. destruct H as [i H]. apply zipwith_nth in H. destruct H as (a & b & _ & _ & ->).
  unfold linspace_open. rewrite map_length, seq_length. reflexivity.
Qed.
Lemma insert_sub_spec e s out : 1 <= s -> e <> [] -> insert_sub_bins e s = Ok out ->
  length out = s * (length e - 1) + 1 /\
  (forall i k lo hi, nth_error e i = Some lo -> nth_error e (S i) = Some hi -> k < s ->
     exists v, nth_error out (i * s + k) = Some v /\ (v == lo + (hi - lo) * (inject_Z (Z.of_nat k) / inject_Z (Z.of_nat s)))%Q) /\
  nth_error out (s * (length e - 1)) = Some (last e 0%Q).
Proof.
  intros Hs He E. unfold insert_sub_bins in E. destruct (Nat.eqb_spec s 1) as [->|Hs1].
  - injection E as <-. assert (length e <> 0) by (destruct e; [congruence|discriminate]). split; [lia|]. split.
    + intros i k lo hi H1 H2 Hk. assert (k = 0) by lia. subst. exists lo. replace (i * 1 + 0) with i by lia. split; [assumption|]. simpl. field.
    + replace (1 * (length e - 1)) with (length e - 1) by lia. apply last_nth_error. assumption.
  - destruct e as [|e0 e']; [congruence|]. set (e := e0 :: e') in *. apply Ok_inj in E. subst out.
    set (ls := zipwith (fun lo hi => linspace_open lo hi s) (removelast e) (tl e)).
    assert (HL : forall l, In l ls -> length l = s) by (intros l Hl; eapply zipwith_In_len; exact Hl).
    assert (LL : length ls = length e - 1) by (unfold ls; rewrite zipwith_length, removelast_len, tl_len; lia).
    assert (CL := concat_const_len ls s HL). rewrite LL in CL. split; [|split].
    + rewrite app_length, CL. simpl. lia.
    + intros i k lo hi H1 H2 Hk.
      assert (S i < length e) by (apply nth_error_Some; congruence).
      assert (Hls : nth_error ls i = Some (linspace_open lo hi s)).
      { unfold ls. apply zipwith_nth. exists lo, hi. split; [apply removelast_nth; auto|]. split; [rewrite tl_nth; assumption|reflexivity]. }
      eexists. split.
      * rewrite nth_error_app1 by (rewrite CL; nia). rewrite (concat_const_nth ls s i k HL Hk), Hls. apply linspace_open_nth. assumption.
      * assert (0 < inject_Z (Z.of_nat s))%Q by (apply inject_pos; lia). field. lra.
    + rewrite nth_error_app2 by (rewrite CL; lia). rewrite CL. replace (s * (length e - 1) - (length e - 1) * s) with 0 by lia. reflexivity.
Qed.
Lemma asc_adjacent (l : list Q) : (forall i a b, nth_error l i = Some a -> nth_error l (S i) = Some b -> (a <= b)%Q) -> ascending Qltb l.
Proof.
  intros H i j a b L Ha Hb. apply Qltb_ge. replace j with (i + S (j - i - 1)) in Hb by lia.
  revert b Hb. induction (j - i - 1) as [|d IH]; intros b Hb.
  - apply (H i); [assumption|]. replace (S i) with (i + 1) by lia. assumption.
  - destruct (nth_error l (i + S d)) as [c|] eqn:E.
    + apply Qle_trans with c; [apply IH; reflexivity|]. apply (H (i + S d)); [assumption|]. rewrite <- Hb. f_equal. lia.
    + exfalso. apply nth_error_None in E. assert (i + S (S d) < length l) by (apply nth_error_Some; congruence). lia.
Qed.
Lemma insert_sub_asc e s out : 1 <= s -> e <> [] -> ascending Qltb e -> insert_sub_bins e s = Ok out -> ascending Qltb out.
Proof.
  intros Hs He A E. destruct (insert_sub_spec e s out Hs He E) as (L & V & Last). apply asc_adjacent. intros p a b Ha Hb.
  assert (Lp : S p < length out) by (apply nth_error_Some; congruence).
  set (i := p / s). set (k := p mod s). assert (Ep : p = i * s + k) by (unfold i, k; rewrite Nat.mul_comm; apply Nat.div_mod; lia).
  assert (Hk : k < s) by (apply Nat.mod_upper_bound; lia).
  assert (Hi : S i < length e) by nia.
  destruct (nth_error e i) as [lo|] eqn:E1; [|apply nth_error_None in E1; lia].
  destruct (nth_error e (S i)) as [hi|] eqn:E2; [|apply nth_error_None in E2; lia].
  assert (lo <= hi)%Q by (apply Qltb_ge; apply (A i (S i)); [lia|assumption|assumption]).
  destruct (V i k lo hi E1 E2 Hk) as (v & Hv & Ev). rewrite <- Ep, Ha in Hv. injection Hv as <-.
  assert (Sp : (0 < inject_Z (Z.of_nat s))%Q) by (apply inject_pos; lia).
  assert (K1 : (inject_Z (Z.of_nat k) / inject_Z (Z.of_nat s) <= 1)%Q).
  { apply Qle_shift_div_r; [assumption|]. rewrite Qmult_1_l. apply (proj1 (inject_le _ _)). lia. }
  assert (K0 : (0 <= inject_Z (Z.of_nat k) / inject_Z (Z.of_nat s))%Q).
  { apply Qle_shift_div_l; [assumption|]. rewrite Qmult_0_l. apply (proj1 (inject_le 0 _)). lia. }
  destruct (Nat.eq_dec (S k) s) as [Hks|Hks].
  - assert (Eb : (b == hi)%Q).
    { destruct (Nat.eq_dec (S (S i)) (length e)) as [El|El].
      - replace (S p) with (s * (length e - 1)) in Hb by nia. rewrite Last in Hb. injection Hb as <-.
        pose proof (last_nth_error e 0%Q He) as HL. replace (length e - 1) with (S i) in HL by lia. rewrite E2 in HL. injection HL as <-. reflexivity.
      - destruct (nth_error e (S (S i))) as [hi2|] eqn:E3; [|apply nth_error_None in E3; lia].
        destruct (V (S i) 0 hi hi2 E2 E3 ltac:(lia)) as (w & Hw & Ew). replace (S i * s + 0) with (S p) in Hw by nia.
        rewrite Hb in Hw. injection Hw as <-. rewrite Ew. simpl. field. lra. }
    rewrite Eb, Ev. nra.
  - destruct (V i (S k) lo hi E1 E2 ltac:(lia)) as (w & Hw & Ew). replace (i * s + S k) with (S p) in Hw by lia. rewrite Hb in Hw. injection Hw as <-.
    rewrite Ev, Ew. assert (inject_Z (Z.of_nat k) / inject_Z (Z.of_nat s) <= inject_Z (Z.of_nat (S k)) / inject_Z (Z.of_nat s))%Q.
    { apply Qmult_le_compat_r; [apply (proj1 (inject_le _ _)); lia|]. apply Qlt_le_weak. apply Qinv_lt_0_compat. assumption. }
    nra.
Qed.

Lemma p_range_spec quant x range p_range :
  match parse_p_range_spec quant x range p_range with
  | Ok (lo, hi) =>
      match x, range, p_range with
      | None, Some r, None => (lo, hi) = r
      | Some _, Some (a, b), None => lo = a /\ hi = b
      | Some l, None, None => (exists i, nth_error l i = Some lo) /\ (exists i, nth_error l i = Some hi) /\ forall v, In v l -> (lo <= v /\ v <= hi)%Q
      | Some l, None, Some (p, q) => lo = quant l p /\ hi = quant l q
      | Some l, Some (a, b), Some (p, q) =>
          forall v, ((lo <= v /\ v <= hi) <-> ((a <= v /\ v <= b) /\ (quant l p <= v /\ v <= quant l q)))%Q
      | _, _, _ => False
      end
  | Err AssertionError => x = None /\ (range = None \/ p_range <> None)
  | Err ValueError => x = Some [] /\ range = None /\ p_range = None
  | Err _ => False
  end.
Proof.
  unfold parse_p_range_spec. destruct x as [l|].
  - destruct range as [[a b]|], p_range as [[p q]|]; try (split; reflexivity).
    + intros v. rewrite Q.max_lub_iff, Q.min_glb_iff. tauto.
    + destruct l as [|c l]; [cbn; auto|]. cbn [bind list_min list_max].
      assert (G1 : forall l c, In (fold_left Qmin l c) (c :: l) /\ forall v, In v (c :: l) -> (fold_left Qmin l c <= v)%Q).
      { clear. induction l as [|d l IH]; intros c; simpl.
        - split; [auto|]. intros v [<-|[]]. apply Qle_refl.
        - destruct (IH (Qmin c d)) as [I1 I2]. split.
          + destruct I1 as [I1|I1]; [|auto]. rewrite <- I1. unfold Qmin, GenericMinMax.gmin. destruct (c ?= d)%Q; auto.
          + intros v Hv. assert (Hm : (fold_left Qmin l (Qmin c d) <= Qmin c d)%Q) by (apply I2; left; reflexivity).
            destruct Hv as [<-|[<-|Hv]]; [eapply Qle_trans; [exact Hm|apply Q.le_min_l]|eapply Qle_trans; [exact Hm|apply Q.le_min_r]|].
            apply I2. right. assumption. }
      assert (G2 : forall l c, In (fold_left Qmax l c) (c :: l) /\ forall v, In v (c :: l) -> (v <= fold_left Qmax l c)%Q).
      { clear. induction l as [|d l IH]; intros c; simpl.
        - split; [auto|]. intros v [<-|[]]. apply Qle_refl.
        - destruct (IH (Qmax c d)) as [I1 I2]. split.
          + destruct I1 as [I1|I1]; [|auto]. rewrite <- I1. unfold Qmax, GenericMinMax.gmax. destruct (c ?= d)%Q; auto.
          + intros v Hv. assert (Hm : (Qmax c d <= fold_left Qmax l (Qmax c d))%Q) by (apply I2; left; reflexivity).
            destruct Hv as [<-|[<-|Hv]]; [eapply Qle_trans; [apply Q.le_max_l|exact Hm]|eapply Qle_trans; [apply Q.le_max_r|exact Hm]|].
            apply I2. right. assumption. }
      destruct (G1 l c) as [A1 A2], (G2 l c) as [B1 B2].
      split; [apply In_nth_error; exact A1|]. split; [apply In_nth_error; exact B1|]. intros v Hv. auto.
  - destruct range as [[a b]|], p_range as [[p q]|]; try reflexivity; (split; [reflexivity|]); auto; right; discriminate.
Qed.
Lemma sub_bin_spec : forall b s range, match parse_sub_bin_spec b s range with
  | Ok (b', s', (lo, hi)) => s' = s /\ 1 <= s /\
      match b with
      | inl n => b' = inl (n * Z.of_nat s)%Z /\ range = Some (lo, hi)
      | inr e => range = None /\ e <> [] /\ (lo == nth 0 e 0)%Q /\ hi = last e 0%Q /\ exists e', b' = inr e' /\ insert_sub_bins e s = Ok e'
      end
  | Err AssertionError => s = 0 \/ (exists n, b = inl n) /\ range = None \/ (exists e, b = inr e) /\ range <> None
  | Err IndexError => b = inr []
  | Err _ => False
  end.
Proof.
  intros b s range. unfold parse_sub_bin_spec. destruct s as [|s]; [left; reflexivity|]. cbn [Nat.leb negb].
  destruct b as [n|e].
  - destruct range as [[lo hi]|]; [|right; left; eauto]. split; [reflexivity|]. split; [lia|]. split; reflexivity.
  - destruct (insert_sub_bins e (S s)) as [e'|x] eqn:E.
    + cbn [bind]. destruct range as [r|]; [right; right; split; [eauto|discriminate]|].
      destruct e as [|e0 er].
      { unfold insert_sub_bins in E. destruct (Nat.eqb (S s) 1); [|discriminate]. apply Ok_inj in E. subst e'. reflexivity. }
      destruct (insert_sub_spec (e0 :: er) (S s) e' ltac:(lia) ltac:(discriminate) E) as (L & V & La).
      destruct e' as [|lo e']; [rewrite Nat.add_1_r in L; discriminate L|].
      split; [reflexivity|]. split; [lia|]. split; [reflexivity|]. split; [discriminate|]. split; [|split; [|eauto]].
      * destruct er as [|e1 er].
        -- rewrite Nat.mul_0_r in La. cbn in La. cbn [nth]. injection La as <-. reflexivity.
        -- destruct (V 0 0 e0 e1 eq_refl eq_refl ltac:(lia)) as (v & Hv & Ev). cbn [nth_error Nat.mul Nat.add] in Hv. injection Hv as <-. cbn [nth]. rewrite Ev. simpl.
           assert (0 < inject_Z (Z.pos (Pos.of_succ_nat s)))%Q by (apply inject_pos; lia). field. lra.
      * assert (H := last_nth_error (lo :: e') 0%Q ltac:(discriminate)). rewrite L, Nat.add_sub, La in H. congruence.
    + cbn [bind]. unfold insert_sub_bins in E. destruct (Nat.eqb (S s) 1); [discriminate|]. destruct e; [|discriminate]. injection E as <-. reflexivity.
Qed.
