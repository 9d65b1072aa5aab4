From Coq Require Import QArith Qround Qabs Qminmax Permutation Lqa Lia.
From Verif Require Import Base OrderSpec BinSpec BinProofs BinProofs4 MeshSpec ProcModel ProcProofs MeshModel MeshProofs MeshProofs2.
Local Open Scope list_scope. Local Open Scope nat_scope.

Definition sorted3 (l : num * num * num) : Prop := let '(a, b, c) := l in nle a b = true /\ nle b c = true.
Lemma new_classifier_spec lam m th : match new_classifier lam m th with
  | Ok c => Z.of_nat (length lam) = (n_grids m * n_grids m * n_grids m)%Z /\ (forall l, In l lam -> sorted3 l) /\
      c_lam c = lam /\ c_mesh c = m /\ c_n c = map (count_above th) lam
  | Err e => e = AssertionError /\ (Z.of_nat (length lam) <> (n_grids m * n_grids m * n_grids m)%Z \/ exists l, In l lam /\ ~ sorted3 l)
  end.
Proof.
  unfold new_classifier. destruct (Z.eqb_spec (Z.of_nat (length lam)) (n_grids m * n_grids m * n_grids m)) as [E|E]; simpl; [|split; auto].
  destruct (forallb (fun '(a, b, _) => nle a b) lam) eqn:F1; simpl.
  - destruct (forallb (fun '(_, b, c) => nle b c) lam) eqn:F2; simpl.
    + split; [exact E|]. split; [|auto]. intros [[a b] c] H. rewrite forallb_forall in F1, F2. split; [exact (F1 _ H)|exact (F2 _ H)].
    + split; [reflexivity|]. right. clear E F1. induction lam as [|[[a b] c] lam IH]; [discriminate|]. simpl in F2. destruct (nle b c) eqn:N.
      * destruct (IH F2) as (l & I & K). exists l. split; [right; exact I|exact K].
      * exists (a, b, c). split; [left; reflexivity|]. intros [_ K]. congruence.
  - split; [reflexivity|]. right. clear E. induction lam as [|[[a b] c] lam IH]; [discriminate|]. simpl in F1. destruct (nle a b) eqn:N.
    + destruct (IH F1) as (l & I & K). exists l. split; [right; exact I|exact K].
    + exists (a, b, c). split; [left; reflexivity|]. intros [K _]. congruence.
Qed.
Lemma count_above_filter th a b c : count_above th (a, b, c) = Z.of_nat (length (filter (nlt th) [a; b; c])).
Proof. unfold count_above. simpl. destruct (nlt th a), (nlt th b), (nlt th c); reflexivity. Qed.
Lemma nlt_nle_trans th a b : nlt th a = true -> nle a b = true -> nlt th b = true.
Proof.
  unfold nle, nlt, Qltb. destruct th, a, b; simpl; intros H1 H2; try discriminate; try reflexivity.
  apply Bool.negb_true_iff in H1, H2. apply Bool.negb_true_iff. apply Bool.not_true_iff_false in H1. apply Bool.not_true_iff_false.
  apply Bool.negb_false_iff in H2. rewrite Qle_bool_iff in *. intros K. apply H1. lra.
Qed.
Lemma count_above_spec th a b c : sorted3 (a, b, c) -> let t := count_above th (a, b, c) in
  (0 <= t <= 3)%Z /\ (t = 3%Z <-> nlt th a = true) /\ (t = 2%Z <-> nlt th a = false /\ nlt th b = true) /\
  (t = 1%Z <-> nlt th b = false /\ nlt th c = true) /\ (t = 0%Z <-> nlt th c = false).
Proof.
  intros [S1 S2]. unfold count_above. destruct (nlt th a) eqn:A.
  - rewrite (nlt_nle_trans _ _ _ A S1). rewrite (nlt_nle_trans th b c (nlt_nle_trans _ _ _ A S1) S2). simpl. repeat split; intros; try lia; try congruence; intuition congruence.
  - destruct (nlt th b) eqn:B.
    + rewrite (nlt_nle_trans th b c B S2). simpl. repeat split; intros; try lia; try congruence; intuition congruence.
    + destruct (nlt th c); simpl; repeat split; intros; try lia; try congruence; intuition congruence.
Qed.
Lemma count_types (l : list Z) : (forall k, In k l -> (0 <= k <= 3)%Z) ->
  length (filter (fun k => (k =? 0)%Z) l) + length (filter (fun k => (k =? 1)%Z) l) + length (filter (fun k => (k =? 2)%Z) l) + length (filter (fun k => (k =? 3)%Z) l) = length l.
Proof.
  induction l as [|k l IH]; intros H; [reflexivity|]. specialize (IH (fun j Hj => H j (or_intror Hj))). specialize (H k (or_introl eq_refl)). simpl.
  assert (C : k = 0%Z \/ k = 1%Z \/ k = 2%Z \/ k = 3%Z) by lia. destruct C as [-> | [-> | [-> | ->]]]; simpl; lia.
Qed.
Lemma new_classifier_inv lam m th c : new_classifier lam m th = Ok c ->
  Z.of_nat (length lam) = (n_grids m * n_grids m * n_grids m)%Z /\ (forall l, In l lam -> sorted3 l) /\ c_lam c = lam /\ c_mesh c = m /\ c_n c = map (count_above th) lam.
Proof. intros E. pose proof (new_classifier_spec lam m th) as H. rewrite E in H. exact H. Qed.
Lemma c_n_range lam m th c : new_classifier lam m th = Ok c -> forall k, In k (c_n c) -> (0 <= k <= 3)%Z.
Proof.
  intros E k. destruct (new_classifier_inv _ _ _ _ E) as (_ & S & _ & _ & ->). rewrite in_map_iff. intros K; destruct K as ([[a b] d] & <- & I).
  apply (count_above_spec th a b d (S _ I)).
Qed.
Lemma fractions_sum lam m th c : (0 < n_grids m)%Z -> new_classifier lam m th = Ok c ->
  (fraction c 0 + fraction c 1 + fraction c 2 + fraction c 3 == 1)%Q /\ forall t, (0 <= fraction c t <= 1)%Q.
Proof.
  intros Hn E. pose proof (c_n_range _ _ _ _ E) as R. destruct (new_classifier_inv _ _ _ _ E) as (L & _ & _ & _ & Cn).
  assert (P : (0 < Z.of_nat (length (c_n c)))%Z) by (rewrite Cn, map_length, L; nia).
  assert (PQ : (0 < inject_Z (Z.of_nat (length (c_n c))))%Q) by (apply inject_pos; exact P). unfold fraction. split.
  - 
    set (a0 := length (filter (fun k : Z => (k =? 0)%Z) (c_n c))) in *. set (a1 := length (filter (fun k : Z => (k =? 1)%Z) (c_n c))) in *.
    set (a2 := length (filter (fun k : Z => (k =? 2)%Z) (c_n c))) in *. set (a3 := length (filter (fun k : Z => (k =? 3)%Z) (c_n c))) in *.
    pose proof (count_types _ R) as T. fold a0 a1 a2 a3 in T.
    assert (TQ : (inject_Z (Z.of_nat a0) + inject_Z (Z.of_nat a1) + inject_Z (Z.of_nat a2) + inject_Z (Z.of_nat a3) == inject_Z (Z.of_nat (length (c_n c))))%Q).
    { rewrite <- !inject_Z_plus, <- !Nat2Z.inj_add, T. reflexivity. }
    rewrite <- TQ. rewrite <- TQ in PQ. field. lra.
  - intros t. assert (0 <= inject_Z (Z.of_nat (length (filter (fun k : Z => (k =? t)%Z) (c_n c)))))%Q by (apply (proj1 (inject_le 0 _)); lia).
    assert (inject_Z (Z.of_nat (length (filter (fun k : Z => (k =? t)%Z) (c_n c)))) <= inject_Z (Z.of_nat (length (c_n c))))%Q.
    { apply (proj1 (inject_le _ _)). apply inj_le. clear. induction (c_n c) as [|k l IH]; simpl; [lia|]. destruct (k =? t)%Z; simpl; lia. }
    split; [apply Qle_shift_div_l; [exact PQ|lra]|apply Qle_shift_div_r; [exact PQ|lra]].
Qed.
(** The grid points. *)
Lemma grid_index_len n : length (grid_index n) = Z.to_nat n * (Z.to_nat n * Z.to_nat n).
Proof.
  unfold grid_index. rewrite (flat_map_const_len _ _ (Z.to_nat n * Z.to_nat n)); [rewrite map_length, seq_length; reflexivity|].
  intros a. rewrite (flat_map_const_len _ _ (Z.to_nat n)); [rewrite map_length, seq_length; reflexivity|]. intros b. rewrite !map_length, seq_length. reflexivity.
Qed.
Lemma grid_index_nth n i j k : (0 <= i < n)%Z -> (0 <= j < n)%Z -> (0 <= k < n)%Z -> nth_error (grid_index n) (Z.to_nat (flat n i j k)) = Some (i, j, k).
Proof.
  intros Hi Hj Hk. unfold grid_index. set (r := map Z.of_nat (seq 0 (Z.to_nat n))). set (N := Z.to_nat n).
  assert (Rn : forall v, (0 <= v < n)%Z -> nth_error r (Z.to_nat v) = Some v).
  { intros v Hv. unfold r. rewrite nth_error_map_seq. rewrite (proj2 (Nat.ltb_lt _ _)) by lia. f_equal. lia. }
  assert (Lr : length r = N) by (unfold r; rewrite map_length, seq_length; reflexivity).
  replace (Z.to_nat (flat n i j k)) with (Z.to_nat i * (N * N) + (Z.to_nat j * N + Z.to_nat k)).
  2:{ unfold flat, N. rewrite !Z2Nat.inj_add, !Z2Nat.inj_mul, Z2Nat.inj_add, Z2Nat.inj_mul by nia. nia. }
  rewrite flat_map_const_nth.
  - rewrite (Rn i Hi). rewrite flat_map_const_nth; [|intros; rewrite map_length; exact Lr|unfold N; lia]. rewrite (Rn j Hj), nth_error_map, (Rn k Hk). reflexivity.
  - intros a. rewrite (flat_map_const_len _ _ N); [rewrite Lr; reflexivity|]. intros b. rewrite map_length. exact Lr.
  - assert (Z.to_nat j < N /\ Z.to_nat k < N) by (unfold N; lia). nia.
Qed.
Lemma grid_index_inv n p q : nth_error (grid_index n) p = Some q -> exists i j k, q = (i, j, k) /\ (0 <= i < n)%Z /\ (0 <= j < n)%Z /\ (0 <= k < n)%Z /\ p = Z.to_nat (flat n i j k).
Proof.
  intros H. assert (L : p < length (grid_index n)) by (apply nth_error_Some; congruence). rewrite grid_index_len in L. set (N := Z.to_nat n) in *.
  assert (HN : 0 < N) by (destruct N; lia).
  pose proof (Nat.div_mod p (N * N) ltac:(nia)) as D1. pose proof (Nat.mod_upper_bound p (N * N) ltac:(nia)) as M1.
  pose proof (Nat.div_mod (p mod (N * N)) N ltac:(lia)) as D2. pose proof (Nat.mod_upper_bound (p mod (N * N)) N ltac:(lia)) as M2.
  set (i := p / (N * N)) in *. set (rr := p mod (N * N)) in *. set (j := rr / N) in *. set (k := rr mod N) in *.
  assert (i < N) by nia. assert (j < N) by nia.
  assert (HI : (0 <= Z.of_nat i < n)%Z) by (unfold N in *; lia). assert (HJ : (0 <= Z.of_nat j < n)%Z) by (unfold N in *; lia). assert (HK : (0 <= Z.of_nat k < n)%Z) by (unfold N in *; lia).
  assert (P : p = Z.to_nat (flat n (Z.of_nat i) (Z.of_nat j) (Z.of_nat k))). { unfold flat. replace n with (Z.of_nat N) by (unfold N; lia). rewrite <- !Nat2Z.inj_mul, <- !Nat2Z.inj_add, <- !Nat2Z.inj_mul, <- !Nat2Z.inj_add, Nat2Z.id. nia. }
  exists (Z.of_nat i), (Z.of_nat j), (Z.of_nat k). pose proof (grid_index_nth n _ _ _ HI HJ HK) as G. rewrite <- P, H in G. split; [congruence|]. auto.
Qed.
Lemma cell_of_grid m i j k : (0 < n_grids m)%Z -> (0 < l_box m)%Q -> (0 <= i < n_grids m)%Z -> (0 <= j < n_grids m)%Z -> (0 <= k < n_grids m)%Z ->
  cell_of m (inject_Z i * l_grid m, inject_Z j * l_grid m, inject_Z k * l_grid m)%Q = flat (n_grids m) i j k.
Proof.
  intros Hn Hl Hi Hj Hk. unfold cell_of, x_to_xi_3. pose proof (l_grid_pos m Hn Hl).
  rewrite (x_to_xi_unique m _ i 0 Hn Hl Hi), (x_to_xi_unique m _ j 0 Hn Hl Hj), (x_to_xi_unique m _ k 0 Hn Hl Hk); [reflexivity|..]; change (inject_Z 0) with 0%Q; lra.
Qed.
Lemma cell_of_range m x : (0 < n_grids m)%Z -> (0 < l_box m)%Q -> (0 <= cell_of m x < n_grids m * n_grids m * n_grids m)%Z.
Proof.
  intros Hn Hl. destruct x as [[x0 x1] x2]. unfold cell_of, x_to_xi_3. apply flat_range; apply x_to_xi_spec; assumption.
Qed.
Lemma web_type_at_spec lam m th c x : (0 < n_grids m)%Z -> (0 < l_box m)%Q -> new_classifier lam m th = Ok c ->
  exists l, nth_error lam (Z.to_nat (cell_of m x)) = Some l /\ lam_at c x = l /\ web_type_at c x = count_above th l.
Proof.
  intros Hn Hl E. destruct (new_classifier_inv _ _ _ _ E) as (L & _ & E1 & E2 & E3). pose proof (cell_of_range m x Hn Hl) as R.
  destruct (nth_error lam (Z.to_nat (cell_of m x))) as [l|] eqn:N.
  - exists l. split; [reflexivity|]. unfold lam_at, web_type_at. rewrite E1, E2, E3. split; [apply nth_error_nth; exact N|].
    apply nth_error_nth. rewrite nth_error_map, N. reflexivity.
  - exfalso. apply nth_error_None in N. lia.
Qed.
Lemma grid_points_spec lam m th c name : (0 < n_grids m)%Z -> (0 < l_box m)%Q -> new_classifier lam m th = Ok c ->
  match grid_points_of_web_type c name with
  | Ok pts => exists t, od_get String.eqb web_types name = Some t /\
      exists idx, pts = map (fun '(i, j, k) => (inject_Z i * l_grid m, inject_Z j * l_grid m, inject_Z k * l_grid m)%Q) idx /\ NoDup idx /\
      forall i j k, In (i, j, k) idx <-> (0 <= i < n_grids m)%Z /\ (0 <= j < n_grids m)%Z /\ (0 <= k < n_grids m)%Z /\
        web_type_at c (inject_Z i * l_grid m, inject_Z j * l_grid m, inject_Z k * l_grid m)%Q = t
  | Err e => e = KeyError /\ od_get String.eqb web_types name = None
  end.
Proof.
  intros Hn Hl E. destruct (new_classifier_inv _ _ _ _ E) as (L & _ & E1 & E2 & E3). unfold grid_points_of_web_type. destruct (od_get String.eqb web_types name) as [t|]; [|auto].
  exists t. split; [reflexivity|]. set (n := n_grids m) in *.
  assert (Lc : length (c_n c) = length (grid_index n)). { rewrite E3, map_length, grid_index_len. nia. }
  exists (map fst (filter (fun p => (snd p =? t)%Z) (combine (grid_index n) (c_n c)))). rewrite E2. fold n. split; [|split].
  - rewrite map_map. apply map_ext. intros [[[i j] k] z]. reflexivity.
  - assert (ND : NoDup (grid_index n)).
    { apply NoDup_nth_error. intros p q Hp Hq. destruct (nth_error (grid_index n) p) as [v|] eqn:V; [|apply nth_error_None in V; lia].
      destruct (grid_index_inv _ _ _ V) as (i & j & k & -> & Hi & Hj & Hk & ->). symmetry in Hq. destruct (grid_index_inv _ _ _ Hq) as (i' & j' & k' & Ev & _ & _ & _ & ->).
      congruence. }
    clear -ND Lc. revert Lc. generalize (c_n c). induction ND as [|a l NI ND IH]; intros [|z zs] Lc; simpl; try constructor.
    assert (NI' : ~ In a (map fst (filter (fun p : ivec * Z => (snd p =? t)%Z) (combine l zs)))).
    { intros I. apply in_map_iff in I. destruct I as ([a' z'] & <- & I). apply filter_In in I. destruct I as [I _]. apply in_combine_l in I. contradiction. }
    destruct (z =? t)%Z; simpl; [constructor; [exact NI'|]|]; apply IH; simpl in Lc; lia.
  - intros i j k. rewrite in_map_iff. split.
    + intros ([q z] & Eq & I). simpl in Eq. subst q. apply filter_In in I. destruct I as [I Ez]. simpl in Ez. apply Z.eqb_eq in Ez. subst z.
      apply In_nth_error in I. destruct I as (p & I). pose proof (nth_error_combine_inv _ _ _ _ I) as [I1 I2]. cbn [fst snd] in I1, I2.
      destruct (grid_index_inv _ _ _ I1) as (i' & j' & k' & Ev & Hi & Hj & Hk & ->). injection Ev as <- <- <-.
      repeat (split; [assumption|]). unfold web_type_at. rewrite E2. rewrite cell_of_grid by assumption. apply nth_error_nth. exact I2.
    + intros (Hi & Hj & Hk & W). unfold web_type_at in W. rewrite E2, cell_of_grid in W by assumption. fold n in W.
      exists (i, j, k, t). split; [reflexivity|]. apply filter_In. split; [|simpl; apply Z.eqb_refl].
      apply (nth_error_In _ (Z.to_nat (flat n i j k))). apply nth_error_combine; [apply grid_index_nth; assumption|].
      rewrite <- W. apply nth_error_nth'. rewrite Lc, grid_index_len. pose proof (flat_range n i j k Hi Hj Hk). nia.
Qed.
