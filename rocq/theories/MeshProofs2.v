From Coq Require Import QArith Qround Qabs Qminmax Lqa Permutation.
From Verif Require Import Base OrderSpec BinSpec BinModel BinProofs BinProofs2 BinProofs3 BinProofs4 MeshSpec ProcModel ProcProofs MeshModel MeshProofs.
Local Open Scope list_scope. Local Open Scope nat_scope.

(** ** weights *)
Lemma weights_spec m x : (0 < n_grids m)%Z -> let '(il, ir, wl, wr) := weights_at m x in
  (0 <= il < n_grids m)%Z /\ (0 <= ir < n_grids m)%Z /\ (0 < wl)%Q /\ (wl <= 1)%Q /\ (0 <= wr)%Q /\ (wr < 1)%Q /\ (wl + wr == 1)%Q /\
  il = (x2xi m x mod n_grids m)%Z /\ ir = ((x2xi m x + 1) mod n_grids m)%Z /\ (wr == x / l_grid m - inject_Z (x2xi m x))%Q.
Proof.
  intros Hn. unfold weights_at. fold (x2xi m x). pose proof (Qfloor_le (x / l_grid m)) as A. pose proof (Qlt_floor (x / l_grid m)) as B.
  fold (x2xi m x) in A, B. rewrite inject_Z_plus in B. change (inject_Z 1) with 1%Q in B.
  repeat split; try (apply Z.mod_pos_bound; assumption); try lra.
Qed.
Definition share (m : mesh) (x : Q) (i : Z) : Q :=
  let '(il, ir, wl, wr) := weights_at m x in ((if (il =? i)%Z then wl else 0) + (if (ir =? i)%Z then wr else 0))%Q.
Lemma shape_tri d : (shape_at_xi d == tri d)%Q.
Proof.
  unfold shape_at_xi, tri. destruct (Qle_bool (Qabs d) 1) eqn:E.
  - apply Qle_bool_iff in E. rewrite Q.max_l by lra. reflexivity.
  - rewrite <- not_true_iff_false, Qle_bool_iff in E. rewrite Q.max_r by lra. reflexivity.
Qed.
Lemma tri_in d : (-1 <= d <= 1)%Q -> (tri d == if Qle_bool 0 d then 1 - d else 1 + d)%Q.
Proof.
  intros [H1 H2]. unfold tri. destruct (Qle_bool (Qabs d) 1) eqn:E1; [|rewrite <- not_true_iff_false, Qle_bool_iff in E1; exfalso; apply E1; apply Qabs_case; intros; lra].
  destruct (Qle_bool 0 d) eqn:E.
  - apply Qle_bool_iff in E. rewrite Qabs_pos by assumption. reflexivity.
  - rewrite <- not_true_iff_false, Qle_bool_iff in E. rewrite Qabs_neg by lra. ring.
Qed.
Lemma tri_out d : (d <= -1)%Q \/ (1 <= d)%Q -> (tri d == 0)%Q.
Proof.
  intros H. unfold tri. destruct (Qle_bool (Qabs d) 1) eqn:E; [|reflexivity]. apply Qle_bool_iff in E.
  revert E. apply Qabs_case; intros; lra.
Qed.
Lemma share_cloud m x i : (0 < n_grids m)%Z -> (0 < l_box m)%Q -> (0 <= x)%Q -> (x < l_box m)%Q -> (0 <= i < n_grids m)%Z ->
  (share m x i == cloud (n_grids m) (x / l_grid m) i)%Q.
Proof.
  intros Hn Hl H0 H1 Hi. pose proof (l_grid_pos m Hn Hl) as L. pose proof (l_grid_box m Hn) as B.
  unfold share. pose proof (weights_spec m x Hn) as W. destruct (weights_at m x) as [[[il ir] wl] wr].
  destruct W as (_ & _ & W1 & W2 & W3 & W4 & W5 & -> & -> & W6).
  set (f := x2xi m x) in *. set (u := (x / l_grid m)%Q) in *.
  assert (F0 : (0 <= f)%Z) by (apply x2xi_spec; [assumption|]; change (inject_Z 0) with 0%Q; lra).
  assert (F1 : (f < n_grids m)%Z) by (apply x2xi_spec2; [assumption|]; rewrite B; assumption).
  rewrite (Z.mod_small f) by lia. unfold cloud.
  assert (Cmp : forall a b, (a <= b)%Z -> (inject_Z a <= inject_Z b)%Q) by (intros; apply (proj1 (inject_le _ _)); assumption).
  assert (In1 : forall a, (inject_Z (a + 1) == inject_Z a + 1)%Q) by (intros; rewrite inject_Z_plus; reflexivity).
  pose proof (Cmp 1%Z (n_grids m) ltac:(lia)) as N1. change (inject_Z 1) with 1%Q in N1.
  destruct (Z.eqb_spec f i) as [E|E].
  - subst i. rewrite (tri_in (u - inject_Z f)) by lra. replace (Qle_bool 0 (u - inject_Z f)) with true by (symmetry; apply Qle_bool_iff; lra).
    destruct (Z.eq_dec (f + 1) (n_grids m)) as [E1|E1].
    + rewrite E1, Z.mod_same by lia. destruct (Z.eqb_spec 0 f) as [E2|E2].
      * assert (NE : (inject_Z (n_grids m) == 1)%Q) by (rewrite <- E1, <- E2; reflexivity).
        assert (FE : (inject_Z f == 0)%Q) by (rewrite <- E2; reflexivity).
        destruct (Qeq_dec wr 0) as [Z0|Z0].
        -- rewrite tri_out by lra. lra.
        -- rewrite (tri_in (u - inject_Z f - inject_Z (n_grids m))) by lra. replace (Qle_bool 0 _) with false by (symmetry; apply not_true_iff_false; rewrite Qle_bool_iff; lra). lra.
      * pose proof (Cmp 2%Z (n_grids m) ltac:(lia)). change (inject_Z 2) with 2%Q in *. rewrite (tri_out (u - inject_Z f - inject_Z (n_grids m))) by lra. lra.
    + rewrite Z.mod_small by lia. destruct (Z.eqb_spec (f + 1) f); [lia|].
      pose proof (Cmp 2%Z (n_grids m) ltac:(lia)). change (inject_Z 2) with 2%Q in *. rewrite (tri_out (u - inject_Z f - inject_Z (n_grids m))) by lra. lra.
  - destruct (Z.eq_dec (f + 1) (n_grids m)) as [E1|E1].
    + rewrite E1, Z.mod_same by lia. assert (NE : (inject_Z (n_grids m) == inject_Z f + 1)%Q) by (rewrite <- E1; apply In1).
      destruct (Z.eqb_spec 0 i) as [E2|E2].
      * subst i. change (inject_Z 0) with 0%Q. pose proof (Cmp 1%Z f ltac:(lia)). change (inject_Z 1) with 1%Q in *.
        rewrite (tri_out (u - 0)) by lra. destruct (Qeq_dec wr 0) as [Z0|Z0].
        -- rewrite tri_out by lra. lra.
        -- rewrite (tri_in (u - 0 - inject_Z (n_grids m))) by lra. replace (Qle_bool 0 _) with false by (symmetry; apply not_true_iff_false; rewrite Qle_bool_iff; lra). lra.
      * pose proof (Cmp 1%Z i ltac:(lia)). pose proof (Cmp (i + 1)%Z f ltac:(lia)) as C. rewrite In1 in C. change (inject_Z 1) with 1%Q in *.
        rewrite (tri_out (u - inject_Z i)) by lra. rewrite tri_out by lra. lra.
    + rewrite (Z.mod_small (f + 1)) by lia. pose proof (Cmp (i + 1)%Z (n_grids m) ltac:(lia)) as C1. pose proof (Cmp 0%Z i ltac:(lia)) as C2. change (inject_Z 0) with 0%Q in C2.
      pose proof (Cmp (f + 2)%Z (n_grids m) ltac:(lia)) as C3. rewrite inject_Z_plus in C3. change (inject_Z 2) with 2%Q in C3.
      rewrite (tri_out (u - inject_Z i - inject_Z (n_grids m))) by lra.
      destruct (Z.eqb_spec (f + 1) i) as [E2|E2].
      * subst i. rewrite In1 in *. destruct (Qeq_dec wr 0) as [Z0|Z0].
        -- setoid_rewrite tri_out; [lra|]. rewrite In1. lra.
        -- setoid_rewrite tri_in; [|rewrite In1; lra]. replace (Qle_bool 0 _) with false by (symmetry; apply not_true_iff_false; rewrite Qle_bool_iff, In1; lra). rewrite In1. lra.
      * destruct (Z_lt_le_dec i f) as [Hlt|Hge].
        -- pose proof (Cmp (i + 1)%Z f ltac:(lia)) as C. rewrite In1 in C. rewrite tri_out by lra. lra.
        -- pose proof (Cmp (f + 2)%Z i ltac:(lia)) as C. rewrite inject_Z_plus in C. change (inject_Z 2) with 2%Q in C. rewrite tri_out by lra. lra.
Qed.

(** ** corners *)
Lemma corners_range m x c w : (0 < n_grids m)%Z -> In (c, w) (corners m x) -> (0 <= c < n_grids m * n_grids m * n_grids m)%Z /\ (0 <= w)%Q /\ (w <= 1)%Q.
Proof.
  intros Hn H. destruct x as [[x0 x1] x2]. unfold corners in H.
  pose proof (weights_spec m x0 Hn) as W0. destruct (weights_at m x0) as [[[il0 ir0] wl0] wr0].
  pose proof (weights_spec m x1 Hn) as W1. destruct (weights_at m x1) as [[[il1 ir1] wl1] wr1].
  pose proof (weights_spec m x2 Hn) as W2. destruct (weights_at m x2) as [[[il2 ir2] wl2] wr2].
  destruct W0 as (A0 & B0 & C0 & D0 & E0 & F0 & _). destruct W1 as (A1 & B1 & C1 & D1 & E1 & F1 & _). destruct W2 as (A2 & B2 & C2 & D2 & E2 & F2 & _).
  assert (G : forall a b c, (0 <= a)%Q -> (a <= 1)%Q -> (0 <= b)%Q -> (b <= 1)%Q -> (0 <= c)%Q -> (c <= 1)%Q -> (0 <= a * b * c)%Q /\ (a * b * c <= 1)%Q).
  { intros a b c' P1 P2 P3 P4 P5 P6. assert (0 <= a * b)%Q by nra. assert (a * b <= 1)%Q by nra. split; nra. }
  assert (K : forall i j k a b c', (0 <= i < n_grids m)%Z -> (0 <= j < n_grids m)%Z -> (0 <= k < n_grids m)%Z ->
    (0 <= a)%Q -> (a <= 1)%Q -> (0 <= b)%Q -> (b <= 1)%Q -> (0 <= c')%Q -> (c' <= 1)%Q -> (flat (n_grids m) i j k, (a * b * c')%Q) = (c, w) ->
    (0 <= c < n_grids m * n_grids m * n_grids m)%Z /\ (0 <= w)%Q /\ (w <= 1)%Q).
  { intros i j k a b c' I J K' P1 P2 P3 P4 P5 P6 E. assert (Ec : c = flat (n_grids m) i j k) by congruence. assert (Ew : w = (a * b * c')%Q) by congruence. subst.
    split; [apply flat_range; assumption|]. apply G; assumption. }
  cbn [In] in H. repeat (destruct H as [H|H]; [eapply K; [..|exact H]; try assumption; lra|]). destruct H.
Qed.
Lemma corners_sum m x : (0 < n_grids m)%Z -> (Qsum (map snd (corners m x)) == 1)%Q.
Proof.
  intros Hn. destruct x as [[x0 x1] x2]. unfold corners.
  pose proof (weights_spec m x0 Hn) as W0. destruct (weights_at m x0) as [[[il0 ir0] wl0] wr0].
  pose proof (weights_spec m x1 Hn) as W1. destruct (weights_at m x1) as [[[il1 ir1] wl1] wr1].
  pose proof (weights_spec m x2 Hn) as W2. destruct (weights_at m x2) as [[[il2 ir2] wl2] wr2].
  assert (S0 : (wl0 + wr0 == 1)%Q) by tauto. assert (S1 : (wl1 + wr1 == 1)%Q) by tauto. assert (S2 : (wl2 + wr2 == 1)%Q) by tauto.
  cbn [map snd Qsum].
  transitivity ((wl0 + wr0) * (wl1 + wr1) * (wl2 + wr2))%Q; [ring|]. rewrite S0, S1, S2. reflexivity.
Qed.
(** What a unit point at [x] puts into cell [c]. *)
Definition deposit (m : mesh) (x : vec) (c : Z) : Q := Qsum (map (fun p => if (fst p =? c)%Z then snd p else 0%Q) (corners m x)).
Lemma deposit_shares m x0 x1 x2 i j k : (0 < n_grids m)%Z -> (0 <= j < n_grids m)%Z -> (0 <= k < n_grids m)%Z ->
  (deposit m (x0, x1, x2) (flat (n_grids m) i j k) == share m x0 i * share m x1 j * share m x2 k)%Q.
Proof.
  intros Hn Hj Hk. unfold deposit, corners, share.
  pose proof (weights_spec m x0 Hn) as W0. destruct (weights_at m x0) as [[[il0 ir0] wl0] wr0].
  pose proof (weights_spec m x1 Hn) as W1. destruct (weights_at m x1) as [[[il1 ir1] wl1] wr1].
  pose proof (weights_spec m x2 Hn) as W2. destruct (weights_at m x2) as [[[il2 ir2] wl2] wr2].
  assert (FE : forall a b c, (0 <= b < n_grids m)%Z -> (0 <= c < n_grids m)%Z -> (flat (n_grids m) a b c =? flat (n_grids m) i j k)%Z = (a =? i)%Z && (b =? j)%Z && (c =? k)%Z).
  { intros a b c Hb Hc. destruct (Z.eqb_spec (flat (n_grids m) a b c) (flat (n_grids m) i j k)) as [E|E].
    - apply flat_inj in E; try assumption. destruct E as (-> & -> & ->). rewrite !Z.eqb_refl. reflexivity.
    - destruct (Z.eqb_spec a i), (Z.eqb_spec b j), (Z.eqb_spec c k); try reflexivity. congruence. }
  cbn [map fst snd Qsum]. rewrite !FE by tauto.
  destruct (il0 =? i)%Z, (ir0 =? i)%Z, (il1 =? j)%Z, (ir1 =? j)%Z, (il2 =? k)%Z, (ir2 =? k)%Z; cbn [andb]; ring.
Qed.

(** ** adding *)
Lemma add_cell_len d i w : length (add_cell d i w) = length d.
Proof. unfold add_cell. destruct (nth_error d (Z.to_nat i)); [apply upd_nth_length|reflexivity]. Qed.
Lemma add_cell_nth d i w c v : (0 <= i)%Z -> nth_error d c = Some v ->
  exists v', nth_error (add_cell d i w) c = Some v' /\ (v' == v + if (i =? Z.of_nat c)%Z then w else 0)%Q.
Proof.
  intros Hi Hv. assert (Hc : c < length d) by (apply nth_error_Some; congruence). unfold add_cell. destruct (Z.eqb_spec i (Z.of_nat c)) as [->|N].
  - rewrite Nat2Z.id, Hv, upd_nth_same by assumption. eexists. split; [reflexivity|]. reflexivity.
  - destruct (nth_error d (Z.to_nat i)); [rewrite upd_nth_other by lia|]; rewrite Hv; eexists; (split; [reflexivity|]); ring.
Qed.
Lemma fold_cells_nth cs wt d c v : (forall p, In p cs -> (0 <= fst p)%Z) -> nth_error d c = Some v ->
  exists v', nth_error (fold_left (fun d p => add_cell d (fst p) (snd p * wt)%Q) cs d) c = Some v' /\
    (v' == v + Qsum (map (fun p => if (fst p =? Z.of_nat c)%Z then snd p else 0%Q) cs) * wt)%Q.
Proof.
  revert d v. induction cs as [|p cs IH]; intros d v H Hv; cbn [fold_left map Qsum].
  - exists v. split; [assumption|]. ring.
  - destruct (add_cell_nth d (fst p) (snd p * wt) c v (H p (or_introl eq_refl)) Hv) as (v1 & H1 & E1).
    destruct (IH _ v1 (fun q Hq => H q (or_intror Hq)) H1) as (v2 & H2 & E2). exists v2. split; [exact H2|]. rewrite E2, E1.
    destruct (fst p =? Z.of_nat c)%Z; ring.
Qed.
Lemma fold_cells_len cs wt d : length (fold_left (fun d p => add_cell d (fst p) (snd p * wt)%Q) cs d) = length d.
Proof. revert d. induction cs as [|p cs IH]; intros d; cbn [fold_left]; [reflexivity|]. rewrite IH. apply add_cell_len. Qed.
Lemma add_1_nth m d x wt c v : (0 < n_grids m)%Z -> nth_error d c = Some v ->
  exists v', nth_error (add_1 m d x wt) c = Some v' /\ (v' == v + wt * deposit m x (Z.of_nat c))%Q.
Proof.
  intros Hn Hv. unfold add_1. destruct (fold_cells_nth (corners m x) wt d c v) as (v' & H1 & H2).
  - intros [i w] H. apply corners_range in H; [|assumption]. cbn [fst]. tauto.
  - exact Hv.
  - exists v'. split; [exact H1|]. rewrite H2. unfold deposit. ring.
Qed.
Lemma add_1_len m d x w : length (add_1 m d x w) = length d.
Proof. apply fold_cells_len. Qed.
(** The weighted points of a call. *)
Definition points (xs : list vec) (ws : option (list Q)) : list (vec * Q) := match ws with Some ws => combine xs ws | None => map (fun x => (x, 1%Q)) xs end.
Lemma lin_add_points m d xs ws : lin_add m d xs ws = fold_left (fun d p => add_1 m d (fst p) (snd p)) (points xs ws) d.
Proof. destruct ws as [ws|]; [reflexivity|]. unfold lin_add, points. revert d. induction xs as [|x xs IH]; intros d; cbn [fold_left map fst snd]; [reflexivity|apply IH]. Qed.
Lemma fold_add_1_len m ps d : length (fold_left (fun d p => add_1 m d (fst p) (snd p)) ps d) = length d.
Proof. revert d. induction ps as [|p ps IH]; intros d; cbn [fold_left]; [reflexivity|]. rewrite IH. apply add_1_len. Qed.
Lemma fold_add_1_nth m ps d c v : (0 < n_grids m)%Z -> nth_error d c = Some v ->
  exists v', nth_error (fold_left (fun d p => add_1 m d (fst p) (snd p)) ps d) c = Some v' /\
    (v' == v + Qsum (map (fun p => snd p * deposit m (fst p) (Z.of_nat c)) ps))%Q.
Proof.
  intros Hn. revert d v. induction ps as [|p ps IH]; intros d v Hv; cbn [fold_left map Qsum].
  - exists v. split; [assumption|ring].
  - destruct (add_1_nth m d (fst p) (snd p) c v Hn Hv) as (v1 & H1 & E1). destruct (IH _ v1 H1) as (v2 & H2 & E2). exists v2. split; [exact H2|]. rewrite E2, E1. ring.
Qed.
Lemma add_cell_sum d i w : (0 <= i < Z.of_nat (length d))%Z -> (Qsum (add_cell d i w) == Qsum d + w)%Q.
Proof.
  intros H. unfold add_cell. destruct (nth_error d (Z.to_nat i)) as [v|] eqn:E; [apply Qsum_upd; assumption|]. apply nth_error_None in E. lia.
Qed.
Lemma add_1_sum m d x w : (0 < n_grids m)%Z -> length d = Z.to_nat (n_grids m * n_grids m * n_grids m) -> (Qsum (add_1 m d x w) == Qsum d + w)%Q.
Proof.
  intros Hn L. unfold add_1.
  assert (G : forall cs d, (forall p, In p cs -> (0 <= fst p < Z.of_nat (length d))%Z) ->
    (Qsum (fold_left (fun d p => add_cell d (fst p) (snd p * w)%Q) cs d) == Qsum d + Qsum (map snd cs) * w)%Q).
  { induction cs as [|p cs IH]; intros d0 H; cbn [fold_left map Qsum]; [ring|]. rewrite IH by (intros q Hq; rewrite add_cell_len; apply H; right; assumption).
    rewrite add_cell_sum by (apply H; left; reflexivity). ring. }
  rewrite G.
  - rewrite corners_sum by assumption. ring.
  - intros [c v] H. apply corners_range in H; [|assumption]. cbn [fst]. rewrite L. lia.
Qed.
Lemma lin_add_sum m d xs ws : (0 < n_grids m)%Z -> length d = Z.to_nat (n_grids m * n_grids m * n_grids m) ->
  (Qsum (lin_add m d xs ws) == Qsum d + Qsum (map snd (points xs ws)))%Q.
Proof.
  intros Hn L. rewrite lin_add_points. generalize (points xs ws) as ps. intros ps. revert d L. induction ps as [|p ps IH]; intros d L; cbn [fold_left map Qsum]; [ring|].
  rewrite IH by (rewrite add_1_len; exact L). rewrite add_1_sum by assumption. ring.
Qed.
Lemma deposit_nonneg m x c : (0 < n_grids m)%Z -> (0 <= deposit m x c)%Q.
Proof.
  intros Hn. unfold deposit. assert (G : forall l, (forall p, In p l -> (0 <= snd p)%Q) -> (0 <= Qsum (map (fun p : Z * Q => if (fst p =? c)%Z then snd p else 0%Q) l))%Q).
  { induction l as [|p l IH]; intros H; cbn [map Qsum]; [lra|]. specialize (IH (fun q Hq => H q (or_intror Hq))). specialize (H p (or_introl eq_refl)). destruct (fst p =? c)%Z; lra. }
  apply G. intros [i w] H. apply corners_range in H; [|assumption]. cbn [snd]. tauto.
Qed.
Lemma deposit_total m x : (0 < n_grids m)%Z -> (Qsum (map (fun c => deposit m x (Z.of_nat c)) (seq 0 (Z.to_nat (n_grids m * n_grids m * n_grids m)))) == 1)%Q.
Proof.
  intros Hn. pose proof (add_1_sum m (repeat 0%Q (Z.to_nat (n_grids m * n_grids m * n_grids m))) x 1 Hn (repeat_length _ _)) as S. rewrite Qsum_repeat0 in S.
  rewrite <- (Qplus_0_l 1), <- S. set (N := Z.to_nat (n_grids m * n_grids m * n_grids m)) in *. set (l := add_1 m (repeat 0%Q N) x 1).
  assert (Ll : length l = N) by (unfold l; rewrite add_1_len; apply repeat_length).
  assert (E : forall c, c < N -> (deposit m x (Z.of_nat c) == nth c l 0)%Q).
  { intros c Hc. destruct (add_1_nth m (repeat 0%Q N) x 1 c 0%Q Hn) as (v & H1 & H2).
    - rewrite (nth_error_nth' _ 0%Q) by (rewrite repeat_length; assumption). rewrite nth_repeat. reflexivity.
    - unfold l. rewrite (nth_error_nth _ _ _ H1), H2. ring. }
  rewrite (Qsum_ext _ (fun c => nth c l 0%Q)) by (intros c Hc; apply in_seq in Hc; apply E; lia).
  assert (R : map (fun c => nth c l 0%Q) (seq 0 N) = l) by (rewrite <- Ll; apply take_seq). rewrite R. reflexivity.
Qed.
Lemma value_deposit m d x : (0 < n_grids m)%Z -> length d = Z.to_nat (n_grids m * n_grids m * n_grids m) ->
  (value_at m d x == Qsum (map (fun c => nth c d 0 * deposit m x (Z.of_nat c)) (seq 0 (length d))))%Q.
Proof.
  intros Hn L. unfold value_at, deposit.
  assert (B : forall p, In p (corners m x) -> (0 <= fst p < Z.of_nat (length d))%Z) by (intros [i w] H; apply corners_range in H; [|assumption]; cbn [fst]; rewrite L; lia).
  revert B. generalize (corners m x) as cs. intros cs. induction cs as [|p cs IH]; intros B; cbn [map Qsum].
  - rewrite (Qsum_ext _ (fun _ => 0%Q)) by (intros; ring). clear. induction (seq 0 (length d)) as [|a l IH]; cbn [map Qsum]; [reflexivity|]. rewrite <- IH. ring.
  - rewrite (IH (fun q Hq => B q (or_intror Hq))).
    assert (P : forall a b l, (Qsum (map a l) + Qsum (map b l) == Qsum (map (fun c : nat => a c + b c) l))%Q).
    { clear. induction l as [|c l IH]; cbn [map Qsum]; [ring|]. rewrite <- IH. ring. }
    transitivity (Qsum (map (fun c => (if (fst p =? Z.of_nat c)%Z then nth c d 0 * snd p else 0) +
       nth c d 0 * Qsum (map (fun q : Z * Q => if (fst q =? Z.of_nat c)%Z then snd q else 0) cs))%Q (seq 0 (length d)))); [|apply Qsum_ext; intros c _; destruct (fst p =? Z.of_nat c)%Z; ring].
    rewrite <- P. assert (One : (Qsum (map (fun c => if (fst p =? Z.of_nat c)%Z then nth c d 0 * snd p else 0) (seq 0 (length d))) == nth (Z.to_nat (fst p)) d 0 * snd p)%Q).
    { specialize (B p (or_introl eq_refl)). assert (I : In (Z.to_nat (fst p)) (seq 0 (length d))) by (apply in_seq; lia). assert (ND := seq_NoDup (length d) 0). clear IH.
      induction ND as [|c l Hc ND IH2]; [destruct I|]. cbn [map Qsum]. destruct I as [->|I].
      - rewrite Z2Nat.id, Z.eqb_refl by lia. rewrite (Qsum_ext _ (fun _ => 0%Q)).
        + assert (Z0 : (Qsum (map (fun _ : nat => 0%Q) l) == 0)%Q) by (clear; induction l; cbn [map Qsum]; [reflexivity|rewrite IHl; ring]). rewrite Z0. ring.
        + intros c Hin. destruct (Z.eqb_spec (fst p) (Z.of_nat c)) as [E|]; [|reflexivity]. exfalso. apply Hc. rewrite E, Nat2Z.id. assumption.
      - rewrite (IH2 I). destruct (Z.eqb_spec (fst p) (Z.of_nat c)) as [E|]; [|ring]. exfalso. apply Hc. rewrite <- (Nat2Z.id c), <- E. assumption. }
    rewrite One. reflexivity.
Qed.
(** Convexity. *)
Lemma value_bounds m d x lo hi : (0 < n_grids m)%Z -> length d = Z.to_nat (n_grids m * n_grids m * n_grids m) ->
  (forall v, In v d -> (lo <= v <= hi)%Q) -> (lo <= value_at m d x <= hi)%Q.
Proof.
  intros Hn L H. unfold value_at. pose proof (corners_sum m x Hn) as S.
  assert (B : forall p, In p (corners m x) -> (0 <= snd p)%Q /\ (lo <= nth (Z.to_nat (fst p)) d 0 <= hi)%Q).
  { intros [c w] Hp. apply corners_range in Hp; [|assumption]. cbn [fst snd]. split; [tauto|]. apply H. apply nth_In. rewrite L. lia. }
  assert (G : forall cs, (forall p, In p cs -> (0 <= snd p)%Q /\ (lo <= nth (Z.to_nat (fst p)) d 0 <= hi)%Q) ->
    (lo * Qsum (map snd cs) <= Qsum (map (fun c => nth (Z.to_nat (fst c)) d 0 * snd c) cs) <= hi * Qsum (map snd cs))%Q).
  { clear. induction cs as [|p cs IH]; intros B; cbn [map Qsum]; [lra|]. specialize (IH (fun q Hq => B q (or_intror Hq))). destruct (B p (or_introl eq_refl)) as [B1 B2].
    assert (lo * snd p <= nth (Z.to_nat (fst p)) d 0 * snd p)%Q by nra. assert (nth (Z.to_nat (fst p)) d 0 * snd p <= hi * snd p)%Q by nra. lra. }
  specialize (G _ B). rewrite S in G. lra.
Qed.
(** Two positions with the same corner cells and equal weights. *)
Definition same_corners (cs cs' : list (Z * Q)) : Prop := Forall2 (fun p q => fst p = fst q /\ (snd p == snd q)%Q) cs cs'.
Lemma weights_shift m x k : (0 < n_grids m)%Z -> (0 < l_box m)%Q -> let '(il, ir, wl, wr) := weights_at m x in
  let '(il', ir', wl', wr') := weights_at m (x + inject_Z k * l_box m)%Q in il = il' /\ ir = ir' /\ (wl == wl')%Q /\ (wr == wr')%Q.
Proof.
  intros Hn Hl. pose proof (weights_spec m x Hn) as W. pose proof (weights_spec m (x + inject_Z k * l_box m)%Q Hn) as W'.
  destruct (weights_at m x) as [[[il ir] wl] wr]. destruct (weights_at m _) as [[[il' ir'] wl'] wr'].
  destruct W as (_ & _ & _ & _ & _ & _ & S & E1 & E2 & E3). destruct W' as (_ & _ & _ & _ & _ & _ & S' & E1' & E2' & E3').
  rewrite x2xi_shift in E1', E2', E3' by assumption. pose proof (l_grid_pos m Hn Hl). pose proof (l_grid_box m Hn) as B. pose proof (inject_pos _ Hn).
  assert (WR : (wr == wr')%Q).
  { rewrite E3, E3'. rewrite inject_Z_plus, inject_Z_mult. rewrite <- B. field. lra. }
  split; [rewrite E1, E1'; symmetry; apply Z.mod_add; lia|]. split; [rewrite E2, E2'|split; [lra|exact WR]].
  replace (x2xi m x + k * n_grids m + 1)%Z with (x2xi m x + 1 + k * n_grids m)%Z by lia. symmetry. apply Z.mod_add. lia.
Qed.
Lemma corners_shift m x k : (0 < n_grids m)%Z -> (0 < l_box m)%Q -> same_corners (corners m x) (corners m (image (l_box m) x k)).
Proof.
  intros Hn Hl. destruct x as [[x0 x1] x2], k as [[k0 k1] k2]. unfold corners, image.
  pose proof (weights_shift m x0 k0 Hn Hl) as W0. destruct (weights_at m x0) as [[[il0 ir0] wl0] wr0]. destruct (weights_at m (x0 + _)%Q) as [[[il0' ir0'] wl0'] wr0'].
  pose proof (weights_shift m x1 k1 Hn Hl) as W1. destruct (weights_at m x1) as [[[il1 ir1] wl1] wr1]. destruct (weights_at m (x1 + _)%Q) as [[[il1' ir1'] wl1'] wr1'].
  pose proof (weights_shift m x2 k2 Hn Hl) as W2. destruct (weights_at m x2) as [[[il2 ir2] wl2] wr2]. destruct (weights_at m (x2 + _)%Q) as [[[il2' ir2'] wl2'] wr2'].
  destruct W0 as (<- & <- & P0 & Q0). destruct W1 as (<- & <- & P1 & Q1). destruct W2 as (<- & <- & P2 & Q2).
  unfold same_corners. repeat (constructor; [cbn [fst snd]; split; [reflexivity|]; rewrite ?P0, ?Q0, ?P1, ?Q1, ?P2, ?Q2; reflexivity|]). constructor.
Qed.
Lemma deposit_shift m x k c : (0 < n_grids m)%Z -> (0 < l_box m)%Q -> (deposit m (image (l_box m) x k) c == deposit m x c)%Q.
Proof.
  intros Hn Hl. pose proof (corners_shift m x k Hn Hl) as S. unfold deposit. induction S as [|p q l l' [E1 E2] S IH]; cbn [map Qsum]; [reflexivity|].
  rewrite IH, E1. destruct (fst q =? c)%Z; [rewrite E2|]; reflexivity.
Qed.
Lemma value_shift m d x k : (0 < n_grids m)%Z -> (0 < l_box m)%Q -> (value_at m d (image (l_box m) x k) == value_at m d x)%Q.
Proof.
  intros Hn Hl. pose proof (corners_shift m x k Hn Hl) as S. unfold value_at. induction S as [|p q l l' [E1 E2] S IH]; cbn [map Qsum]; [reflexivity|].
  rewrite IH, E1, E2. reflexivity.
Qed.
Lemma weights_grid m i : (0 < n_grids m)%Z -> (0 < l_box m)%Q -> let '(il, ir, wl, wr) := weights_at m (inject_Z i * l_grid m)%Q in
  il = (i mod n_grids m)%Z /\ (wl == 1)%Q /\ (wr == 0)%Q.
Proof.
  intros Hn Hl. pose proof (l_grid_pos m Hn Hl) as L. pose proof (weights_spec m (inject_Z i * l_grid m)%Q Hn) as W. destruct (weights_at m _) as [[[il ir] wl] wr].
  destruct W as (_ & _ & _ & _ & _ & _ & S & E1 & E2 & E3).
  assert (X : x2xi m (inject_Z i * l_grid m) = i).
  { apply Z.le_antisymm.
    - assert (x2xi m (inject_Z i * l_grid m) < i + 1)%Z; [|lia]. apply x2xi_spec2; [assumption|]. rewrite inject_Z_plus. change (inject_Z 1) with 1%Q. lra.
    - apply x2xi_spec; [assumption|lra]. }
  rewrite X in *. split; [exact E1|]. assert (wr == 0)%Q; [rewrite E3; field; lra|]. split; lra.
Qed.
Lemma value_grid m d i j k : (0 < n_grids m)%Z -> (0 < l_box m)%Q ->
  (value_at m d (inject_Z i * l_grid m, inject_Z j * l_grid m, inject_Z k * l_grid m) == nth (Z.to_nat (flat (n_grids m) (i mod n_grids m) (j mod n_grids m) (k mod n_grids m))) d 0)%Q.
Proof.
  intros Hn Hl. unfold value_at, corners.
  pose proof (weights_grid m i Hn Hl) as W0. destruct (weights_at m (inject_Z i * _)%Q) as [[[il0 ir0] wl0] wr0].
  pose proof (weights_grid m j Hn Hl) as W1. destruct (weights_at m (inject_Z j * _)%Q) as [[[il1 ir1] wl1] wr1].
  pose proof (weights_grid m k Hn Hl) as W2. destruct (weights_at m (inject_Z k * _)%Q) as [[[il2 ir2] wl2] wr2].
  destruct W0 as (-> & A0 & B0). destruct W1 as (-> & A1 & B1). destruct W2 as (-> & A2 & B2).
  cbn [map fst snd Qsum]. rewrite A0, B0, A1, B1, A2, B2. ring.
Qed.
(** Trilinear: exact on affine fields away from the wrap-around. *)
Lemma weights_inner m x : (0 < n_grids m)%Z -> (0 < l_box m)%Q -> (0 <= x)%Q -> (x < l_box m - l_grid m)%Q ->
  let '(il, ir, wl, wr) := weights_at m x in (0 <= il)%Z /\ ir = (il + 1)%Z /\ (ir < n_grids m)%Z /\ (wl * inject_Z il + wr * inject_Z ir == x / l_grid m)%Q /\ (wl + wr == 1)%Q.
Proof.
  intros Hn Hl H0 H1. pose proof (l_grid_pos m Hn Hl) as L. pose proof (l_grid_box m Hn) as B. pose proof (weights_spec m x Hn) as W.
  destruct (weights_at m x) as [[[il ir] wl] wr]. destruct W as (_ & _ & _ & _ & _ & _ & S & E1 & E2 & E3).
  assert (F0 : (0 <= x2xi m x)%Z) by (apply x2xi_spec; [assumption|]; change (inject_Z 0) with 0%Q; lra).
  assert (F1 : (x2xi m x < n_grids m - 1)%Z) by (apply x2xi_spec2; [assumption|]; replace (n_grids m - 1)%Z with (n_grids m + -1)%Z by lia; rewrite inject_Z_plus; change (inject_Z (-1)) with (-1 # 1)%Q; lra).
  rewrite Z.mod_small in E1, E2 by lia. subst il ir. split; [lia|]. split; [lia|]. split; [lia|]. split; [|exact S].
  rewrite inject_Z_plus. change (inject_Z 1) with 1%Q. transitivity ((wl + wr) * inject_Z (x2xi m x) + wr)%Q; [ring|]. rewrite S, E3. ring.
Qed.
Lemma value_affine m d a b0 b1 b2 x0 x1 x2 : (0 < n_grids m)%Z -> (0 < l_box m)%Q ->
  (forall i j k, (0 <= i < n_grids m)%Z -> (0 <= j < n_grids m)%Z -> (0 <= k < n_grids m)%Z ->
     exists v, at3 (n_grids m) d i j k = Some v /\ (v == a + b0 * inject_Z i + b1 * inject_Z j + b2 * inject_Z k)%Q) ->
  (0 <= x0)%Q -> (x0 < l_box m - l_grid m)%Q -> (0 <= x1)%Q -> (x1 < l_box m - l_grid m)%Q -> (0 <= x2)%Q -> (x2 < l_box m - l_grid m)%Q ->
  (value_at m d (x0, x1, x2) == a + b0 * (x0 / l_grid m) + b1 * (x1 / l_grid m) + b2 * (x2 / l_grid m))%Q.
Proof.
  intros Hn Hl D A0 B0 A1 B1 A2 B2. unfold value_at, corners.
  pose proof (weights_inner m x0 Hn Hl A0 B0) as W0. destruct (weights_at m x0) as [[[il0 ir0] wl0] wr0].
  pose proof (weights_inner m x1 Hn Hl A1 B1) as W1. destruct (weights_at m x1) as [[[il1 ir1] wl1] wr1].
  pose proof (weights_inner m x2 Hn Hl A2 B2) as W2. destruct (weights_at m x2) as [[[il2 ir2] wl2] wr2].
  destruct W0 as (P0 & Q0 & R0 & E0 & S0). destruct W1 as (P1 & Q1 & R1 & E1 & S1). destruct W2 as (P2 & Q2 & R2 & E2 & S2).
  assert (V : forall i j k, (0 <= i < n_grids m)%Z -> (0 <= j < n_grids m)%Z -> (0 <= k < n_grids m)%Z -> (nth (Z.to_nat (flat (n_grids m) i j k)) d 0 == a + b0 * inject_Z i + b1 * inject_Z j + b2 * inject_Z k)%Q).
  { intros i j k Hi Hj Hk. destruct (D i j k Hi Hj Hk) as (v & H1 & H2). rewrite <- H2. unfold flat. rewrite (nth_error_nth _ _ _ H1). reflexivity. }
  cbn [map fst snd Qsum]. rewrite !V by lia. rewrite <- E0, <- E1, <- E2.
  transitivity (a * ((wl0 + wr0) * (wl1 + wr1) * (wl2 + wr2)) + b0 * (wl0 * inject_Z il0 + wr0 * inject_Z ir0) * ((wl1 + wr1) * (wl2 + wr2))
    + b1 * (wl1 * inject_Z il1 + wr1 * inject_Z ir1) * ((wl0 + wr0) * (wl2 + wr2)) + b2 * (wl2 * inject_Z il2 + wr2 * inject_Z ir2) * ((wl0 + wr0) * (wl1 + wr1)))%Q; [ring|].
  rewrite S0, S1, S2. ring.
Qed.
(** ** joining *)
Lemma zip_add_nth a b i u v : nth_error a i = Some u -> nth_error b i = Some v -> nth_error (zip_add a b) i = Some (u + v)%Q.
Proof. intros Ha Hb. unfold zip_add. rewrite nth_error_map, (nth_error_combine _ _ _ _ _ Ha Hb). reflexivity. Qed.
Lemma join_rest_spec rest : forall data, (forall f, In f rest -> length (df_data f) = length data) ->
  exists out, join_rest data rest = Ok out /\ length out = length data /\
  forall i u, nth_error data i = Some u -> exists w, nth_error out i = Some w /\ (w == u + Qsum (map (fun f => nth i (df_data f) 0) rest))%Q.
Proof.
  induction rest as [|f rest IH]; intros data H; cbn [join_rest].
  - exists data. split; [reflexivity|]. split; [reflexivity|]. intros i u Hu. exists u. split; [assumption|]. simpl. ring.
  - rewrite (H f (or_introl eq_refl)), Nat.eqb_refl.
    assert (Lz : length (zip_add data (df_data f)) = length data) by (unfold zip_add; rewrite map_length, combine_length, (H f (or_introl eq_refl)); lia).
    destruct (IH (zip_add data (df_data f))) as (out & E & L & V); [intros g Hg; rewrite Lz; apply H; right; assumption|].
    exists out. split; [exact E|]. split; [congruence|]. intros i u Hu.
    assert (Hi : i < length data) by (apply nth_error_Some; congruence).
    destruct (V i (u + nth i (df_data f) 0)%Q) as (w & H1 & H2).
    + apply zip_add_nth; [assumption|]. apply nth_error_nth'. rewrite (H f (or_introl eq_refl)). assumption.
    + exists w. split; [exact H1|]. rewrite H2. cbn [map Qsum]. ring.
Qed.
Lemma join_rest_err rest : forall data e, join_rest data rest = Err e -> e = ValueError /\ exists f, In f rest /\ length (df_data f) <> length data.
Proof.
  induction rest as [|f rest IH]; intros data e H; cbn [join_rest] in H; [discriminate|].
  destruct (Nat.eqb_spec (length data) (length (df_data f))) as [E|E].
  - apply IH in H. destruct H as [-> (g & Hg & N)]. split; [reflexivity|]. exists g. split; [right; assumption|].
    unfold zip_add in N. rewrite map_length, combine_length, E, Nat.min_id in N. congruence.
  - split; [congruence|]. exists f. split; [left; reflexivity|congruence].
Qed.
(** ** x_to_xi *)
Lemma x_to_xi_spec m x : (0 < n_grids m)%Z -> (0 < l_box m)%Q -> (0 <= x_to_xi m x < n_grids m)%Z /\
  exists k, (- (1 # 2) * l_grid m <= x + inject_Z k * l_box m - inject_Z (x_to_xi m x) * l_grid m)%Q /\ (x + inject_Z k * l_box m - inject_Z (x_to_xi m x) * l_grid m < (1 # 2) * l_grid m)%Q.
Proof.
  intros Hn Hl. pose proof (l_grid_pos m Hn Hl) as L. pose proof (l_grid_box m Hn) as B. unfold x_to_xi. split; [apply Z.mod_pos_bound; assumption|].
  set (q := (x / l_grid m + (1 # 2))%Q). set (f := Qfloor q). pose proof (Qfloor_le q) as F1. pose proof (Qlt_floor q) as F2. fold f in F1, F2.
  rewrite inject_Z_plus in F2. change (inject_Z 1) with 1%Q in F2.
  exists (- (f / n_grids m))%Z. pose proof (Z.div_mod f (n_grids m) ltac:(lia)) as DM. set (t := (f mod n_grids m)%Z) in *. set (s := (f / n_grids m)%Z) in *.
  assert (DQ : (inject_Z f == inject_Z (n_grids m) * inject_Z s + inject_Z t)%Q) by (rewrite DM at 1; rewrite inject_Z_plus, inject_Z_mult; reflexivity).
  assert (X : (x == (q - (1 # 2)) * l_grid m)%Q) by (unfold q; field; lra).
  rewrite inject_Z_opp, <- B. assert (G1 : (inject_Z f * l_grid m <= q * l_grid m)%Q) by nra. assert (G2 : (q * l_grid m < (inject_Z f + 1) * l_grid m)%Q) by nra.
  assert (G3 : (inject_Z f * l_grid m == inject_Z (n_grids m) * inject_Z s * l_grid m + inject_Z t * l_grid m)%Q) by (rewrite DQ; ring).
  split; rewrite X; lra.
Qed.
Lemma x_to_xi_unique m x i k : (0 < n_grids m)%Z -> (0 < l_box m)%Q -> (0 <= i < n_grids m)%Z ->
  (- (1 # 2) * l_grid m <= x + inject_Z k * l_box m - inject_Z i * l_grid m)%Q -> (x + inject_Z k * l_box m - inject_Z i * l_grid m < (1 # 2) * l_grid m)%Q -> x_to_xi m x = i.
Proof.
  intros Hn Hl Hi H1 H2. pose proof (l_grid_pos m Hn Hl) as L. pose proof (l_grid_box m Hn) as B. unfold x_to_xi.
  assert (F : Qfloor (x / l_grid m + (1 # 2)) = (i + (- k) * n_grids m)%Z).
  { assert (X : (x / l_grid m * l_grid m == x)%Q) by (field; lra). set (u := (x / l_grid m)%Q) in *.
    assert (IZ : (inject_Z (i + (- k) * n_grids m) == inject_Z i - inject_Z k * inject_Z (n_grids m))%Q) by (rewrite inject_Z_plus, inject_Z_mult, inject_Z_opp; ring).
    assert (J1 : (inject_Z (i + (- k) * n_grids m) <= u + (1 # 2))%Q).
    { rewrite IZ. apply Qmult_le_r with (z := l_grid m); [assumption|].
      setoid_replace ((inject_Z i - inject_Z k * inject_Z (n_grids m)) * l_grid m)%Q with (inject_Z i * l_grid m - inject_Z k * (inject_Z (n_grids m) * l_grid m))%Q by ring. rewrite B. lra. }
    assert (J2 : (u + (1 # 2) < inject_Z (i + (- k) * n_grids m + 1))%Q).
    { rewrite inject_Z_plus, IZ. change (inject_Z 1) with 1%Q. apply Qmult_lt_r with (z := l_grid m); [assumption|].
      setoid_replace ((inject_Z i - inject_Z k * inject_Z (n_grids m) + 1) * l_grid m)%Q with (inject_Z i * l_grid m - inject_Z k * (inject_Z (n_grids m) * l_grid m) + l_grid m)%Q by ring. rewrite B. lra. }
    apply Z.le_antisymm; [|apply Qfloor_spec; assumption].
    pose proof (Qfloor_le (u + (1 # 2))) as FL. assert (C : (inject_Z (Qfloor (u + (1 # 2))) < inject_Z (i + - k * n_grids m + 1))%Q) by lra.
    rewrite <- Zlt_Qlt in C. lia. }
  rewrite F, Z.mod_add by lia. apply Z.mod_small. assumption.
Qed.
