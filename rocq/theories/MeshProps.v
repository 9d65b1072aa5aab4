(** C38, C39, C41-C45: meshes in periodic boxes.  Vocabulary: MeshSpec.v. *)
From Coq Require Import QArith Qround Qabs Permutation Lia Lqa.
From Verif Require Import Base OrderSpec BinSpec BinProofs BinProofs2 BinProofs3 BinProofs4 MeshSpec ProcModel MeshModel MeshProofs MeshProofs2 MeshProofs3 MeshProofs4.
Local Open Scope list_scope. Local Open Scope nat_scope.

(** ** C38 *)
(** The points are only reordered; the offsets table has one entry per cell plus one, starts at 0, never decreases and
    ends at the number of points. *)
Theorem C38_table m xs args : (0 < n_grids m)%Z -> sorts (keys m xs) args ->
  let p := from_meshing_points m xs args in
  length (p_firsts p) = S (Z.to_nat (n_grids m * n_grids m * n_grids m)) /\
  nth 0 (p_firsts p) 0 = 0 /\ last (p_firsts p) 0 = length xs /\
  (forall i j, i <= j -> j < length (p_firsts p) -> nth i (p_firsts p) 0 <= nth j (p_firsts p) 0) /\
  Permutation (p_xs p) xs.
Proof. exact (index_table m xs args). Qed.
Print Assumptions C38_table.
(** The segment of cell (i0,i1,i2) lists exactly the points lying in it, with multiplicity. *)
Theorem C38_cells m xs args i0 i1 i2 : (0 < n_grids m)%Z -> (0 < l_box m)%Q -> sorts (keys m xs) args ->
  (0 <= i0 < n_grids m)%Z -> (0 <= i1 < n_grids m)%Z -> (0 <= i2 < n_grids m)%Z ->
  let p := from_meshing_points m xs args in
  let c := Z.to_nat ((i0 * n_grids m + i1) * n_grids m + i2) in
  let seg := slice (p_xs p) (nth c (p_firsts p) 0) (nth (S c) (p_firsts p) 0) in
  exists rest, Permutation (seg ++ rest) xs /\
    (forall y, In y seg -> in_cell (l_box m) (l_grid m) y (i0, i1, i2)) /\
    (forall y, In y rest -> ~ in_cell (l_box m) (l_grid m) y (i0, i1, i2)).
Proof.
  intros Hn Hl S H0 H1 H2 p c seg. pose proof (flat_range _ _ _ _ H0 H1 H2) as R.
  pose proof (index_cell m xs args (flat (n_grids m) i0 i1 i2) Hn S R) as E. cbv zeta in E. fold p in E. fold (flat (n_grids m) i0 i1 i2) in c. fold c in E. fold seg in E.
  destruct (index_table m xs args Hn S) as (_ & _ & _ & _ & P). fold p in P.
  exists (filter (fun y => negb (x2xi_f m y =? flat (n_grids m) i0 i1 i2)%Z) (p_xs p)). rewrite E. split; [|split].
  - eapply Permutation_trans; [apply filter_neg_perm|exact P].
  - intros y I. apply filter_In in I. destruct I as [_ I]. apply Z.eqb_eq in I. apply (cell_in_cell m y (i0, i1, i2) Hn Hl); auto.
  - intros y I K. apply filter_In in I. destruct I as [_ I]. apply (cell_in_cell m y (i0, i1, i2) Hn Hl (conj H0 (conj H1 H2))) in K. rewrite K, Z.eqb_refl in I. discriminate.
Qed.
Print Assumptions C38_cells.
(** Every point lies in exactly one cell. *)
Theorem C38_one_cell m y : (0 < n_grids m)%Z -> (0 < l_box m)%Q ->
  let inside (c : ivec) := let '(i0, i1, i2) := c in ((0 <= i0 < n_grids m) /\ (0 <= i1 < n_grids m) /\ (0 <= i2 < n_grids m))%Z in
  exists c, inside c /\ in_cell (l_box m) (l_grid m) y c /\ forall c', inside c' -> in_cell (l_box m) (l_grid m) y c' -> c' = c.
Proof.
  intros Hn Hl inside. destruct y as [[y0 y1] y2] eqn:Ey.
  exists (x2xi m y0 mod n_grids m, x2xi m y1 mod n_grids m, x2xi m y2 mod n_grids m)%Z.
  assert (I : inside (x2xi m y0 mod n_grids m, x2xi m y1 mod n_grids m, x2xi m y2 mod n_grids m)%Z) by (repeat split; apply Z.mod_pos_bound; assumption).
  split; [exact I|]. split.
  - refine (proj1 (cell_in_cell m (y0, y1, y2) (x2xi m y0 mod n_grids m, x2xi m y1 mod n_grids m, x2xi m y2 mod n_grids m)%Z Hn Hl I) _). reflexivity.
  - intros [[j0 j1] j2] I' K. apply (cell_in_cell m _ (j0, j1, j2) Hn Hl I') in K. destruct I' as (J0 & J1 & J2).
    apply flat_inj in K; try assumption; try (apply Z.mod_pos_bound; assumption). destruct K as (-> & -> & ->). reflexivity.
Qed.
Print Assumptions C38_one_cell.
Definition ex_mesh : mesh := {| n_grids := 3; l_box := 6 |}.
Definition ex_mesh2 : mesh := {| n_grids := 2; l_box := 2 |}.
Definition ex_pts : list vec := [(5, 0, 1); (1 # 2, 0, 0); (1 # 2, 0, 0); (3, 3, 3); (1, 0, 5)]%Q.
Example C38_nonvacuous : sorts (keys ex_mesh ex_pts) [1; 2; 4; 3; 0].
Proof.
  split; [vm_compute; apply NoDup_Permutation; [repeat constructor; simpl; lia..|intros x; simpl; lia]|].
  intros i a b Ha Hb. do 5 (destruct i as [|i]; [simpl in Ha, Hb; try discriminate; injection Ha as <-; injection Hb as <-; vm_compute; discriminate|]). destruct i; discriminate.
Qed.
Example C38_nonvacuous_table : p_firsts (from_meshing_points ex_mesh ex_pts [1; 2; 4; 3; 0]) =
  [0; 2; 2; 3; 3; 3; 3; 3; 3; 3; 3; 3; 3; 3; 4; 4; 4; 4; 4; 5; 5; 5; 5; 5; 5; 5; 5; 5].
Proof. reflexivity. Qed.

(** ** C39 *)
(** All points within distance r of x (periodically) are returned; nothing is returned from farther than r plus one cell
    along some axis; and if 2r <= L - (one cell) no point is returned twice: what is returned together with the points
    left out is the point set, and every point left out is farther than r. *)
Theorem C39_query m xs args x r : (0 < n_grids m)%Z -> (0 < l_box m)%Q -> (0 <= r)%Q -> sorts (keys m xs) args ->
  let found := concat (query_points_1 (from_meshing_points m xs args) x r) in
  (forall y, In y xs -> within (l_box m) x y r -> In y found) /\
  (forall y, In y found -> In y xs /\ near_box (l_box m) x y (r + l_grid m)%Q) /\
  ((2 * r <= l_box m - l_grid m)%Q -> exists rest, Permutation (found ++ rest) xs /\ forall y, In y rest -> ~ within (l_box m) x y r).
Proof. exact (query_spec m xs args x r). Qed.
Print Assumptions C39_query.
(** A batch of queries hands query i exactly the arrays of the single query at point i with radius i, in whatever order
    the query points are visited. *)
Theorem C39_batch p xs rs args i : Permutation args (seq 0 (length xs)) -> i < length xs ->
  map snd (filter (fun c => Nat.eqb (fst c) i) (query_points p xs rs args)) = query_points_1 p (nth i xs (0,0,0)%Q) (nth i rs 0%Q).
Proof. exact (query_points_spec p xs rs args i). Qed.
Print Assumptions C39_batch.
Example C39_nonvacuous : concat (query_points_1 (from_meshing_points ex_mesh ex_pts [1; 2; 4; 3; 0]) (1, 1, 1)%Q 1%Q) =
  [(1 # 2, 0, 0); (1 # 2, 0, 0); (3, 3, 3)]%Q.
Proof. reflexivity. Qed.
(** With a radius of half a box the same point is returned more than once. *)
Theorem C39_duplicates_refuted : exists m xs args x r, (0 < n_grids m)%Z /\ (0 < l_box m)%Q /\ (2 * r <= l_box m)%Q /\ sorts (keys m xs) args /\
  NoDup xs /\ ~ NoDup (concat (query_points_1 (from_meshing_points m xs args) x r)).
Proof.
  exists {| n_grids := 2; l_box := 2 |}, [(1, 1, 1)]%Q, [0], (0, 0, 0)%Q, 1%Q. split; [reflexivity|]. split; [reflexivity|]. split; [discriminate|]. split; [|split].
  - split; [vm_compute; constructor; constructor|]. intros [|[|i]] a b Ha Hb; discriminate.
  - constructor; [intros []|constructor].
  - vm_compute. intros N. inversion N as [|? ? H _]; subst. apply H. left. reflexivity.
Qed.
Print Assumptions C39_duplicates_refuted.

(** ** C41 *)
(** x_to_xi returns a valid grid index, and index i exactly when grid point i is the nearest one (up to whole periods; a
    coordinate half way between two grid points goes to the upper one). *)
Theorem C41_nearest m x : (0 < n_grids m)%Z -> (0 < l_box m)%Q -> (0 <= x_to_xi m x < n_grids m)%Z /\
  forall i, (0 <= i < n_grids m)%Z -> (x_to_xi m x = i <-> nearest (l_box m) (l_grid m) x i).
Proof. exact (nearest_spec m x). Qed.
Print Assumptions C41_nearest.
(** Coordinates one or more boxes away give the same index. *)
Theorem C41_periodic m x k : (0 < n_grids m)%Z -> (0 < l_box m)%Q -> x_to_xi m (x + inject_Z k * l_box m)%Q = x_to_xi m x.
Proof.
  intros Hn Hl. destruct (nearest_spec m x Hn Hl) as [R N]. destruct (nearest_spec m (x + inject_Z k * l_box m)%Q Hn Hl) as [_ N'].
  apply (proj2 (N' _ R)). destruct (proj1 (N _ R) eq_refl) as (j & A & B). exists (j - k)%Z.
  assert (E : (x + inject_Z k * l_box m + inject_Z (j - k) * l_box m == x + inject_Z j * l_box m)%Q).
  { unfold Z.sub. rewrite inject_Z_plus, inject_Z_opp. ring. }
  rewrite E. auto.
Qed.
Print Assumptions C41_periodic.
Theorem C41_volumes m : (0 < n_grids m)%Z -> (volume m == inject_Z (total_n_grids m) * cell_volume m)%Q.
Proof.
  intros Hn. unfold volume, total_n_grids, cell_volume, l_grid. assert (P : (0 < inject_Z (n_grids m))%Q) by (apply (inject_pos (n_grids m)); exact Hn).
  replace (n_grids m ^ 3)%Z with (n_grids m * n_grids m * n_grids m)%Z by ring. rewrite !inject_Z_mult. cbn [Qpower Qpower_positive pow_pos].
  change (l_box m * (l_box m * l_box m) == inject_Z (n_grids m) * inject_Z (n_grids m) * inject_Z (n_grids m) * (l_box m / inject_Z (n_grids m) * (l_box m / inject_Z (n_grids m) * (l_box m / inject_Z (n_grids m)))))%Q.
  field. lra.
Qed.
Print Assumptions C41_volumes.
Example C41_nonvacuous : map (x_to_xi ex_mesh) [0; 1; 3; 5; -1; 17 # 2]%Q = [0; 1; 2; 0; 0; 1]%Z.
Proof. reflexivity. Qed.

(** ** C42 *)
(** Adding particles: an error exactly when weights and positions differ in number; otherwise the total grows by the total
    weight. *)
Theorem C42_total f xs ws : wf_field f -> match df_add f xs ws with
  | Ok f' => wf_field f' /\ df_mesh f' = df_mesh f /\ (Qsum (df_data f') == Qsum (df_data f) + Qsum (map snd (particles xs ws)))%Q
  | Err e => e = AssertionError /\ exists w, ws = Some w /\ length xs <> length w
  end.
Proof.
  intros W. pose proof (df_add_spec f xs ws) as S. destruct (df_add f xs ws) as [f'|e] eqn:E; [|exact S]. split; [exact (df_add_wf _ _ _ _ W E)|].
  split; [apply S|exact (df_add_total _ _ _ _ W E)].
Qed.
Print Assumptions C42_total.
Theorem C42_new l n : (0 < n)%Z -> (0 < l)%Q -> wf_field (df_new l n) /\ (Qsum (df_data (df_new l n)) == 0)%Q.
Proof. intros Hn Hl. split; [|apply Qsum_repeat0]. split; [exact Hn|]. split; [exact Hl|]. apply repeat_length. Qed.
Print Assumptions C42_new.
(** Every grid point receives from each particle its weight times the triangular-cloud share. *)
Theorem C42_cells f xs ws f' i j k v : wf_field f -> df_add f xs ws = Ok f' ->
  (0 <= i < n_grids (df_mesh f))%Z -> (0 <= j < n_grids (df_mesh f))%Z -> (0 <= k < n_grids (df_mesh f))%Z ->
  (forall p, In p (particles xs ws) -> in_box (l_box (df_mesh f)) (fst p)) ->
  at3 (n_grids (df_mesh f)) (df_data f) i j k = Some v ->
  exists v', at3 (n_grids (df_mesh f)) (df_data f') i j k = Some v' /\
    (v' == v + Qsum (map (fun p => snd p * cloud3 (n_grids (df_mesh f)) (l_grid (df_mesh f)) (fst p) i j k) (particles xs ws)))%Q.
Proof. exact (df_add_cell f xs ws f' i j k v). Qed.
Print Assumptions C42_cells.
Theorem C42_nonneg f xs ws f' : wf_field f -> df_add f xs ws = Ok f' -> (forall p, In p (particles xs ws) -> (0 <= snd p)%Q) ->
  Forall2 Qle (df_data f) (df_data f').
Proof. exact (df_add_nonneg f xs ws f'). Qed.
Print Assumptions C42_nonneg.
(** Whole-period shifts of any of the particles change nothing, nor does their order. *)
Theorem C42_shift f xs ws ks f1 f2 : wf_field f -> length ks = length xs -> df_add f xs ws = Ok f1 ->
  df_add f (map (fun p => image (l_box (df_mesh f)) (fst p) (snd p)) (combine xs ks)) ws = Ok f2 -> Qeql (df_data f1) (df_data f2).
Proof. exact (df_add_shift f xs ws ks f1 f2). Qed.
Print Assumptions C42_shift.
Theorem C42_order f xs ws xs' ws' f1 f2 : wf_field f -> df_add f xs ws = Ok f1 -> df_add f xs' ws' = Ok f2 ->
  Permutation (particles xs ws) (particles xs' ws') -> Qeql (df_data f1) (df_data f2).
Proof. exact (df_add_perm f xs ws xs' ws' f1 f2). Qed.
Print Assumptions C42_order.
(** The published shape function is the triangular cloud. *)
Theorem C42_shape m x : (shape_at_x m x == tri (x / l_grid m))%Q.
Proof. apply shape_tri. Qed.
Print Assumptions C42_shape.
Example C42_nonvacuous : exists f, df_add (df_new 2 2) [(1 # 2, 0, 3 # 2); (0, 0, 0)]%Q (Some [4; 1]%Q) = Ok f /\ Qeql (df_data f) [2; 1; 0; 0; 1; 1; 0; 0]%Q.
Proof. eexists. split; [reflexivity|]. vm_compute. repeat (constructor; [reflexivity|]). constructor. Qed.

(** ** C43 *)
Theorem C43_grid_values m d i j k v : (0 < n_grids m)%Z -> (0 < l_box m)%Q -> (0 <= i < n_grids m)%Z -> (0 <= j < n_grids m)%Z -> (0 <= k < n_grids m)%Z ->
  at3 (n_grids m) d i j k = Some v -> (value_at m d (inject_Z i * l_grid m, inject_Z j * l_grid m, inject_Z k * l_grid m) == v)%Q.
Proof.
  intros Hn Hl Hi Hj Hk V. rewrite value_grid by assumption. rewrite !Z.mod_small by assumption. unfold at3 in V. fold (flat (n_grids m) i j k) in V.
  rewrite (nth_error_nth _ _ _ V). reflexivity.
Qed.
Print Assumptions C43_grid_values.
(** Between the extremes of the field; in particular constants are reproduced. *)
Theorem C43_bounds m d x lo hi : (0 < n_grids m)%Z -> length d = Z.to_nat (n_grids m * n_grids m * n_grids m) ->
  (forall v, In v d -> (lo <= v <= hi)%Q) -> (lo <= value_at m d x <= hi)%Q.
Proof. exact (value_bounds m d x lo hi). Qed.
Print Assumptions C43_bounds.
Theorem C43_constant m d x c : (0 < n_grids m)%Z -> length d = Z.to_nat (n_grids m * n_grids m * n_grids m) -> (forall v, In v d -> (v == c)%Q) -> (value_at m d x == c)%Q.
Proof. intros Hn L H. destruct (value_bounds m d x c c Hn L) as [A B]; [intros v Hv; rewrite (H v Hv); split; apply Qle_refl|]. apply Qle_antisym; assumption. Qed.
Print Assumptions C43_constant.
Theorem C43_periodic m d x k : (0 < n_grids m)%Z -> (0 < l_box m)%Q -> (value_at m d (image (l_box m) x k) == value_at m d x)%Q.
Proof. exact (value_shift m d x k). Qed.
Print Assumptions C43_periodic.
(** Interpolating at x = summing the field against the deposit of one unit particle at x. *)
Theorem C43_adjoint m d x f' : (0 < n_grids m)%Z -> (0 < l_box m)%Q -> length d = Z.to_nat (n_grids m * n_grids m * n_grids m) ->
  df_add (df_new (l_box m) (n_grids m)) [x] None = Ok f' -> (value_at m d x == Qsum (map (fun p => fst p * snd p) (combine d (df_data f'))))%Q.
Proof. exact (value_adjoint m d x f'). Qed.
Print Assumptions C43_adjoint.
(** Exact on fields that are affine in the grid indices, away from the periodic seam. *)
Theorem C43_affine m d a b0 b1 b2 x0 x1 x2 : (0 < n_grids m)%Z -> (0 < l_box m)%Q ->
  (forall i j k, (0 <= i < n_grids m)%Z -> (0 <= j < n_grids m)%Z -> (0 <= k < n_grids m)%Z ->
     exists v, at3 (n_grids m) d i j k = Some v /\ (v == a + b0 * inject_Z i + b1 * inject_Z j + b2 * inject_Z k)%Q) ->
  (0 <= x0)%Q -> (x0 < l_box m - l_grid m)%Q -> (0 <= x1)%Q -> (x1 < l_box m - l_grid m)%Q -> (0 <= x2)%Q -> (x2 < l_box m - l_grid m)%Q ->
  (value_at m d (x0, x1, x2) == a + b0 * (x0 / l_grid m) + b1 * (x1 / l_grid m) + b2 * (x2 / l_grid m))%Q.
Proof. exact (value_affine m d a b0 b1 b2 x0 x1 x2). Qed.
Print Assumptions C43_affine.
Example C43_nonvacuous : Qred (value_at {| n_grids := 2; l_box := 2 |} [1; 2; 3; 4; 5; 6; 7; 8]%Q (1 # 2, 1 # 4, 3 # 4)%Q) = (17 # 4)%Q.
Proof. reflexivity. Qed.

(** ** C44 *)
(** Construction succeeds iff there is one eigenvalue triple per cell and all triples are in non-decreasing order (no NaN). *)
Theorem C44_construct lam m th : match new_classifier lam m th with
  | Ok c => Z.of_nat (length lam) = (n_grids m * n_grids m * n_grids m)%Z /\ (forall a b d, In (a, b, d) lam -> nle a b = true /\ nle b d = true)
  | Err e => e = AssertionError /\ (Z.of_nat (length lam) <> (n_grids m * n_grids m * n_grids m)%Z \/ exists a b d, In (a, b, d) lam /\ ~ (nle a b = true /\ nle b d = true))
  end.
Proof.
  pose proof (new_classifier_spec lam m th) as H. destruct (new_classifier lam m th) as [c|e].
  - destruct H as (L & S & _). split; [exact L|]. intros a b d I. exact (S _ I).
  - destruct H as (E & [L|([[a b] d] & I & K)]); split; auto. right. exists a, b, d. auto.
Qed.
Print Assumptions C44_construct.
(** At every point the eigenvalues and the type come from the nearest grid point; the type is the number of eigenvalues
    above the threshold, i.e. 3, 2, 1 when the smallest, middle, largest eigenvalue exceeds it, else 0. *)
Theorem C44_type lam m th c x0 x1 x2 : (0 < n_grids m)%Z -> (0 < l_box m)%Q -> new_classifier lam m th = Ok c ->
  exists i j k l1 l2 l3, nearest (l_box m) (l_grid m) x0 i /\ nearest (l_box m) (l_grid m) x1 j /\ nearest (l_box m) (l_grid m) x2 k /\
    ((0 <= i < n_grids m) /\ (0 <= j < n_grids m) /\ (0 <= k < n_grids m))%Z /\
    nth_error lam (Z.to_nat ((i * n_grids m + j) * n_grids m + k)) = Some (l1, l2, l3) /\ lam_at c (x0, x1, x2) = (l1, l2, l3) /\
    let t := web_type_at c (x0, x1, x2) in
    t = Z.of_nat (length (filter (nlt th) [l1; l2; l3])) /\
    (t = 3%Z <-> nlt th l1 = true) /\ (t = 2%Z <-> nlt th l1 = false /\ nlt th l2 = true) /\
    (t = 1%Z <-> nlt th l2 = false /\ nlt th l3 = true) /\ (t = 0%Z <-> nlt th l3 = false).
Proof.
  intros Hn Hl E. destruct (web_type_at_spec lam m th c (x0, x1, x2) Hn Hl E) as ([[l1 l2] l3] & N & A & B).
  destruct (nearest_spec m x0 Hn Hl) as [R0 N0]. destruct (nearest_spec m x1 Hn Hl) as [R1 N1]. destruct (nearest_spec m x2 Hn Hl) as [R2 N2].
  exists (x_to_xi m x0), (x_to_xi m x1), (x_to_xi m x2), l1, l2, l3. split; [apply N0; auto|]. split; [apply N1; auto|]. split; [apply N2; auto|]. split; [auto|].
  split; [exact N|]. split; [exact A|]. intros t. subst t. rewrite B. split; [apply count_above_filter|].
  destruct (new_classifier_inv _ _ _ _ E) as (_ & S & _). apply (count_above_spec th l1 l2 l3). apply S. apply nth_error_In in N. exact N.
Qed.
Print Assumptions C44_type.
Theorem C44_fractions lam m th c : (0 < n_grids m)%Z -> new_classifier lam m th = Ok c ->
  (fraction c 0 + fraction c 1 + fraction c 2 + fraction c 3 == 1)%Q /\ forall t, (0 <= fraction c t <= 1)%Q.
Proof. exact (fractions_sum lam m th c). Qed.
Print Assumptions C44_fractions.
(** The grid points of a type: each grid point of that type once, and nothing else; unknown type names raise KeyError. *)
Theorem C44_grid_points lam m th c name : (0 < n_grids m)%Z -> (0 < l_box m)%Q -> new_classifier lam m th = Ok c ->
  match grid_points_of_web_type c name with
  | Ok pts => exists t, od_get String.eqb web_types name = Some t /\
      exists idx, pts = map (fun '(i, j, k) => (inject_Z i * l_grid m, inject_Z j * l_grid m, inject_Z k * l_grid m)%Q) idx /\ NoDup idx /\
      forall i j k, In (i, j, k) idx <-> (0 <= i < n_grids m)%Z /\ (0 <= j < n_grids m)%Z /\ (0 <= k < n_grids m)%Z /\
        web_type_at c (inject_Z i * l_grid m, inject_Z j * l_grid m, inject_Z k * l_grid m)%Q = t
  | Err e => e = KeyError /\ od_get String.eqb web_types name = None
  end.
Proof. exact (grid_points_spec lam m th c name). Qed.
Print Assumptions C44_grid_points.
(** The names, in full and by their first letters: knots have three eigenvalues above the threshold, filaments two, sheets one, voids none;
    nothing else is a name. *)
Theorem C44_names name t : od_get String.eqb web_types name = Some t <->
  ((name = "knot"%string \/ name = "k"%string) /\ t = 3%Z) \/ ((name = "filament"%string \/ name = "f"%string) /\ t = 2%Z) \/
  ((name = "sheet"%string \/ name = "s"%string) /\ t = 1%Z) \/ ((name = "void"%string \/ name = "v"%string) /\ t = 0%Z).
Proof.
  unfold web_types. cbn [od_get]. split.
  - intros H. repeat match type of H with context [String.eqb ?a ?b] => destruct (String.eqb_spec a b); [subst|] end; try discriminate H; injection H as <-; tauto.
  - intros H. repeat match goal with H : _ \/ _ |- _ => destruct H as [H|H] end; destruct H as [H ->]; repeat match goal with H : _ \/ _ |- _ => destruct H as [H|H] end; subst; reflexivity.
Qed.
Print Assumptions C44_names.
Example C44_nonvacuous : exists c, new_classifier [(Fin 1, Fin 2, Fin 3); (Fin 0, Fin 2, PInf); (Fin (-1), Fin 0, Fin 0); (Fin (-2), Fin (-1), Fin 1);
    (Fin 1, Fin 1, Fin 1); (Fin 1, Fin 1, Fin 1); (Fin 1, Fin 1, Fin 1); (NInf, NInf, NInf)]%Q ex_mesh2 (Fin 0%Q) = Ok c /\ c_n c = [3; 2; 0; 1; 3; 3; 3; 0]%Z /\
    exists p0 p1 p2, grid_points_of_web_type c "sheet" = Ok [(p0, p1, p2)] /\ (p0 == 0 /\ p1 == 1 /\ p2 == 1)%Q.
Proof. eexists. split; [reflexivity|]. split; [reflexivity|]. do 3 eexists. split; [reflexivity|]. repeat split. Qed.

(** ** C45 *)
(** Joining the dumps of fields built from several particle samples gives the field of all of them together. *)
Theorem C45_join l n parts fs : (0 < n)%Z -> (0 < l)%Q -> parts <> [] ->
  mapM (fun p => df_add (df_new l n) (fst p) (snd p)) parts = Ok fs ->
  exists out whole, join_dumps fs = Ok out /\ df_mesh out = {| n_grids := n; l_box := l |} /\
    df_add (df_new l n) (map fst (flat_map (fun p => particles (fst p) (snd p)) parts)) (Some (map snd (flat_map (fun p => particles (fst p) (snd p)) parts))) = Ok whole /\
    Qeql (df_data out) (df_data whole).
Proof.
  intros Hn Hl NE E. destruct (join_parts l n parts Hn Hl NE) with (fs := fs) as (out & J & M & D); [|exact E|].
  - clear NE. revert fs E. induction parts as [|p parts IH]; intros fs E q []; simpl in E.
    + subst q. pose proof (df_add_spec (df_new l n) (fst p) (snd p)) as S. destruct (df_add (df_new l n) (fst p) (snd p)); [apply S|discriminate].
    + destruct (df_add (df_new l n) (fst p) (snd p)) as [f|]; [|discriminate]. simpl in E. destruct (mapM (fun p => df_add (df_new l n) (fst p) (snd p)) parts) as [fs'|]; [|discriminate].
      exact (IH fs' eq_refl q H).
  - exists out. set (ps := flat_map (fun p => particles (fst p) (snd p)) parts) in *.
    pose proof (df_add_spec (df_new l n) (map fst ps) (Some (map snd ps))) as S. destruct (df_add (df_new l n) (map fst ps) (Some (map snd ps))) as [w|e].
    + exists w. repeat (split; [assumption || reflexivity|]). destruct S as (_ & _ & _ & ->). simpl particles.
      assert (Ec : combine (map fst ps) (map snd ps) = ps) by (clear; induction ps as [|[a b] ps IH]; simpl; [reflexivity|rewrite IH; reflexivity]). rewrite Ec. exact D.
    + destruct S as (_ & w & Ew & L). injection Ew as <-. rewrite !map_length in L. contradiction.
Qed.
Print Assumptions C45_join.
(** No dump at all, or dumps of different sizes, are errors. *)
Theorem C45_errors fs : match join_dumps fs with
  | Ok out => exists f rest, fs = f :: rest /\ df_mesh out = df_mesh f /\ length (df_data out) = length (df_data f) /\
      (forall g, In g fs -> length (df_data g) = length (df_data f)) /\
      forall i, i < length (df_data f) -> exists v, nth_error (df_data out) i = Some v /\ (v == Qsum (map (fun g => nth i (df_data g) 0%Q) fs))%Q
  | Err e => (e = UnboundLocalError /\ fs = []) \/ (e = ValueError /\ exists f g, In f fs /\ In g fs /\ length (df_data f) <> length (df_data g))
  end.
Proof.
  unfold join_dumps. destruct fs as [|f rest]; [left; auto|]. destruct (join_rest (df_data f) rest) as [d|e] eqn:E; simpl.
  - exists f, rest. split; [reflexivity|]. split; [reflexivity|].
    assert (G : forall g, In g rest -> length (df_data g) = length (df_data f)).
    { clear -E. revert E. generalize (df_data f). induction rest as [|g rest IH]; intros a E h Hh; [destruct Hh|]. simpl in E. destruct (Nat.eqb_spec (length a) (length (df_data g))) as [L|]; [|discriminate]. destruct Hh as [->|Hh]; [congruence|].
      rewrite (IH _ E h Hh). unfold zip_add. rewrite map_length, combine_length. lia. }
    destruct (join_rest_spec rest (df_data f) G) as (out & E' & L & V). rewrite E in E'. apply Ok_inj in E'. subst out. split; [exact L|]. split; [intros g [<-|Hg]; [reflexivity|exact (G g Hg)]|]. intros i Hi.
    destruct (nth_error (df_data f) i) as [u|] eqn:Eu; [|apply nth_error_None in Eu; lia]. pose proof (nth_error_nth (df_data f) i 0%Q Eu) as En.
    destruct (V i u Eu) as (w & Hw & Ew). exists w. split; [exact Hw|]. rewrite Ew. cbn [map Qsum]. rewrite En. reflexivity.
  - right. destruct (join_rest_err _ _ _ E) as (-> & g & I & L). split; [reflexivity|]. exists f, g. split; [left; reflexivity|]. split; [right; exact I|congruence].
Qed.
Print Assumptions C45_errors.
Example C45_nonvacuous : exists fs, mapM (fun p => df_add (df_new 2 2) (fst p) (snd p)) [([(1 # 2, 0, 3 # 2)]%Q, Some [4]%Q); ([(0, 0, 0)]%Q, None)] = Ok fs /\
  exists out, join_dumps fs = Ok out /\ Qeql (df_data out) [2; 1; 0; 0; 1; 1; 0; 0]%Q.
Proof. eexists. split; [reflexivity|]. eexists. split; [reflexivity|]. vm_compute. repeat (constructor; [reflexivity|]). constructor. Qed.
