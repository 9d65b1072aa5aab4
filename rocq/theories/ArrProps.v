(** C65: the array wrapper. *)
From Coq Require Import QArith Permutation.
From Verif Require Import Base OrderSpec BinModel BinProofs ArrModel.
Local Open Scope list_scope. Local Open Scope nat_scope.

Lemma prod_split l ax : ax < length l -> prod l = prod (firstn ax l) * nth ax l 0 * prod (skipn (S ax) l).
Proof.
  revert ax. induction l as [|x l IH]; intros ax H; [cbn in H; lia|]. destruct ax as [|ax].
  - cbn [firstn nth skipn]. unfold prod. cbn [fold_right]. lia.
  - cbn [length] in H. cbn [firstn nth]. change (skipn (S (S ax)) (x :: l)) with (skipn (S ax) l).
    unfold prod in *. cbn [fold_right]. rewrite (IH ax) by lia. lia.
Qed.
Lemma decode n inn o i j : i < n -> j < inn -> let p := flat_index n inn o i j in p mod inn = j /\ (p / inn) mod n = i /\ p / inn / n = o.
Proof.
  intros Hi Hj p. unfold p, flat_index.
  assert (D : ((o * n + i) * inn + j) / inn = o * n + i) by (rewrite Nat.div_add_l by lia; rewrite (Nat.div_small j) by lia; lia).
  split; [rewrite Nat.add_comm, Nat.mod_add by lia; apply Nat.mod_small; lia|]. rewrite D. split.
  - rewrite Nat.add_comm, Nat.mod_add by lia. apply Nat.mod_small; lia.
  - rewrite Nat.div_add_l by lia. rewrite (Nat.div_small i) by lia. lia.
Qed.
Lemma flat_lt n inn out o i j : o < out -> i < n -> j < inn -> flat_index n inn o i j < out * n * inn.
Proof. intros. unfold flat_index. assert (o * n + i < out * n) by nia. nia. Qed.
Lemma per_lane_lane f a ax o j : nd_ok a -> ax < n_dims a -> o < outer a ax -> j < inner a ax -> (forall l, length (f l) = length l) ->
  lane (per_lane f a ax) ax o j = f (lane a ax o j).
Proof.
  intros W Hax Ho Hj Hf. unfold lane at 1. set (n := extent a ax). set (inn := inner a ax).
  assert (E1 : extent (per_lane f a ax) ax = n) by reflexivity. assert (E2 : inner (per_lane f a ax) ax = inn) by reflexivity. rewrite E1, E2.
  assert (L : length (f (lane a ax o j)) = n). { rewrite Hf. unfold lane. rewrite map_length, seq_length. reflexivity. }
  apply (nth_ext _ _ 0%Q 0%Q); [rewrite map_length, seq_length; symmetry; exact L|].
  intros i Hi. rewrite map_length, seq_length in Hi.
  rewrite (nth_indep _ 0%Q (nth (flat_index n inn o 0 j) (data (per_lane f a ax)) 0%Q)) by (rewrite map_length, seq_length; exact Hi).
  rewrite (map_nth (fun i => nth (flat_index n inn o i j) (data (per_lane f a ax)) 0%Q)), seq_nth by exact Hi. cbn [plus].
  set (p := flat_index n inn o i j).
  assert (Lp : p < size a).
  { unfold size. rewrite W. rewrite (prod_split _ ax Hax). exact (flat_lt n inn (outer a ax) o i j Ho Hi Hj). }
  cbn [data per_lane]. fold n inn.
  rewrite (nth_indep _ 0%Q (nth ((0 / inn) mod n) (f (lane a ax (0 / inn / n) (0 mod inn))) 0%Q)) by (rewrite map_length, seq_length; exact Lp).
  rewrite (map_nth (fun p => nth ((p / inn) mod n) (f (lane a ax (p / inn / n) (p mod inn))) 0%Q)), seq_nth by exact Lp. cbn [plus].
  destruct (decode n inn o i j Hi Hj) as (D1 & D2 & D3). fold p in D1, D2, D3. rewrite D1, D2, D3. reflexivity.
Qed.
Lemma sort_q_length l : length (sort_q l) = length l. Proof. apply Permutation_length, sort_perm. Qed.
Lemma argsort_q_length l : length (argsort_q l) = length l.
Proof. unfold argsort_q. rewrite map_length, (Permutation_length (sort_perm _ _)), combine_length, seq_length. lia. Qed.

(** sorted(axis=None) is all elements in ascending order, as one row. *)
Theorem C65_sorted_flat : forall a, exists b, sorted a None = Ok b /\ shape b = [size a] /\ ascending Qltb (data b) /\ Permutation (data b) (data a).
Proof.
  intros a. eexists. split; [reflexivity|]. cbn [shape data]. split; [reflexivity|]. split; [apply sort_asc, Q_weak_order|apply sort_perm].
Qed.
Print Assumptions C65_sorted_flat.

(** sorted(axis=z), counted from the end if negative: the shape stays, each lane along the axis is sorted; an axis that does not
    exist is an error. *)
Theorem C65_sorted_axis : forall a z, nd_ok a ->
  ((- Z.of_nat (n_dims a) <= z < Z.of_nat (n_dims a))%Z -> exists b, sorted a (Some z) = Ok b /\ shape b = shape a /\ nd_ok b /\
     let ax := Z.to_nat (if (z <? 0)%Z then Z.of_nat (n_dims a) + z else z)%Z in
     forall o j, o < outer a ax -> j < inner a ax -> ascending Qltb (lane b ax o j) /\ Permutation (lane b ax o j) (lane a ax o j)) /\
  (~ (- Z.of_nat (n_dims a) <= z < Z.of_nat (n_dims a))%Z -> sorted a (Some z) = Err ValueError).
Proof.
  intros a z W. cbn [sorted]. unfold norm_axis. split.
  - intros H. destruct (Z.leb_spec (- Z.of_nat (n_dims a)) z); [|lia]. destruct (Z.ltb_spec z (Z.of_nat (n_dims a))); [|lia].
    cbn [andb rmap]. eexists. split; [reflexivity|]. split; [reflexivity|]. split.
    + unfold nd_ok. cbn [shape data per_lane]. rewrite map_length, seq_length. exact W.
    + cbv zeta. set (ax := Z.to_nat _). intros o j Ho Hj. assert (Hax : ax < n_dims a). { unfold ax. destruct (Z.ltb_spec z 0); lia. }
      rewrite (per_lane_lane sort_q a ax o j W Hax Ho Hj sort_q_length). split; [apply sort_asc, Q_weak_order|apply sort_perm].
  - intros H. destruct (Z.leb_spec (- Z.of_nat (n_dims a)) z); destruct (Z.ltb_spec z (Z.of_nat (n_dims a))); cbn [andb]; try reflexivity. lia.
Qed.
Print Assumptions C65_sorted_axis.

(** argsort(axis=z): each lane of the result lists the positions 0, ..., n-1 of the lane, in an order that sorts it. *)
Definition take (l : list Q) (idx : list nat) : list Q := map (fun i => nth i l 0%Q) idx.
Theorem C65_argsort_axis : forall a z, nd_ok a -> (- Z.of_nat (n_dims a) <= z < Z.of_nat (n_dims a))%Z ->
  exists b, argsort a (Some z) = Ok b /\ shape b = shape a /\
    let ax := Z.to_nat (if (z <? 0)%Z then Z.of_nat (n_dims a) + z else z)%Z in
    forall o j, o < outer a ax -> j < inner a ax -> exists idx, lane b ax o j = map (fun i => inject_Z (Z.of_nat i)) idx /\
      Permutation idx (seq 0 (extent a ax)) /\ ascending Qltb (take (lane a ax o j) idx).
Proof.
  intros a z W H. cbn [argsort]. unfold norm_axis. destruct (Z.leb_spec (- Z.of_nat (n_dims a)) z); [|lia]. destruct (Z.ltb_spec z (Z.of_nat (n_dims a))); [|lia].
  cbn [andb rmap]. eexists. split; [reflexivity|]. split; [reflexivity|]. cbv zeta. set (ax := Z.to_nat _). intros o j Ho Hj.
  assert (Hax : ax < n_dims a). { unfold ax. destruct (Z.ltb_spec z 0); lia. }
  rewrite (per_lane_lane argsort_q a ax o j W Hax Ho Hj argsort_q_length).
  set (l := lane a ax o j). assert (Ll : length l = extent a ax) by (unfold l, lane; rewrite map_length, seq_length; reflexivity).
  unfold argsort_q. set (lt := fun a b : Q * nat => Qltb (fst a) (fst b)). set (s := np_sort lt (combine l (seq 0 (length l)))).
  assert (P : Permutation s (combine l (seq 0 (length l)))) by apply sort_perm.
  exists (map snd s). split; [rewrite map_map; reflexivity|]. split.
  - rewrite <- Ll. apply (Permutation_trans (Permutation_map snd P)).
    assert (E : map snd (combine l (seq 0 (length l))) = seq 0 (length l)).
    { clear. generalize 0. induction l as [|x l IH]; intros k; [reflexivity|]. cbn [length seq combine map snd]. f_equal. apply IH. }
    rewrite E. apply Permutation_refl.
  - assert (T : take l (map snd s) = map fst s).
    { unfold take. rewrite map_map. apply map_ext_in. intros [x i] Hin. cbn [fst snd].
      apply (Permutation_in _ P) in Hin.
      assert (G : forall l k, In (x, i) (combine l (seq k (length l))) -> k <= i /\ nth (i - k) l 0%Q = x).
      { clear. induction l as [|y l IH]; intros k; [intros []|]. cbn [length seq combine]. intros [E|Hin].
        - inversion E; subst. rewrite Nat.sub_diag. auto.
        - destruct (IH (S k) Hin) as [A B]. split; [lia|]. destruct (i - k) as [|m] eqn:D; [lia|]. cbn [nth]. replace m with (i - S k) by lia. exact B. }
      destruct (G l 0 Hin) as [_ B]. rewrite Nat.sub_0_r in B. exact B. }
    rewrite T.
    assert (A : ascending lt s).
    { apply sort_asc. destruct Q_weak_order as [O1 O2 O3]. unfold lt. split.
      - intros x. apply O1.
      - intros x y w. apply O2.
      - intros x y w. apply O3. }
    clear -A. intros i k x y Hik Hi Hk. rewrite nth_error_map in Hi, Hk.
    destruct (nth_error s i) as [p|] eqn:E1; [|discriminate]. destruct (nth_error s k) as [q|] eqn:E2; [|discriminate].
    cbn in Hi, Hk. inversion Hi; inversion Hk; subst. exact (A i k p q Hik E1 E2).
Qed.
Print Assumptions C65_argsort_axis.

(** argsort() with the default axis=None never returns: the arguments of the index array are swapped. *)
Theorem C65_argsort_flat_refuted : forall a, argsort a None = Err (if Nat.eqb (size a) 1 then AssertionError else TypeError).
Proof.
  intros a. cbn [argsort]. unfold flat_index_array, int_of. unfold size at 1. cbn [data]. rewrite argsort_q_length. fold (size a).
  destruct (Nat.eqb (size a) 1); reflexivity.
Qed.
Print Assumptions C65_argsort_flat_refuted.

(** No IndexArray can be built, whatever the arguments. *)
Theorem C65_index_array_refuted : forall s d, index_array s None = Err TypeError /\
  (length (shape s) = 1 -> length (shape d) = 2 -> index_array s (Some d) = Err TypeError) /\
  (length (shape s) <> 1 \/ length (shape d) <> 2 -> index_array s (Some d) = Err AssertionError).
Proof.
  intros s d. unfold index_array, n_dims. split; [reflexivity|]. split; [intros -> ->; reflexivity|].
  intros H. destruct (Nat.eqb_spec (length (shape s)) 1); [|reflexivity]. destruct (Nat.eqb_spec (length (shape d)) 2); [|reflexivity]. tauto.
Qed.
Print Assumptions C65_index_array_refuted.

(** FlatIndexArray(n, data) holds n and data exactly if n is a single number and data one-dimensional; data is required (TypeError), n
    that is not a single number is a TypeError, other data an AssertionError. *)
Theorem C65_flat_index_array : forall n d,
  flat_index_array n None = Err TypeError /\ (length (data n) <> 1 -> flat_index_array n (Some d) = Err TypeError) /\
  (forall x, data n = [x] -> (length (shape d) = 1 -> flat_index_array n (Some d) = Ok (x, d)) /\ (length (shape d) <> 1 -> flat_index_array n (Some d) = Err AssertionError)).
Proof.
  intros n d. unfold flat_index_array, int_of, size, n_dims. split; [reflexivity|]. split.
  - intros H. destruct (Nat.eqb_spec (length (data n)) 1); [contradiction|reflexivity].
  - intros x ->. cbn [length Nat.eqb bind nth]. split; intros H; destruct (Nat.eqb_spec (length (shape d)) 1); try contradiction; reflexivity.
Qed.
Print Assumptions C65_flat_index_array.

(** zeros and ones: an array of the requested shape holding one value everywhere; negative extents are a ValueError; Shape only
    in one dimension; the index array classes never. *)
Theorem C65_filled : forall c s v, let dims := match s with SNum z => [z] | SSeq l => l end in let sh := map Z.to_nat dims in
  (Exists (fun z => (z < 0)%Z) dims -> filled c s v = Err ValueError) /\
  (Forall (fun z => (0 <= z)%Z) dims -> match c with
     | CArray | CIntArray | CBoolArray => exists a, filled c s v = Ok a /\ shape a = sh /\ nd_ok a /\ Forall (eq v) (data a)
     | CShape => filled c s v = if Nat.eqb (length dims) 1 then filled CArray s v else Err AssertionError
     | CFlatIndex | CIndex => filled c s v = Err TypeError end).
Proof.
  intros c s v dims sh. change dims with (dims_of s) in *. unfold filled. split.
  - intros H. destruct (forallb (Z.leb 0) (dims_of s)) eqn:E; [|reflexivity]. rewrite forallb_forall in E. apply Exists_exists in H.
    destruct H as (z & Hin & Hz). specialize (E z Hin). lia.
  - intros H. assert (E : forallb (Z.leb 0) (dims_of s) = true). { apply forallb_forall. rewrite Forall_forall in H. intros z Hz. specialize (H z Hz). lia. }
    rewrite E. fold sh.
    assert (A : exists a, (Ok {| shape := sh; data := repeat v (prod sh) |} : result nd) = Ok a /\ shape a = sh /\ nd_ok a /\ Forall (eq v) (data a)).
    { eexists. split; [reflexivity|]. split; [reflexivity|]. split; [unfold nd_ok; cbn [data shape]; apply repeat_length|].
      cbn [data]. rewrite Forall_forall. intros x Hx. symmetry. exact (repeat_spec _ _ _ Hx). }
    destruct c; cbn [make]; try exact A; try reflexivity.
    unfold n_dims. cbn [shape]. unfold sh. rewrite map_length. reflexivity.
Qed.
Print Assumptions C65_filled.

(** In particular zeros are all 0 and ones all 1, with as many elements as the extents multiply to. *)
Theorem C65_zeros_ones : forall c s, let dims := match s with SNum z => [z] | SSeq l => l end in
  (c = CArray \/ c = CIntArray \/ c = CBoolArray) -> Forall (fun z => (0 <= z)%Z) dims ->
  exists a b, zeros c s = Ok a /\ ones c s = Ok b /\ shape a = map Z.to_nat dims /\ shape b = map Z.to_nat dims /\
    length (data a) = prod (map Z.to_nat dims) /\ length (data b) = length (data a) /\
    (forall i v, nth_error (data a) i = Some v -> v = 0%Q) /\ (forall i v, nth_error (data b) i = Some v -> v = 1%Q).
Proof.
  intros c s dims Hc Hd.
  assert (P : forall v, exists a, filled c s v = Ok a /\ shape a = map Z.to_nat dims /\ nd_ok a /\ Forall (eq v) (data a)).
  { intros v. destruct (C65_filled c s v) as [_ H]. specialize (H Hd). destruct Hc as [-> | [-> | ->]]; exact H. }
  destruct (P 0%Q) as (a & A1 & A2 & A3 & A4), (P 1%Q) as (b & B1 & B2 & B3 & B4). exists a, b. unfold nd_ok in A3, B3.
  repeat split; try assumption.
  - rewrite <- A2. exact A3.
  - rewrite A3, B3, A2, B2. reflexivity.
  - intros i v E. apply nth_error_In in E. rewrite Forall_forall in A4. symmetry. auto.
  - intros i v E. apply nth_error_In in E. rewrite Forall_forall in B4. symmetry. auto.
Qed.
Print Assumptions C65_zeros_ones.

(** len is the first extent, a TypeError without one; flattening keeps the elements in order. *)
Theorem C65_len_flatten : forall a, nd_ok a -> (shape a = [] -> len a = Err TypeError) /\ (forall n sh, shape a = n :: sh -> len a = Ok n) /\
  data (flatten a) = data a /\ shape (flatten a) = [prod (shape a)] /\ nd_ok (flatten a).
Proof.
  intros a W. unfold len, flatten. split; [intros ->; reflexivity|]. split; [intros n sh ->; reflexivity|]. cbn [data shape].
  split; [reflexivity|]. unfold size. split; [rewrite W; reflexivity|]. unfold nd_ok. cbn [data shape prod fold_right]. lia.
Qed.
Print Assumptions C65_len_flatten.

Example C65_example : sorted {| shape := [2; 3]; data := map inject_Z [3; 1; 2; 0; 5; 4]%Z |} (Some (-1)%Z) = Ok {| shape := [2; 3]; data := map inject_Z [1; 2; 3; 0; 4; 5]%Z |} /\
  sorted {| shape := [2; 3]; data := map inject_Z [3; 1; 2; 0; 5; 4]%Z |} (Some 0%Z) = Ok {| shape := [2; 3]; data := map inject_Z [0; 1; 2; 3; 5; 4]%Z |} /\
  argsort {| shape := [2; 3]; data := map inject_Z [3; 1; 2; 0; 5; 4]%Z |} (Some 1%Z) = Ok {| shape := [2; 3]; data := map inject_Z [1; 2; 0; 0; 2; 1]%Z |}.
Proof. repeat split. Qed.
