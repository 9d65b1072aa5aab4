(** Property theorems C07-C09 (DataTable).  Vocabulary: DataTableSpec.v, OdictSpec.v.
    [NoDup (map fst t)] holds of every table reachable from the constructor: C09_history. *)
From Coq Require Import Sorted.
From Verif Require Import Base OdictSpec DataTableModel DataTableSpec DataTableProofs.
Local Open Scope string_scope.

(** ** C07: copies are isolated, copy=False shares. *)
Theorem C07_constructor_copies : forall b data t' b', items_old b data -> NoDup (map fst data) ->
  dt_new b data true = (t', b') -> isolated b b' t' /\ vals b' t' = vals b data.
Proof. exact dt_new_spec. Qed.
Print Assumptions C07_constructor_copies.

Theorem C07_copy_method : forall b t t' b', items_old b t -> NoDup (map fst t) ->
  dt_copy b t = (t', b') -> isolated b b' t' /\ vals b' t' = vals b t.
Proof. exact dt_new_spec. Qed.
Print Assumptions C07_copy_method.

Theorem C07_setitem_copies : forall b t k a t' b', NoDup (map fst t) -> items_old b t -> old b a ->
  dt_set b t k a = (t', b') ->
  exists a', stored t t' k a' /\ rd b' a' = rd b a /\ isolated b b' [(k, a')].
Proof. exact dt_set_spec. Qed.
Print Assumptions C07_setitem_copies.

Theorem C07_update_copies : forall b t o t' b', NoDup (map fst t) -> NoDup (map fst o) -> items_old b t ->
  items_old b o -> dt_update b t o true = (t', b') ->
  exists o', vals b' o' = vals b o /\ union_of t o' t' /\ isolated b b' o'.
Proof. exact dt_update_spec. Qed.
Print Assumptions C07_update_copies.

Theorem C07_or_copies : forall b t o t' b', NoDup (map fst t) -> NoDup (map fst o) -> items_old b t ->
  items_old b o -> dt_or b t o = (t', b') ->
  isolated b b' t' /\ union_of (vals b t) (vals b o) (vals b' t').
Proof. exact dt_or_spec. Qed.
Print Assumptions C07_or_copies.

Theorem C07_nocopy_shares : forall b t o, NoDup (map fst t) -> NoDup (map fst o) ->
  dt_new b o false = (o, b) /\ exists t', dt_update b t o false = (t', b) /\ union_of t o t'.
Proof. intros b t o Ht Ho. exact (conj (dt_new_nocopy b o Ho) (dt_update_nocopy b t o Ht Ho)). Qed.
Print Assumptions C07_nocopy_shares.

(** A slice taken with copy=False is a view of the column of the same name. *)
Theorem C07_slice_view_shares : forall b t x y z t' b', NoDup (map fst t) ->
  dt_subset b t (SSlice x y z) false = Ok (t', b') ->
  b' = b /\ Forall2 (fun u v => fst u = fst v /\ same_storage (snd v) (snd u)) t t'.
Proof. exact dt_subset_view. Qed.
Print Assumptions C07_slice_view_shares.

(** [t[k]] is the stored array: writing through it changes what the table shows. *)
Theorem C07_getitem_aliases : forall b t k a i x, dt_get t k = Ok a -> arr_ok b a -> i < length (idx a) ->
  exists r, vals (wr b a i x) t = r /\ exists rows, In (k, rows) r /\ nth_error rows i = Some x.
Proof. exact dt_get_aliases. Qed.
Print Assumptions C07_getitem_aliases.

(** ** C08: row alignment. *)
Theorem C08_subset_rows : forall b t s n ps cp, NoDup (map fst t) -> items_old b t ->
  (forall k a, In (k, a) t -> length (rd b a) = n) -> sel_rows n s = Ok ps ->
  exists t' b', dt_subset b t s cp = Ok (t', b') /\
    Forall2 (fun x y => fst x = fst y /\ picks ps (rd b (snd x)) (rd b' (snd y))) t t' /\
    (cp = true -> isolated b b' t') /\ (forall a, old b a -> rd b' a = rd b a).
Proof. exact dt_subset_spec. Qed.
Print Assumptions C08_subset_rows.

Theorem C08_subset_error : forall b t s n e cp, t <> [] -> (forall k a, In (k, a) t -> length (rd b a) = n) ->
  sel_rows n s = Err e -> dt_subset b t s cp = Err e.
Proof. exact dt_subset_err. Qed.
Print Assumptions C08_subset_error.

(** The selected row numbers are rows of the table; a mask selects the True positions, ascending. *)
Theorem C08_selection : forall n,
  (forall s ps, sel_rows n s = Ok ps -> forall p, In p ps -> p < n) /\
  (forall l, length l = n -> exists ps, sel_rows n (SMask l) = Ok ps /\ StronglySorted lt ps /\
             forall p, In p ps <-> nth_error l p = Some true).
Proof. intros n. exact (conj (sel_rows_bound n) (sel_rows_mask n)). Qed.
Print Assumptions C08_selection.

Lemma py_range_up x y z : (0 < z)%Z -> (forall q, In q (py_range x y z) <-> (x <= q < y /\ (z | q - x))%Z) /\ StronglySorted Z.lt (py_range x y z).
Proof.
  intros Hz. unfold py_range. replace (0 <? z)%Z with true by (symmetry; apply Z.ltb_lt; exact Hz). set (c := ((y - x + z - 1) / z)%Z).
  assert (C1 : (z * c <= y - x + z - 1)%Z) by (apply Z.mul_div_le; lia). assert (C2 : (y - x + z - 1 < z * c + z)%Z) by (unfold c; pose proof (Z.mul_succ_div_gt (y - x + z - 1) z Hz); lia). split.
  - intros q. rewrite in_map_iff. split.
    + intros (i & <- & Hi). apply in_seq in Hi. split; [nia|]. exists (Z.of_nat i). lia.
    + intros (H & k & Hk). assert (0 <= k)%Z by nia. assert (k < c)%Z by nia. exists (Z.to_nat k). rewrite Z2Nat.id by lia. split; [lia|]. apply in_seq. lia.
  - generalize (Z.to_nat c). intros n. generalize 0. induction n as [|n IH]; intros b; cbn [seq map]; [constructor|]. constructor; [apply IH|].
    apply Forall_forall. intros q Hq. apply in_map_iff in Hq. destruct Hq as (i & <- & Hi). apply in_seq in Hi. nia.
Qed.
Lemma py_range_down x y z : (z < 0)%Z -> (forall q, In q (py_range x y z) <-> (y < q <= x /\ (z | x - q))%Z) /\ StronglySorted Z.gt (py_range x y z).
Proof.
  intros Hz. unfold py_range. replace (0 <? z)%Z with false by (symmetry; apply Z.ltb_ge; lia). set (c := ((x - y - z - 1) / (- z))%Z).
  assert (C1 : (- z * c <= x - y - z - 1)%Z) by (apply Z.mul_div_le; lia). assert (C2 : (x - y - z - 1 < - z * c + - z)%Z) by (unfold c; pose proof (Z.mul_succ_div_gt (x - y - z - 1) (- z) ltac:(lia)); lia). split.
  - intros q. rewrite in_map_iff. split.
    + intros (i & <- & Hi). apply in_seq in Hi. split; [nia|]. exists (- Z.of_nat i)%Z. lia.
    + intros (H & k & Hk). assert (k <= 0)%Z by nia. assert (- k < c)%Z by nia. exists (Z.to_nat (- k)). rewrite Z2Nat.id by lia. split; [lia|]. apply in_seq. lia.
  - generalize (Z.to_nat c). intros n. generalize 0. induction n as [|n IH]; intros b; cbn [seq map]; [constructor|]. constructor; [apply IH|].
    apply Forall_forall. intros q Hq. apply in_map_iff in Hq. destruct Hq as (i & <- & Hi). apply in_seq in Hi. nia.
Qed.
Lemma sorted_to_nat (R : Z -> Z -> Prop) (S : nat -> nat -> Prop) l : (forall a b, (0 <= a)%Z -> (0 <= b)%Z -> R a b -> S (Z.to_nat a) (Z.to_nat b)) ->
  (forall a, In a l -> (0 <= a)%Z) -> StronglySorted R l -> StronglySorted S (map Z.to_nat l).
Proof.
  intros H P HS. induction HS as [|a l _ IH F]; cbn [map]; constructor; [apply IH; intros x Hx; apply P; right; exact Hx|].
  apply Forall_forall. intros q Hq. apply in_map_iff in Hq. destruct Hq as (x & <- & Hx). rewrite Forall_forall in F. apply H; [apply P; left; reflexivity|apply P; right; exact Hx|apply F; exact Hx].
Qed.
(** Slices: a step of zero is refused.  With a positive step the rows start, start+step, ... below stop, ascending; with a
    negative one start, start-|step|, ... above stop, descending; bounds are counted from the end when negative, the start
    is moved into the table when it lies outside, and omitted bounds mean the whole table. *)
Theorem C08_slices : forall n start stop step,
  match step with
  | Some 0%Z => sel_rows n (SSlice start stop step) = Err ValueError
  | _ => let st := match step with Some z => z | None => 1%Z end in
    exists ps, sel_rows n (SSlice start stop step) = Ok ps /\
    if (0 <? st)%Z then
      let lo := match start with Some x => Z.max 0 (from_end n x) | None => 0%Z end in
      StronglySorted lt ps /\ forall p, In p ps <-> p < n /\ (lo <= Z.of_nat p)%Z /\ (st | Z.of_nat p - lo)%Z /\ match stop with Some y => (Z.of_nat p < from_end n y)%Z | None => True end
    else
      let hi := match start with Some x => Z.min (Z.of_nat n - 1) (from_end n x) | None => (Z.of_nat n - 1)%Z end in
      StronglySorted gt ps /\ forall p, In p ps <-> (Z.of_nat p <= hi)%Z /\ (st | hi - Z.of_nat p)%Z /\ match stop with Some y => (from_end n y < Z.of_nat p)%Z | None => True end
  end.
Proof.
  intros n start stop step. assert (G : (match step with Some z => z | None => 1%Z end <> 0)%Z -> let st := match step with Some z => z | None => 1%Z end in
    exists ps, sel_rows n (SSlice start stop step) = Ok ps /\
    if (0 <? st)%Z then
      let lo := match start with Some x => Z.max 0 (from_end n x) | None => 0%Z end in
      StronglySorted lt ps /\ forall p, In p ps <-> p < n /\ (lo <= Z.of_nat p)%Z /\ (st | Z.of_nat p - lo)%Z /\ match stop with Some y => (Z.of_nat p < from_end n y)%Z | None => True end
    else
      let hi := match start with Some x => Z.min (Z.of_nat n - 1) (from_end n x) | None => (Z.of_nat n - 1)%Z end in
      StronglySorted gt ps /\ forall p, In p ps <-> (Z.of_nat p <= hi)%Z /\ (st | hi - Z.of_nat p)%Z /\ match stop with Some y => (from_end n y < Z.of_nat p)%Z | None => True end).
  { intros Hs st. unfold sel_rows, slice_indices. fold st. fold st in Hs. destruct (Z.eqb_spec st 0) as [E|_]; [contradiction|]. unfold clip. destruct (Z.ltb_spec 0 st) as [P|P]; cbn [bind].
    - eexists. split; [reflexivity|]. fold (from_end n). cbn zeta.
      set (X := match start with None => 0%Z | Some x => Z.max 0 (Z.min (Z.of_nat n) (if (x <? 0)%Z then (x + Z.of_nat n)%Z else x)) end).
      set (Y := match stop with None => Z.of_nat n | Some y => Z.max 0 (Z.min (Z.of_nat n) (if (y <? 0)%Z then (y + Z.of_nat n)%Z else y)) end).
      set (lo := match start with Some x => Z.max 0 (from_end n x) | None => 0%Z end).
      assert (XL : X = Z.min (Z.of_nat n) lo) by (unfold X, lo, from_end; destruct start as [x|]; [destruct (Z.ltb_spec x 0)|]; lia).
      assert (lo0 : (0 <= lo)%Z) by (unfold lo; destruct start; lia).
      destruct (py_range_up X Y st P) as [I S]. split.
      + apply (sorted_to_nat Z.lt); [intros; lia| |exact S]. intros q Hq. apply I in Hq. lia.
      + intros p. rewrite in_map_iff. assert (YP : forall q, (0 <= q < Z.of_nat n)%Z -> ((q < Y)%Z <-> match stop with Some y => (q < from_end n y)%Z | None => True end)).
        { intros q Hq. unfold Y, from_end. destruct stop as [y|]; [destruct (Z.ltb_spec y 0)|]; lia. }
        assert (YN : (Y <= Z.of_nat n)%Z) by (unfold Y; destruct stop; lia). split.
        * intros (q & <- & Hq). apply I in Hq. destruct Hq as [Hq D]. rewrite Z2Nat.id by lia. assert (X = lo) as EX by lia. rewrite EX in *.
          split; [lia|]. split; [lia|]. split; [exact D|]. apply YP; lia.
        * intros (H1 & H2 & H3 & H4). exists (Z.of_nat p). rewrite Nat2Z.id. split; [reflexivity|]. apply I. assert (X = lo) as EX by lia. rewrite EX. split; [|exact H3]. split; [exact H2|]. apply YP; [lia|exact H4].
    - eexists. split; [reflexivity|]. cbn zeta.
      set (X := match start with None => (Z.of_nat n - 1)%Z | Some x => Z.max (-1) (Z.min (Z.of_nat n - 1) (if (x <? 0)%Z then (x + Z.of_nat n)%Z else x)) end).
      set (Y := match stop with None => (-1)%Z | Some y => Z.max (-1) (Z.min (Z.of_nat n - 1) (if (y <? 0)%Z then (y + Z.of_nat n)%Z else y)) end).
      set (hi := match start with Some x => Z.min (Z.of_nat n - 1) (from_end n x) | None => (Z.of_nat n - 1)%Z end).
      assert (XL : X = Z.max (-1) hi) by (unfold X, hi, from_end; destruct start as [x|]; [destruct (Z.ltb_spec x 0)|]; lia).
      assert (hin : (hi <= Z.of_nat n - 1)%Z) by (unfold hi; destruct start; lia).
      destruct (py_range_down X Y st ltac:(lia)) as [I S]. assert (Y0 : (-1 <= Y)%Z) by (unfold Y; destruct stop; lia). split.
      + apply (sorted_to_nat Z.gt); [intros; lia| |exact S]. intros q Hq. apply I in Hq. lia.
      + intros p. rewrite in_map_iff. assert (YP : forall q, (0 <= q < Z.of_nat n)%Z -> ((Y < q)%Z <-> match stop with Some y => (from_end n y < q)%Z | None => True end)).
        { intros q Hq. unfold Y, from_end. destruct stop as [y|]; [destruct (Z.ltb_spec y 0)|]; lia. } split.
        * intros (q & <- & Hq). apply I in Hq. destruct Hq as [Hq D]. rewrite Z2Nat.id by lia. assert (X = hi) as EX by lia. rewrite EX in *.
          split; [lia|]. split; [exact D|]. apply YP; lia.
        * intros (H2 & H3 & H4). exists (Z.of_nat p). rewrite Nat2Z.id. split; [reflexivity|]. apply I. assert (X = hi) as EX by lia. rewrite EX. split; [|exact H3]. split; [|exact H2]. apply YP; [lia|exact H4]. }
  destruct step as [[|z|z]|]; [reflexivity|apply G; discriminate..].
Qed.
Print Assumptions C08_slices.
(** Row numbers: each is counted from the end when negative; one outside the table is an IndexError, as is a mask of another length. *)
Theorem C08_positions : forall n,
  (forall l ps, sel_rows n (SIdx l) = Ok ps <-> Forall2 (fun i p => p < n /\ Z.of_nat p = from_end n i) l ps) /\
  (forall l, (exists i, In i l /\ ~ (- Z.of_nat n <= i < Z.of_nat n)%Z) -> sel_rows n (SIdx l) = Err IndexError) /\
  (forall l, length l <> n -> sel_rows n (SMask l) = Err IndexError).
Proof.
  intros n. assert (N : forall i, match norm_index n i with Ok p => p < n /\ Z.of_nat p = from_end n i | Err e => e = IndexError /\ ~ (- Z.of_nat n <= i < Z.of_nat n)%Z end).
  { intros i. unfold norm_index, from_end. destruct (Z.ltb_spec i 0); [destruct (Z.leb_spec 0 (i + Z.of_nat n)), (Z.ltb_spec (i + Z.of_nat n) (Z.of_nat n))|destruct (Z.leb_spec 0 i), (Z.ltb_spec i (Z.of_nat n))]; cbn [andb]; split; try reflexivity; lia. }
  split; [|split].
  - intros l ps. cbn [sel_rows]. rewrite mapM_Ok. split; intros H; induction H as [|i p l ps Hi H IH]; constructor; try exact IH; specialize (N i).
    + rewrite Hi in N. exact N.
    + destruct (norm_index n i) as [q|e]; [f_equal; lia|]. exfalso. destruct N as [_ N]. apply N. destruct Hi as [H1 H2]. unfold from_end in H2. destruct (Z.ltb_spec i 0); lia.
  - intros l (i & Hi & O). cbn [sel_rows]. induction l as [|j l IH]; [destruct Hi|]. cbn [mapM]. pose proof (N j) as Nj. destruct (norm_index n j) as [p|e]; cbn [bind].
    + destruct Hi as [->|Hi]; [|rewrite (IH Hi); reflexivity]. exfalso. apply O. destruct Nj as [H1 H2]. unfold from_end in H2. destruct (Z.ltb_spec i 0); lia.
    + destruct Nj as [-> _]. reflexivity.
  - intros l H. cbn [sel_rows]. destruct (Nat.eqb_spec (length l) n); [contradiction|reflexivity].
Qed.
Print Assumptions C08_positions.

Theorem C08_concat_rows : forall b (t : table) (others : list table), NoDup (map fst t) ->
  (forall u, In u (t :: others) -> items_old b u) ->
  (forall u k, In u others -> In k (map fst t) -> In k (map fst u)) ->
  exists t' b', dt_concat b t others = Ok (t', b') /\ isolated b b' t' /\ map fst t' = map fst t /\
    forall k r, In (k, r) (vals b' t') <->
      (In k (map fst t) /\ exists cols, Forall2 (fun u a => dt_get u k = Ok a) (t :: others) cols /\
                     r = List.concat (map (rd b) cols)).
Proof.
  intros b t others H1 H2 H3. destruct (dt_concat_spec b t others H1 H2 H3) as (t' & b' & E & I & K & V).
  exists t', b'. split; [exact E|]. split; [exact I|]. split; [exact K|]. intros k r. rewrite V.
  assert (Q : forall us cols, Forall2 (fun (u : table) a => od_get String.eqb u k = Some a) us cols <->
                              Forall2 (fun u a => dt_get u k = Ok a) us cols).
  { intros us cols. split; intros H; (eapply Forall2_impl || idtac);
      (induction H as [|u a us cols Hu H IH]; constructor; [|exact IH]); unfold dt_get in *;
      destruct (od_get String.eqb u k); congruence. }
  split; intros (Hk & cols & Hc & Hr); (split; [exact Hk|]); exists cols; (split; [apply Q; exact Hc|exact Hr]).
Qed.
Print Assumptions C08_concat_rows.

Theorem C08_concat_missing : forall b (t : table) (others : list table) k (u : table), NoDup (map fst t) ->
  In u others -> In k (map fst t) -> ~ In k (map fst u) -> dt_concat b t others = Err KeyError.
Proof. exact dt_concat_missing. Qed.
Print Assumptions C08_concat_missing.

Theorem C08_subcol : forall b t ks cp, NoDup (map fst t) -> items_old b t ->
  ((forall k, In k ks -> In k (map fst t)) ->
   exists t' b', dt_subcol b t ks cp = Ok (t', b') /\ NoDup (map fst t') /\
    (forall k r, In (k, r) (vals b' t') <-> In k ks /\ In (k, r) (vals b t)) /\
    (NoDup ks -> map fst t' = ks) /\ (cp = true -> isolated b b' t') /\
    (forall a, old b a -> rd b' a = rd b a)) /\
  (forall k, In k ks -> ~ In k (map fst t) -> dt_subcol b t ks cp = Err KeyError).
Proof.
  intros b t ks cp H1 H2. split; [exact (dt_subcol_spec b t ks cp H1 H2)|].
  intros k. exact (dt_subcol_missing b t ks cp k).
Qed.
Print Assumptions C08_subcol.

(** ** C09: histories. *)
Theorem C09_history : forall b0 t0 ops, NoDup (map fst t0) -> items_old b0 t0 ->
  (forall o, In o ops -> top_old b0 o) ->
  let st := fold_left tstep ops (t0, b0) in
  NoDup (dt_keys (fst st)) /\
  dt_keys (fst st) = fold_left k_step ops (dt_keys t0) /\
  (forall k, abs st k = fold_left (a_step (rd b0)) ops (abs (t0, b0)) k) /\
  (forall k, In k (dt_keys (fst st)) <-> abs st k <> None).
Proof.
  intros b0 t0 ops H1 H2 H3. destruct (history_refines b0 t0 ops H1 H2 H3) as (A & B & C).
  exact (conj A (conj (history_order b0 t0 ops H1 H2 H3) (conj B C))).
Qed.
Print Assumptions C09_history.

Theorem C09_reads_agree : forall t k,
  (dt_contains t k = true <-> In k (dt_keys t)) /\
  ((exists a, dt_get t k = Ok a) <-> In k (dt_keys t)) /\
  (forall e, dt_get t k = Err e -> e = KeyError).
Proof. exact dt_reads_agree. Qed.
Print Assumptions C09_reads_agree.

(** Reported outcomes of the mutators. *)
Theorem C09_outcomes : forall b t k ks vs,
  (fst (dt_set_tuple b t ks vs) = Ok tt <-> length ks = length vs) /\
  (length ks <> length vs -> dt_set_tuple b t ks vs = (Err AssertionError, (t, b))) /\
  (fst (dt_del t k) = Ok tt <-> In k (dt_keys t)) /\
  (~ In k (dt_keys t) -> dt_del t k = (Err KeyError, t)).
Proof.
  intros b t k ks vs. unfold dt_set_tuple, dt_del. destruct (dt_reads_agree t k) as [H _]. unfold dt_contains in H.
  destruct (Nat.eqb_spec (length ks) (length vs)); destruct (od_mem String.eqb t k); simpl;
    repeat split; intros; try congruence; try tauto; try (apply H; reflexivity); try (apply H in H0; discriminate).
  all: try (exfalso; apply H0; apply H; reflexivity).
Qed.
Print Assumptions C09_outcomes.

Theorem C09_getattr : forall cls t k, ~ In k cls ->
  (forall a, dt_getattr cls t k = ACol a <-> dt_get t k = Ok a) /\
  (dt_getattr cls t k = AAttributeError <-> ~ In k (dt_keys t)).
Proof. exact dt_getattr_spec. Qed.
Print Assumptions C09_getattr.
(** A name that is an attribute of the class (e.g. "keys") is never a column through attribute access. *)
Theorem C09_getattr_class_names : forall cls t k, In k cls -> dt_getattr cls t k = AMethod k.
Proof. exact dt_getattr_cls. Qed.
Print Assumptions C09_getattr_class_names.

(** ** Concrete cases. *)
Definition ex_b : bufs := [[10;20;30]%Z; [1;2;3]%Z].
Definition ex_x := {| buf := 0; idx := [0;1;2] |}.
Definition ex_y := {| buf := 1; idx := [2;1;0] |}.          (* a reversed view *)
Definition ex_items := [("x", ex_x); ("y", ex_y)].
Example ex_items_old : items_old ex_b ex_items /\ NoDup (map fst ex_items) /\ arr_ok ex_b ex_y.
Proof.
  repeat split.
  - intros k a [E|[E|[]]]; inversion E; unfold old; simpl; lia.
  - repeat constructor; simpl; intuition discriminate.
  - simpl; lia.
  - simpl. intros i [<-|[<-|[<-|[]]]]; lia.
Qed.
Definition ex_t := dt_new ex_b ex_items true.
Definition ex_show (r : result (table * bufs)) := rmap (fun p => vals (snd p) (fst p)) r.
Example ex_new : ex_show (Ok ex_t) = Ok [("x", [10;20;30]); ("y", [3;2;1])]%Z.
Proof. reflexivity. Qed.
Example ex_mask : ex_show (dt_subset (snd ex_t) (fst ex_t) (SMask [true;false;true]) true)
  = Ok [("x", [10;30]); ("y", [3;1])]%Z.
Proof. reflexivity. Qed.
Example ex_slice : ex_show (dt_subset (snd ex_t) (fst ex_t) (SSlice None None (Some (-1)%Z)) false)
  = Ok [("x", [30;20;10]); ("y", [1;2;3])]%Z.
Proof. reflexivity. Qed.
Example ex_concat : ex_show (dt_concat (snd ex_t) (fst ex_t) [fst ex_t])
  = Ok [("x", [10;20;30;10;20;30]); ("y", [3;2;1;3;2;1])]%Z.
Proof. reflexivity. Qed.
Example ex_subcol : ex_show (dt_subcol (snd ex_t) (fst ex_t) ["y"] true) = Ok [("y", [3;2;1])]%Z /\
  dt_subcol (snd ex_t) (fst ex_t) ["y"; "q"] true = Err KeyError.
Proof. split; reflexivity. Qed.
Example ex_history :
  let st := fold_left tstep [TSet "a" ex_x; TUpdate ex_items true; TSetTuple ["a"; "z"] [ex_y; ex_x];
                             TDelTuple ["x"; "q"; "y"]] ([], ex_b) in
  vals (snd st) (fst st) = [("a", [3;2;1]); ("y", [3;2;1]); ("z", [10;20;30])]%Z /\
  Forall (top_old ex_b) [TSet "a" ex_x; TUpdate ex_items true; TSetTuple ["a"; "z"] [ex_y; ex_x];
                             TDelTuple ["x"; "q"; "y"]].
Proof.
  split; [reflexivity|]. destruct ex_items_old as (A & B & _).
  assert (Hx : old ex_b ex_x) by (unfold old; simpl; lia). assert (Hy : old ex_b ex_y) by (unfold old; simpl; lia).
  constructor; [exact Hx|]. constructor; [exact (conj A B)|].
  constructor; [intros a Ha; destruct Ha as [Ha|[Ha|[]]]; subst a; assumption|].
  constructor; [exact I|constructor].
Qed.
(** to_dict: a dict of the same columns; with copy=True (the default) in new storage, with copy=False the very arrays of the table. *)
Theorem C07_to_dict : forall b t, NoDup (map fst t) ->
  (forall t' b', items_old b t -> dt_to_dict b t true = (t', b') -> isolated b b' t' /\ vals b' t' = vals b t) /\
  dt_to_dict b t false = (t, b).
Proof. intros b t N. split; [intros t' b' O; exact (dt_new_spec b t t' b' O N)|exact (dt_new_nocopy b t N)]. Qed.
Print Assumptions C07_to_dict.
(** t[k1, k2, ...]: the stored arrays in the order asked, repeated names allowed; a name that is no column raises what t[k] raises for the first such name. *)
Theorem C07_getitem_tuple : forall t ks,
  (forall l, dt_get_tuple t ks = Ok l <-> Forall2 (fun k a => dt_get t k = Ok a) ks l) /\
  (forall pre k post e, ks = (pre ++ k :: post)%list -> (forall q, In q pre -> exists a, dt_get t q = Ok a) -> dt_get t k = Err e -> dt_get_tuple t ks = Err e).
Proof.
  intros t ks. unfold dt_get_tuple. split.
  - induction ks as [|k ks IH]; intros l; cbn [mapM].
    + split; [intros H; injection H as <-; constructor|intros H; inversion H; reflexivity].
    + destruct (dt_get t k) as [a|e] eqn:E; cbn [bind].
      * destruct (mapM (dt_get t) ks) as [l'|e'] eqn:M; cbn [bind]; split; intros H.
        -- injection H as <-. constructor; [exact E|]. apply IH. reflexivity.
        -- inversion H as [|? a' ? l2 A A']; subst. apply IH in A'. rewrite E in A. injection A as <-. injection A' as ->. reflexivity.
        -- discriminate.
        -- inversion H as [|? a' ? l2 A A']; subst. apply IH in A'. discriminate.
      * split; [discriminate|]. intros H. inversion H as [|? a' ? l2 A A']; subst. rewrite E in A. discriminate A.
  - intros pre k post e -> P E. induction pre as [|q pre IH]; cbn [app mapM]; [rewrite E; reflexivity|].
    destruct (P q ltac:(left; reflexivity)) as [a ->]. cbn [bind]. rewrite IH; [reflexivity|]. intros r R. apply P. right. exact R.
Qed.
Print Assumptions C07_getitem_tuple.
