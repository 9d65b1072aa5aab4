(** C32-C36 and C67: chunks, masks, clipping, range filters, periodic boxes, dictionary merging.
    (C34's logarithms and normalisation are in FrameProps.v.) *)
From Coq Require Import QArith Qabs Sorted Lqa Reals.
From Verif Require Import Base OrderSpec BinSpec DataTableModel ProcSpec ProcModel ProcProofs ProcProofs2 ProcFloat.
Local Open Scope list_scope. Local Open Scope nat_scope.

(** ** C32 *)
(** The i-th range runs from the sum of the first i sizes to the sum of the first i+1: consecutive ranges abut and have
    the given sizes. *)
Theorem C32_ranges sizes : length (ranges_by_sizes sizes) = length sizes /\
  (forall i b e, nth_error (ranges_by_sizes sizes) i = Some (b, e) -> b = Zsum (firstn i sizes) /\ e = Zsum (firstn (S i) sizes) /\
     exists s, nth_error sizes i = Some s /\ e = (b + s)%Z) /\
  (forall i b e b' e', nth_error (ranges_by_sizes sizes) i = Some (b, e) -> nth_error (ranges_by_sizes sizes) (S i) = Some (b', e') -> b' = e).
Proof. exact (ranges_spec sizes). Qed.
Print Assumptions C32_ranges.
(** Chunks of each sequence have the requested sizes and concatenate to its first sum(sizes) elements; no sequence is an
    error. *)
Theorem C32_slices A (sizes : list Z) (seqs : list (list A)) : (forall z, In z sizes -> (0 <= z)%Z) ->
  match slices_by_sizes sizes seqs with
  | Ok out => seqs <> [] /\ length out = length sizes /\
      (forall k s, nth_error seqs k = Some s -> concat (map (fun c => nth k c []) out) = firstn (Z.to_nat (Zsum sizes)) s) /\
      (forall i chunk z k s c, nth_error out i = Some chunk -> nth_error sizes i = Some z -> nth_error seqs k = Some s -> nth_error chunk k = Some c ->
         (Zsum sizes <= Z.of_nat (length s))%Z -> Z.of_nat (length c) = z)
  | Err e => e = AssertionError /\ seqs = []
  end.
Proof. exact (slices_spec sizes seqs). Qed.
Print Assumptions C32_slices.
Theorem C32_offsets count : length (count_to_offset count true) = S (length count) /\ length (count_to_offset count false) = length count /\
  (forall has_end i v, nth_error (count_to_offset count has_end) i = Some v -> v = Zsum (firstn i count)) /\
  count_to_offset_pairs count = ranges_by_sizes count.
Proof. exact (offset_spec count). Qed.
Print Assumptions C32_offsets.
Example C32_nonvacuous : slices_by_sizes [2; 0; 1]%Z [[10; 20; 30; 40]; [1; 2; 3; 4]] = Ok [[[10; 20]; [1; 2]]; [[]; []]; [[30]; [3]]].
Proof. reflexivity. Qed.

(** ** C33 *)
(** Boolean mask to indices and back is the identity. *)
Theorem C33_bool_idx_bool l : idx_to_bool (length l) (map Z.of_nat (bool_to_idx l)) = Ok l.
Proof. exact (mask_roundtrip l). Qed.
Print Assumptions C33_bool_idx_bool.
Theorem C33_bool_to_idx l : StronglySorted lt (bool_to_idx l) /\ forall p, In p (bool_to_idx l) <-> nth_error l p = Some true.
Proof.
  split; [apply true_positions_sorted|]. intros p. unfold bool_to_idx. rewrite true_positions_spec, Nat.sub_0_r.
  split; [intros [_ H]; exact H|intros H; split; [apply Nat.le_0_l|exact H]].
Qed.
Print Assumptions C33_bool_to_idx.
(** Strictly increasing indices to Boolean mask and back is the identity. *)
Theorem C33_idx_bool_idx n ps l : StronglySorted lt ps -> idx_to_bool n (map Z.of_nat ps) = Ok l -> bool_to_idx l = ps.
Proof. exact (idx_roundtrip n ps l). Qed.
Print Assumptions C33_idx_bool_idx.
Theorem C33_idx_to_bool n idx : match idx_to_bool n idx with
  | Ok l => length l = n /\ (forall z, In z idx -> (- Z.of_nat n <= z < Z.of_nat n)%Z) /\
      forall i, i < n -> (nth_error l i = Some true <-> In (Z.of_nat i) idx \/ In (Z.of_nat i - Z.of_nat n)%Z idx) /\
                         (nth_error l i = Some true \/ nth_error l i = Some false)
  | Err e => e = IndexError /\ exists z, In z idx /\ ~ (- Z.of_nat n <= z < Z.of_nat n)%Z
  end.
Proof. exact (idx_to_bool_spec n idx). Qed.
Print Assumptions C33_idx_to_bool.
(** [put] writes exactly the masked positions; the values are taken cyclically by position. *)
Theorem C33_put A (dst src : list A) mask : match mask_put dst src mask with
  | Err e => e = ValueError /\ length mask <> length dst
  | Ok out => length mask = length dst /\ length out = length dst /\
      forall i, nth_error out i = match nth_error mask i with
        | Some true => match nth_error src (i mod length src) with Some v => Some v | None => nth_error dst i end
        | _ => nth_error dst i end
  end.
Proof. exact (mask_put_spec dst src mask). Qed.
Print Assumptions C33_put.
(** Finding: the documentation says a short mask is repeated; it is an error. *)
Theorem C33_put_short_mask_refuted A (dst src : list A) mask : length mask < length dst -> mask_put dst src mask = Err ValueError.
Proof. intros H. unfold mask_put. destruct (Nat.eqb_spec (length mask) (length dst)); [lia|reflexivity]. Qed.
Print Assumptions C33_put_short_mask_refuted.
(** [zip] takes every element from the first array whose mask is true there, otherwise the default (0 if not given). *)
Theorem C33_zip masks arrays default n : masks <> [] -> length masks = length arrays ->
  (forall m, In m masks -> length m = n) -> (forall a, In a arrays -> length a = n) ->
  exists out, mask_zip masks arrays default = Ok out /\ length out = n /\
  forall i v, nth_error out i = Some v ->
    (exists k m a, nth_error masks k = Some m /\ nth_error arrays k = Some a /\ nth_error m i = Some true /\ nth_error a i = Some v /\
       (forall k' m', k' < k -> nth_error masks k' = Some m' -> nth_error m' i = Some false)) \/
    ((forall m, In m masks -> nth_error m i = Some false) /\ v = match default with Some d => d | None => 0%Q end).
Proof. exact (mask_zip_spec masks arrays default n). Qed.
Print Assumptions C33_zip.
(** Selecting several arrays with one mask takes the same rows of each. *)
Theorem C33_on_arrays A s (d : A) l n ps : (forall a, In a l -> length a = n) -> sel_rows n s = Ok ps ->
  exists out, on_arrays s d l = Ok out /\ Forall2 (fun a o => length o = length ps /\
    forall i p, nth_error ps i = Some p -> nth_error o i = nth_error a p) l out.
Proof. exact (on_arrays_spec s d l n ps). Qed.
Print Assumptions C33_on_arrays.
Theorem C33_on_dict A s (d : A) items n ps : (forall kv, In kv items -> length (snd kv) = n) -> sel_rows n s = Ok ps ->
  exists out, on_dict s d items = Ok out /\ map fst out = map fst items /\
    Forall2 (fun kv o => length (snd o) = length ps /\ forall i p, nth_error ps i = Some p -> nth_error (snd o) i = nth_error (snd kv) p) items out.
Proof. exact (on_dict_spec s d items n ps). Qed.
Print Assumptions C33_on_dict.
Example C33_nonvacuous : mask_put [1; 2; 3; 4] [10; 20; 30] [true; false; true; true] = Ok [10; 2; 30; 10] /\
  mask_zip [[true; false; false]; [true; true; false]] [[1; 2; 3]; [4; 5; 6]]%Q None = Ok [1; 5; 0]%Q.
Proof. split; reflexivity. Qed.

(** ** C34 (clipping) *)
(** Bounding an array bounds every element as the scalar version does; with copy=True the argument is untouched. *)
Theorem C34_bound_array lo hi copy x :
  bound_array lo hi copy x = (map (bound_scalar lo hi) x, if copy then x else map (bound_scalar lo hi) x).
Proof. exact (bound_array_map lo hi copy x). Qed.
Print Assumptions C34_bound_array.
(** The bounded value lies between the bounds, equals the input when that already does, and NaN is passed through. *)
Theorem C34_bound lo hi x : lo <> Some NaN -> hi <> Some NaN -> (forall l h, lo = Some l -> hi = Some h -> nlt h l = false) ->
  let r := bound_scalar lo hi x in
  (r = NaN <-> x = NaN) /\ (forall l, lo = Some l -> nlt r l = false) /\ (forall h, hi = Some h -> nlt h r = false) /\
  ((forall l, lo = Some l -> nlt x l = false) -> (forall h, hi = Some h -> nlt h x = false) -> r = x).
Proof. exact (bound_in lo hi x). Qed.
Print Assumptions C34_bound.
(** The divisor of safe_div is never below its lower bound; it is the given one unless that is below. *)
Theorem C34_safe_divisor lo y : lo <> NaN -> nlt (safe_divisor lo y) lo = false /\ (nlt y lo = false -> safe_divisor lo y = y) /\ (nlt y lo = true -> safe_divisor lo y = lo).
Proof.
  intros N. unfold safe_divisor, bound_scalar. destruct (nlt y lo) eqn:E; [|split; [exact E|split; [reflexivity|discriminate]]]. split; [|split; [discriminate|reflexivity]]. destruct lo; cbn; try reflexivity; try congruence. apply Qltb_ge. apply Qle_refl.
Qed.
Print Assumptions C34_safe_divisor.
Theorem C34_bound_finite (lo hi x : Q) : (lo <= hi)%Q -> exists r, bound_scalar (Some (Fin lo)) (Some (Fin hi)) (Fin x) = Fin r /\
  (lo <= r <= hi)%Q /\ ((lo <= x <= hi)%Q -> r = x) /\ ((x < lo)%Q -> r = lo) /\ ((hi < x)%Q -> r = hi).
Proof.
  intros H. unfold bound_scalar, nlt. destruct (Qltb x lo) eqn:E1.
  - rewrite Qltb_lt in E1. destruct (Qltb hi lo) eqn:E2; [rewrite Qltb_lt in E2; lra|]. exists lo. repeat split; try lra; intros; lra.
  - rewrite <- not_true_iff_false, Qltb_lt in E1. destruct (Qltb hi x) eqn:E2; [rewrite Qltb_lt in E2|rewrite <- not_true_iff_false, Qltb_lt in E2].
    + exists hi. repeat split; try lra; intros; lra.
    + exists x. repeat split; try lra; intros; lra.
Qed.
Print Assumptions C34_bound_finite.
Theorem C34_bound_idempotent lo hi x : lo <> Some NaN -> hi <> Some NaN -> (forall l h, lo = Some l -> hi = Some h -> nlt h l = false) ->
  bound_scalar lo hi (bound_scalar lo hi x) = bound_scalar lo hi x.
Proof. exact (bound_idem lo hi x). Qed.
Print Assumptions C34_bound_idempotent.
Theorem C34_bound_monotone lo hi x y : lo <> Some NaN -> hi <> Some NaN -> nle x y = true -> nle (bound_scalar lo hi x) (bound_scalar lo hi y) = true.
Proof. exact (bound_mono lo hi x y). Qed.
Print Assumptions C34_bound_monotone.

(** ** C35 *)
(** The range filter keeps, in order, exactly the elements with min <= x < max; NaN is dropped by either bound. *)
Theorem C35_range min max x : range_filter min max x =
  filter (fun v => (match min with Some m => nle m v | None => true end) && (match max with Some m => nlt v m | None => true end)) x.
Proof. exact (range_filter_eq min max x). Qed.
Print Assumptions C35_range.
Theorem C35_range_finite (min max : Q) x v : In v (range_filter (Some (Fin min)) (Some (Fin max)) x) <->
  In v x /\ exists q, v = Fin q /\ (min <= q < max)%Q.
Proof.
  rewrite range_filter_eq, filter_In. split; intros [H1 H2]; (split; [assumption|]).
  - unfold range_mask in H2. apply andb_true_iff in H2. destruct H2 as [H2 H3]. destruct v as [q| | |]; try discriminate.
    exists q. split; [reflexivity|]. simpl in *. apply negb_true_iff in H2. rewrite <- not_true_iff_false, Qltb_lt in H2. rewrite Qltb_lt in H3. lra.
  - destruct H2 as (q & -> & H2). unfold range_mask. simpl. apply andb_true_iff. rewrite negb_true_iff, <- not_true_iff_false, !Qltb_lt. lra.
Qed.
Print Assumptions C35_range_finite.
(** Complementary ranges split an array without NaN. *)
Theorem C35_range_split (c : Q) x : (forall v, In v x -> v <> NaN) ->
  length (range_filter None (Some (Fin c)) x) + length (range_filter (Some (Fin c)) None x) = length x.
Proof.
  intros H. rewrite !range_filter_eq. induction x as [|v x IH]; [reflexivity|]. specialize (IH (fun u Hu => H u (or_intror Hu))).
  assert (N : v <> NaN) by (apply H; left; reflexivity).
  cbn [filter]. unfold range_mask in *. rewrite andb_true_r. cbn [andb].
  assert (X : nle (Fin c) v = negb (nlt v (Fin c))) by (destruct v; reflexivity || congruence). rewrite X.
  destruct (nlt v (Fin c)); cbn [negb length]; cbn [andb] in IH; lia.
Qed.
Print Assumptions C35_range_split.
Example C35_nonvacuous : range_filter (Some (Fin 1)) (Some (Fin 3)) [Fin 0; Fin 1; NaN; Fin 2; Fin 3; PInf] = [Fin 1; Fin 2].
Proof. reflexivity. Qed.

(** ** C36 *)
(** Exact arithmetic: every selected coordinate is moved by -L, 0 or L; one within a period of the box lands in [0, L);
    one inside stays; others are untouched; with copy=True the argument array is untouched. *)
Theorem C36_shift_in l w copy x : (0 < l)%Q -> (forall m, w = Some m -> length m = length x) ->
  let '(out, after) := shift_in arithQ l w copy x in
  length out = length x /\ after = (if copy then x else out) /\
  forall i v, nth_error x i = Some v -> exists r, nth_error out i = Some r /\
    (sel_at w i = false -> r = v) /\
    (sel_at w i = true ->
      (exists k, (k = -1 \/ k = 0 \/ k = 1)%Z /\ (r == v + inject_Z k * l)%Q) /\
      ((- l <= v)%Q -> (v < 2 * l)%Q -> (0 <= r)%Q /\ (r < l)%Q) /\ ((0 <= v)%Q -> (v < l)%Q -> r = v)).
Proof.
  intros Hl Hw. pose proof (shift_in_len arithQ l w copy x Hw) as L. pose proof (fun i => shift_in_nth arithQ l w copy x i Hw) as N.
  destruct (shift_in arithQ l w copy x) as [out after] eqn:E. cbn [fst] in *. split; [exact L|].
  split; [unfold shift_in in E; destruct copy; congruence|].
  intros i v Hv. rewrite N, Hv. cbn [option_map]. eexists. split; [reflexivity|]. split; [intros ->; reflexivity|]. intros ->. exact (shift_in1_exact l v Hl).
Qed.
Print Assumptions C36_shift_in.
(** The same in IEEE binary64: any finite coordinate with -L <= x < 2L ends in [0, L), never on L itself, although
    x + L may round up to L; coordinates not below 0 are moved without rounding error. *)
Theorem C36_shift_in_float l w copy x i v : fin l = true -> (0 < val l)%R -> (forall m, w = Some m -> length m = length x) ->
  nth_error x i = Some v -> sel_at w i = true -> fin v = true -> (- val l <= val v < 2 * val l)%R ->
  exists r, nth_error (fst (shift_in arith64 l w copy x)) i = Some r /\ fin r = true /\ (0 <= val r < val l)%R /\
    ((0 <= val v < val l)%R -> val r = val v) /\ ((val l <= val v)%R -> val r = (val v - val l)%R).
Proof.
  intros Fl Hl Hw Hv Hs Fv R. exists (shift_in1 arith64 l v). split; [rewrite shift_in_nth, Hv by assumption; cbn [option_map]; rewrite Hs; reflexivity|].
  destruct (shift_in1_float l v Fl Fv Hl R) as (A & B & C). split; [exact A|]. split; [exact B|]. pose proof Hl as Hl'.
  split.
  - intros [H1 H2]. rewrite (C H1). rewrite Raux.Rlt_bool_true by assumption. reflexivity.
  - intros H1. rewrite C by (eapply Rle_trans; [apply Rlt_le; exact Hl|exact H1]). rewrite Raux.Rlt_bool_false by assumption. reflexivity.
Qed.
Print Assumptions C36_shift_in_float.
(** The shifted coordinate is the image of [x] nearest to the reference, provided they are less than 3L/2 apart. *)
Theorem C36_shift_to ref l w copy x i v r : (0 < l)%Q -> length ref = length x -> (forall m, w = Some m -> length m = length x) ->
  nth_error x i = Some v -> nth_error ref i = Some r ->
  exists o, nth_error (fst (shift_to arithQ ref l w copy x)) i = Some o /\
    (sel_at w i = false -> o = v) /\
    (sel_at w i = true ->
      (exists k, (k = -1 \/ k = 0 \/ k = 1)%Z /\ (o == v + inject_Z k * l)%Q) /\
      ((- (3 # 2) * l <= v - r)%Q -> (v - r < (3 # 2) * l)%Q ->
         (- (1 # 2) * l <= o - r)%Q /\ (o - r < (1 # 2) * l)%Q /\ forall k, (Qabs (o - r) <= Qabs (o + inject_Z k * l - r))%Q)).
Proof.
  intros Hl LR Hw Hv Hr. eexists. split; [apply shift_to_nth; eassumption|]. split; [intros ->; reflexivity|]. intros ->. exact (shift_to1_exact l r v Hl).
Qed.
Print Assumptions C36_shift_to.
Theorem C36_shift_to_shape T (A : arith T) ref l w copy x : length ref = length x -> (forall m, w = Some m -> length m = length x) ->
  let '(out, after) := shift_to A ref l w copy x in length out = length x /\ after = if copy then x else out.
Proof. exact (shift_to_shape A ref l w copy x). Qed.
Print Assumptions C36_shift_to_shape.
Theorem C36_test_bound l w x : (forall m, w = Some m -> length m = length x) ->
  (test_bound arithQ l w x = true <-> forall i v, nth_error x i = Some v -> sel_at w i = true -> (0 <= v)%Q /\ (v < l)%Q).
Proof. exact (test_bound_spec l w x). Qed.
Print Assumptions C36_test_bound.
(** After wrapping, the bound test succeeds. *)
Theorem C36_shift_in_then_test l w copy x : (0 < l)%Q -> (forall m, w = Some m -> length m = length x) ->
  (forall i v, nth_error x i = Some v -> sel_at w i = true -> (- l <= v)%Q /\ (v < 2 * l)%Q) ->
  test_bound arithQ l w (fst (shift_in arithQ l w copy x)) = true.
Proof.
  intros Hl Hw H. pose proof (shift_in_len arithQ l w copy x Hw) as L. apply test_bound_spec; [rewrite L; exact Hw|].
  intros i r Hr Hs. rewrite shift_in_nth in Hr by assumption. destruct (nth_error x i) as [v|] eqn:E; [|discriminate]. cbn [option_map] in Hr.
  rewrite Hs in Hr. assert (r = shift_in1 arithQ l v) by congruence. subst r. destruct (H i v E Hs) as [B1 B2].
  destruct (shift_in1_exact l v Hl) as (_ & A & _). exact (A B1 B2).
Qed.
Print Assumptions C36_shift_in_then_test.
(** Wrapping twice changes nothing further. *)
Theorem C36_shift_in_idempotent l v : (0 < l)%Q -> (- l <= v)%Q -> (v < 2 * l)%Q ->
  fst (shift_in arithQ l None true (fst (shift_in arithQ l None true [v]))) = fst (shift_in arithQ l None true [v]).
Proof.
  intros Hl H1 H2. assert (S1 : forall u, fst (shift_in arithQ l None true [u]) = [shift_in1 arithQ l u]) by reflexivity.
  rewrite !S1. destruct (shift_in1_exact l v Hl) as (_ & A & _). destruct (A H1 H2) as [B1 B2].
  destruct (shift_in1_exact l (shift_in1 arithQ l v) Hl) as (_ & _ & C). rewrite (C B1 B2). reflexivity.
Qed.
Print Assumptions C36_shift_in_idempotent.
(** Two periods away is not handled. *)
Theorem C36_shift_in_far_refuted : test_bound arithQ 1%Q None (fst (shift_in arithQ 1%Q None true [5 # 2; - (3 # 2)]%Q)) = false.
Proof. reflexivity. Qed.
Print Assumptions C36_shift_in_far_refuted.
Example C36_nonvacuous : fst (shift_in arithQ 10%Q (Some [true; true; false; true]) true [-3; 12; -3; 4]%Q) = [-3 + 10; 12 - 10; -3; 4]%Q.
Proof. reflexivity. Qed.
Example C36_float_nonvacuous : map B2SF64 (fst (shift_in arith64 (of_Z64 10) None true [BinarySingleNaN.Bopp (div64 (of_Z64 1) (of_Z64 (2 ^ 60))); of_Z64 12])) =
  map B2SF64 [of_Z64 0; of_Z64 2].
Proof. vm_compute. reflexivity. Qed.

(** ** C67 *)
(** Later mappings override earlier ones, None is skipped, keyword items override all. *)
Theorem C67_combine_dicts V (ds : list (option (odict string V))) items :
  (forall d, In d (present ds) -> NoDup (map fst d)) -> NoDup (map fst items) ->
  NoDup (map fst (combine_dicts ds items)) /\
  forall k, od_get String.eqb (combine_dicts ds items) k = rightmost (present ds ++ [items]) k.
Proof. exact (combine_dicts_spec ds items). Qed.
Print Assumptions C67_combine_dicts.
Example C67_nonvacuous : combine_dicts [Some [("a", 1); ("b", 2)]; None; Some [("b", 3); ("c", 4)]]%string [("c", 5)]%string = [("a", 1); ("b", 3); ("c", 5)]%string.
Proof. reflexivity. Qed.

(** Array.as_array: one output per argument with the same values, None staying None; the result shares memory with the argument
    only when no copy was asked for; no argument at all raises AssertionError. *)
Theorem C67_as_array A (args : list (option A)) copy :
  (args = [] -> as_array args copy = Err AssertionError) /\
  (args <> [] -> exists outs, as_array args copy = Ok outs /\ length outs = length args /\
     forall i, match nth_error args i with
               | Some None => nth_error outs i = Some None
               | Some (Some a) => exists shared, nth_error outs i = Some (Some (a, shared)) /\ (shared = true <-> copy = false)
               | None => nth_error outs i = None
               end).
Proof.
  split; [intros ->; reflexivity|]. intros H. unfold as_array. destruct args as [|a0 args0]; [congruence|]. set (args := a0 :: args0).
  eexists. split; [reflexivity|]. split; [apply map_length|]. intros i. rewrite nth_error_map.
  destruct (nth_error args i) as [[a|]|]; cbn [option_map]; try reflexivity. eexists. split; [reflexivity|]. destruct copy; cbn; split; congruence.
Qed.
Print Assumptions C67_as_array.
