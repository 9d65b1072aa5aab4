From Coq.Strings Require Import Byte.
From Verif Require Import Base FortSpec FortModel.
Local Open Scope list_scope. Local Open Scope nat_scope.

Lemma byte_N_range b : (0 <= Z.of_N (Byte.to_N b) < 256)%Z.
Proof. pose proof (Byte.to_N_bounded b). lia. Qed.

Lemma byte_N_inj a b : Byte.to_N a = Byte.to_N b -> a = b.
Proof. intros H. apply (f_equal Byte.of_N) in H. rewrite !Byte.of_to_N in H. congruence. Qed.

Lemma nth_byte_val k z : Z.of_N (Byte.to_N (nth_byte k z)) = ((z / 256 ^ Z.of_nat k) mod 256)%Z.
Proof.
  unfold nth_byte. set (r := ((z / 256 ^ Z.of_nat k) mod 256)%Z).
  assert (Hr : (0 <= r < 256)%Z) by (apply Z.mod_pos_bound; lia).
  destruct (Byte.of_N (Z.to_N r)) as [b|] eqn:E.
  - apply Byte.to_of_N in E. rewrite E. lia.
  - apply Byte.of_N_None_iff in E. lia.
Qed.

Lemma int32_le32 z : (- 2 ^ 31 <= z < 2 ^ 31)%Z -> int32_of (le32 z) = z.
Proof.
  intros H. unfold int32_of, le32. cbn [fold_right]. rewrite !nth_byte_val.
  change (256 ^ Z.of_nat 0)%Z with 1%Z. change (256 ^ Z.of_nat 1)%Z with 256%Z.
  change (256 ^ Z.of_nat 2)%Z with 65536%Z. change (256 ^ Z.of_nat 3)%Z with 16777216%Z.
  change (2 ^ 31)%Z with 2147483648%Z in *. change (2 ^ 32)%Z with 4294967296%Z.
  match goal with |- (if (?u <? _)%Z then _ else _) = _ => set (v := u) end.
  assert (Hv : v = (z mod 4294967296)%Z).
  { unfold v. clear v.
    rewrite Z.div_1_r.
    rewrite (Z.div_mod z 256) at 5 by lia.
    replace (z / 65536)%Z with (z / 256 / 256)%Z by (rewrite Z.div_div by lia; reflexivity).
    replace (z / 16777216)%Z with (z / 256 / 256 / 256)%Z by (rewrite !Z.div_div by lia; reflexivity).
    set (q := (z / 256)%Z). set (r := (z mod 256)%Z).
    assert (0 <= r < 256)%Z by (apply Z.mod_pos_bound; lia).
    pose proof (Z.div_mod q 256 ltac:(lia)). set (q1 := (q / 256)%Z) in *.
    pose proof (Z.div_mod q1 256 ltac:(lia)). set (q2 := (q1 / 256)%Z) in *.
    pose proof (Z.div_mod q2 256 ltac:(lia)). set (q3 := (q2 / 256)%Z) in *.
    pose proof (Z.mod_pos_bound q 256 ltac:(lia)). pose proof (Z.mod_pos_bound q1 256 ltac:(lia)).
    pose proof (Z.mod_pos_bound q2 256 ltac:(lia)).
    apply (Z.mod_unique _ _ q3); lia. }
  destruct (Z.ltb_spec v 2147483648).
  - rewrite Hv in *. destruct (Z.ltb_spec z 0).
    + rewrite <- (Z.mod_add z 1 4294967296) in * by lia. rewrite Z.mod_small in * by lia. lia.
    + rewrite Z.mod_small by lia. reflexivity.
  - rewrite Hv in *. destruct (Z.ltb_spec z 0).
    + rewrite <- (Z.mod_add z 1 4294967296) by lia. rewrite Z.mod_small by lia. lia.
    + rewrite Z.mod_small in * by lia. lia.
Qed.

Lemma int32_inj a b : length a = 4 -> length b = 4 -> int32_of a = int32_of b -> a = b.
Proof.
  intros Ha Hb.
  destruct a as [|a0 [|a1 [|a2 [|a3 [|]]]]]; simpl in Ha; try lia.
  destruct b as [|b0 [|b1 [|b2 [|b3 [|]]]]]; simpl in Hb; try lia.
  unfold int32_of. cbn [fold_right].
  pose proof (byte_N_range a0). pose proof (byte_N_range a1). pose proof (byte_N_range a2). pose proof (byte_N_range a3).
  pose proof (byte_N_range b0). pose proof (byte_N_range b1). pose proof (byte_N_range b2). pose proof (byte_N_range b3).
  change (2 ^ 31)%Z with 2147483648%Z. change (2 ^ 32)%Z with 4294967296%Z.
  intros E.
  repeat match type of E with context [(?x <? ?y)%Z] => destruct (Z.ltb_spec x y) end; 
  assert (Z.of_N (Byte.to_N a0) = Z.of_N (Byte.to_N b0) /\ Z.of_N (Byte.to_N a1) = Z.of_N (Byte.to_N b1) /\
          Z.of_N (Byte.to_N a2) = Z.of_N (Byte.to_N b2) /\ Z.of_N (Byte.to_N a3) = Z.of_N (Byte.to_N b3)) as (E0 & E1 & E2 & E3) by lia;
  apply N2Z.inj in E0, E1, E2, E3; apply byte_N_inj in E0, E1, E2, E3; congruence.
Qed.

Lemma pieces_concat s k : forall fuel bs, s <> 0 -> length bs = k * s -> k <= fuel ->
  concat (pieces fuel s bs) = bs /\ length (pieces fuel s bs) = k /\ Forall (fun x => length x = s) (pieces fuel s bs).
Proof.
  induction k as [|k IH]; intros fuel bs Hs Hl Hf.
  - destruct bs; [|discriminate]. destruct fuel; cbn [pieces]; [auto|].
    destruct (Nat.leb_spec s (length (@nil byte))); [simpl in *; lia|auto].
  - destruct fuel as [|fuel]; [lia|]. cbn [pieces].
    destruct (Nat.leb_spec s (length bs)); [|nia].
    destruct (IH fuel (skipn s bs)) as (A & B & C); [assumption|rewrite skipn_length; nia|lia|].
    cbn [concat length]. rewrite A, B, firstn_skipn. split; [reflexivity|]. split; [reflexivity|].
    constructor; [|assumption]. rewrite firstn_length. lia.
Qed.

Lemma mul_ge s k : s <> 0 -> k <= k * s.
Proof. nia. Qed.

Lemma fromfile_full file pos d k : itemsize d <> 0 -> (0 <= k)%Z -> pos + Z.to_nat k * itemsize d <= length file ->
  exists xs, fromfile file pos d k = (Ok xs, pos + Z.to_nat k * itemsize d) /\
             concat xs = firstn (Z.to_nat k * itemsize d) (skipn pos file) /\ length xs = Z.to_nat k /\
             Forall (fun x => length x = itemsize d) xs.
Proof.
  intros Hs Hk Hl. unfold fromfile. destruct (Nat.eqb_spec (itemsize d) 0); [lia|].
  destruct (Z.ltb_spec k 0); [lia|].
  set (bs := firstn (Z.to_nat k * itemsize d) (skipn pos file)).
  assert (Hb : length bs = Z.to_nat k * itemsize d) by (unfold bs; rewrite firstn_length, skipn_length; lia).
  destruct (pieces_concat (itemsize d) (Z.to_nat k) (length bs) bs) as (A & B & C); [assumption|assumption| |].
  { rewrite Hb. apply mul_ge; assumption. }
  exists (pieces (length bs) (itemsize d) bs). rewrite Hb in *. auto.
Qed.

Lemma fromfile_short file pos d k : itemsize d <> 0 -> (0 <= k)%Z -> length file < pos + Z.to_nat k * itemsize d ->
  exists xs, fromfile file pos d k = (Ok xs, Nat.max pos (length file)).
Proof.
  intros Hs Hk Hl. unfold fromfile. destruct (Nat.eqb_spec (itemsize d) 0); [lia|].
  destruct (Z.ltb_spec k 0); [lia|].
  eexists. f_equal. rewrite firstn_length, skipn_length. lia.
Qed.

Lemma load_rec_full file pos d n : itemsize d <> 0 -> nonneg n -> pos + count_of n * itemsize d <= length file ->
  exists xs, load_rec file pos d n = (Ok xs, pos + count_of n * itemsize d) /\
             concat xs = firstn (count_of n * itemsize d) (skipn pos file) /\ length xs = count_of n /\
             Forall (fun x => length x = itemsize d) xs.
Proof.
  intros Hs Hn Hl. destruct n as [n|]; cbn [load_rec count_of nonneg] in *; [apply fromfile_full; assumption|].
  destruct (fromfile_full file pos d 1 Hs ltac:(lia)) as (xs & E & A & B & C); [exact Hl|].
  change (Z.to_nat 1) with 1 in *. rewrite E. destruct xs as [|x [|]]; cbn in B; try lia. exists [x]. auto.
Qed.

Lemma load_rec_short file pos d n r p : itemsize d <> 0 -> nonneg n -> length file < pos + count_of n * itemsize d ->
  load_rec file pos d n = (r, p) -> length file <= p.
Proof.
  intros Hs Hn Hl E. destruct n as [n|]; cbn [load_rec count_of nonneg] in *.
  - destruct (fromfile_short file pos d n Hs Hn Hl) as (xs & F). rewrite F in E. inversion E. lia.
  - destruct (fromfile_short file pos d 1 Hs ltac:(lia)) as (xs & F); [exact Hl|]. rewrite F in E.
    destruct xs; inversion E; lia.
Qed.

Lemma pieces_short s : forall fuel bs, length bs < s -> pieces fuel s bs = [].
Proof. intros [|fuel] bs H; cbn [pieces]; [reflexivity|]. destruct (Nat.leb_spec s (length bs)); [lia|reflexivity]. Qed.

Lemma load_marker_ok file pos : pos + 4 <= length file ->
  load_marker file pos = (Ok (int32_of (firstn 4 (skipn pos file))), pos + 4).
Proof.
  intros H. unfold load_marker. destruct (load_rec_full file pos np_int32 None) as (xs & E & A & _); cbn in *; [lia|exact I|lia|].
  rewrite E. cbn. rewrite A. reflexivity.
Qed.

Lemma load_marker_err file pos : length file < pos + 4 -> exists p, load_marker file pos = (Err IndexError, p).
Proof.
  intros H. unfold load_marker, load_rec, fromfile. cbn [itemsize np_int32 Nat.eqb]. destruct (Z.ltb_spec 1 0); [lia|].
  rewrite pieces_short; [eexists; reflexivity|]. rewrite firstn_length, skipn_length. lia.
Qed.

Lemma bytes_at_firstn file p k : p + k <= length file -> bytes_at file p (firstn k (skipn p file)).
Proof.
  intros H. exists (firstn p file), (skipn k (skipn p file)). split.
  - rewrite firstn_skipn, firstn_skipn. reflexivity.
  - rewrite firstn_length. lia.
Qed.

Lemma bytes_at_inv file p bs : bytes_at file p bs -> p + length bs <= length file /\ firstn (length bs) (skipn p file) = bs.
Proof.
  intros (pre & post & -> & <-). rewrite !app_length. split; [lia|].
  rewrite skipn_app, skipn_all, Nat.sub_diag. cbn [skipn app]. rewrite firstn_app, firstn_all, Nat.sub_diag.
  cbn [firstn]. apply app_nil_r.
Qed.

Lemma bytes_at_app file p a b : bytes_at file p (a ++ b) <-> bytes_at file p a /\ bytes_at file (p + length a) b.
Proof.
  split.
  - intros (pre & post & -> & <-). split.
    + exists pre, (b ++ post). rewrite <- app_assoc. auto.
    + exists (pre ++ a), post. rewrite app_length, <- !app_assoc. auto.
  - intros [Ha Hb]. destruct Ha as (pre & post & -> & <-). apply bytes_at_inv in Hb. destruct Hb as [Hl Hb].
    exists pre, (skipn (length b) post). split; [|reflexivity].
    rewrite skipn_app in Hb. rewrite (skipn_all2 pre) in Hb by lia. cbn [app] in Hb.
    replace (length pre + length a - length pre) with (length a) in Hb by lia.
    rewrite skipn_app, skipn_all, Nat.sub_diag in Hb. cbn [skipn app] in Hb.
    rewrite <- app_assoc. rewrite <- Hb at 1. rewrite firstn_skipn. reflexivity.
Qed.

(** What makes load_sect succeed. *)
Lemma load_sect_ok file pos d n xs p : itemsize d <> 0 -> nonneg n ->
  (load_sect file pos d n = (Ok xs, p) <->
   exists m, length m = 4 /\ bytes_at file pos (m ++ concat xs ++ m) /\ length xs = count_of n /\
             Forall (fun x => length x = itemsize d) xs /\ p = pos + 8 + count_of n * itemsize d).
Proof.
  intros Hs Hn. unfold load_sect. split.
  - destruct (Nat.le_gt_cases (pos + 4) (length file)) as [H1|H1].
    2:{ destruct (load_marker_err file pos H1) as [q ->]. discriminate. }
    rewrite load_marker_ok by assumption.
    destruct (Nat.le_gt_cases (pos + 4 + count_of n * itemsize d) (length file)) as [H2|H2].
    + destruct (load_rec_full file (pos + 4) d n Hs Hn H2) as (ys & E & A & B & C). rewrite E.
      destruct (Nat.le_gt_cases (pos + 4 + count_of n * itemsize d + 4) (length file)) as [H3|H3].
      2:{ destruct (load_marker_err file _ H3) as [q ->]. discriminate. }
      rewrite load_marker_ok by assumption.
      match goal with |- context [Z.eqb ?a ?b] => destruct (Z.eqb_spec a b) as [Em|] end; [|discriminate].
      intros G. injection G as -> <-. apply int32_inj in Em; [|rewrite firstn_length, skipn_length; lia..].
      exists (firstn 4 (skipn pos file)). split; [rewrite firstn_length, skipn_length; lia|].
      split; [|repeat split; auto; lia].
      apply bytes_at_app. split; [apply bytes_at_firstn; assumption|].
      rewrite firstn_length, skipn_length. replace (pos + Nat.min 4 (length file - pos)) with (pos + 4) by lia.
      apply bytes_at_app. rewrite A. split; [apply bytes_at_firstn; assumption|].
      rewrite firstn_length, skipn_length. rewrite Em. 
      replace (pos + 4 + Nat.min (count_of n * itemsize d) (length file - (pos + 4))) with (pos + 4 + count_of n * itemsize d) by lia.
      apply bytes_at_firstn. assumption.
    + destruct (load_rec file (pos + 4) d n) as [r q] eqn:E. pose proof (load_rec_short file _ d n r q Hs Hn H2 E).
      destruct r; [|discriminate]. destruct (load_marker_err file q) as [q' ->]; [lia|discriminate].
  - intros (m & Hm & Hb & Hx & Hf & ->).
    apply bytes_at_app in Hb. destruct Hb as [B1 Hb]. apply bytes_at_app in Hb. destruct Hb as [B2 B3].
    rewrite Hm in *.
    assert (Hc : length (concat xs) = count_of n * itemsize d).
    { rewrite <- Hx. clear -Hf. induction Hf; cbn [concat length]; [reflexivity|]. rewrite app_length. lia. }
    apply bytes_at_inv in B1, B2, B3. rewrite Hc, ?Hm in *. destruct B1 as [L1 E1], B2 as [L2 E2], B3 as [L3 E3].
    rewrite load_marker_ok by lia.
    destruct (load_rec_full file (pos + 4) d n Hs Hn L2) as (ys & E & A & B & C). rewrite E.
    rewrite load_marker_ok by lia. rewrite E1, E3, Z.eqb_refl.
    assert (xs = ys).
    { rewrite E2 in A. rewrite <- Hx in B. clear -A B C Hf. revert ys A B C.
      induction Hf as [|x xs Hx Hf IH]; intros [|y ys] A B C; cbn in B; try lia; [reflexivity|].
      inversion C; subst. cbn [concat] in A.
      assert (y = x).
      { apply (f_equal (firstn (itemsize d))) in A. rewrite !firstn_app in A.
        rewrite (firstn_all2 y), (firstn_all2 x) in A by lia.
        replace (itemsize d - length y) with 0 in A by lia. replace (itemsize d - length x) with 0 in A by lia.
        cbn [firstn] in A. rewrite !app_nil_r in A. exact A. }
      subst y. f_equal. apply IH; [apply app_inv_head in A; exact A|lia|assumption]. }
    subst ys. f_equal. lia.
Qed.

(** skip_sect succeeds in the same cases and to the same position. *)
Lemma skip_load file pos d n p : itemsize d <> 0 -> is_instance d = true -> nonneg n ->
  (skip_sect file pos d n = (Ok tt, p) <-> exists xs, load_sect file pos d n = (Ok xs, p)).
Proof.
  intros Hs Hi Hn. unfold skip_sect, load_sect.
  destruct (load_marker file pos) as [[n1|e] q] eqn:E1; [|split; [discriminate|intros [xs H]; discriminate]].
  unfold skip_rec, rec_size, seek. rewrite Hi.
  replace (Z.of_nat (itemsize d) * match n with Some n0 => n0 | None => 1 end)%Z with (Z.of_nat (count_of n * itemsize d))
    by (destruct n; cbn [count_of nonneg] in *; nia).
  destruct (Z.ltb_spec (Z.of_nat q + Z.of_nat (count_of n * itemsize d)) 0); [lia|]. cbn [rmap].
  replace (Z.to_nat (Z.of_nat q + Z.of_nat (count_of n * itemsize d))) with (q + count_of n * itemsize d) by lia.
  destruct (Nat.le_gt_cases (q + count_of n * itemsize d) (length file)) as [H2|H2].
  - destruct (load_rec_full file q d n Hs Hn H2) as (ys & E & _). rewrite E.
    destruct (load_marker file (q + count_of n * itemsize d)) as [[n2|e] q2]; [|split; [discriminate|intros [xs ?]; discriminate]].
    destruct (n1 =? n2)%Z; split; try discriminate.
    + intros G. injection G as <-. exists ys. reflexivity.
    + intros [xs G]. injection G as _ <-. reflexivity.
    + intros [xs ?]. discriminate.
  - destruct (load_marker_err file (q + count_of n * itemsize d)) as [q2 ->]; [lia|]. split; [discriminate|].
    intros [xs G]. destruct (load_rec file q d n) as [[ys|e] q3] eqn:E; [|discriminate].
    pose proof (load_rec_short file q d n _ _ Hs Hn H2 E).
    destruct (load_marker_err file q3) as [q4 E4]; [lia|]. rewrite E4 in G. discriminate.
Qed.

Lemma load_sect_mismatch file pos d n m1 raw m2 : itemsize d <> 0 -> nonneg n -> length m1 = 4 -> length m2 = 4 ->
  length raw = count_of n * itemsize d -> bytes_at file pos (m1 ++ raw ++ m2) -> m1 <> m2 ->
  fst (load_sect file pos d n) = Err AssertionError.
Proof.
  intros Hs Hn H1 H2 Hr Hb Hne.
  apply bytes_at_app in Hb. destruct Hb as [B1 Hb]. apply bytes_at_app in Hb. destruct Hb as [B2 B3].
  rewrite H1, Hr in *. apply bytes_at_inv in B1, B2, B3. rewrite H1, H2, Hr in *.
  destruct B1 as [L1 E1], B2 as [L2 E2], B3 as [L3 E3].
  unfold load_sect. rewrite load_marker_ok by lia.
  destruct (load_rec_full file (pos + 4) d n Hs Hn L2) as (ys & E & A & B & C). rewrite E.
  rewrite load_marker_ok by lia. rewrite E1, E3.
  destruct (Z.eqb_spec (int32_of m1) (int32_of m2)) as [G|]; [|reflexivity].
  apply int32_inj in G; [contradiction|assumption|assumption].
Qed.

Lemma load_sect_truncated file pos d n : itemsize d <> 0 -> nonneg n ->
  length file < pos + 8 + count_of n * itemsize d -> fst (load_sect file pos d n) = Err IndexError.
Proof.
  intros Hs Hn Hl. unfold load_sect.
  destruct (Nat.le_gt_cases (pos + 4) (length file)) as [H1|H1].
  2:{ destruct (load_marker_err file pos H1) as [q ->]. reflexivity. }
  rewrite load_marker_ok by assumption.
  destruct (Nat.le_gt_cases (pos + 4 + count_of n * itemsize d) (length file)) as [H2|H2].
  - destruct (load_rec_full file (pos + 4) d n Hs Hn H2) as (ys & E & A & B & C). rewrite E.
    destruct (load_marker_err file (pos + 4 + count_of n * itemsize d)) as [q ->]; [lia|]. reflexivity.
  - destruct (load_rec file (pos + 4) d n) as [r q] eqn:E. pose proof (load_rec_short file _ d n r q Hs Hn H2 E).
    destruct r.
    + destruct (load_marker_err file q) as [q' ->]; [lia|reflexivity].
    + destruct n as [n|]; cbn [load_rec] in E.
      * destruct (fromfile_short file (pos + 4) d n Hs Hn H2) as (ys & F). rewrite F in E. discriminate.
      * destruct (fromfile_short file (pos + 4) d 1 Hs ltac:(lia) H2) as (ys & F). rewrite F in E.
        destruct ys; inversion E. reflexivity.
Qed.

(** ** Sessions on well-formed files *)
Lemma chunk_exists s k (bs : list byte) : s <> 0 -> length bs = k * s ->
  exists xs, concat xs = bs /\ length xs = k /\ Forall (fun x => length x = s) xs.
Proof.
  intros Hs Hl. exists (pieces k s bs). apply pieces_concat; auto.
Qed.

Lemma sop_ok file pos o payload : bytes_at file pos (record payload) -> sop_fits o payload ->
  exists a, sop_run file pos o = (Ok a, pos + length (record payload)) /\ answer o payload a.
Proof.
  intros Hb (Hs & Hn & Hc & Hi).
  assert (Hl : length (record payload) = 8 + count_of (sop_count o) * itemsize (sop_dtype o)).
  { unfold record. rewrite !app_length, Hc. cbn [le32 length]. lia. }
  destruct (chunk_exists (itemsize (sop_dtype o)) (count_of (sop_count o)) payload Hs (eq_sym Hc)) as (xs & Hx & Hxl & Hxf).
  assert (E : load_sect file pos (sop_dtype o) (sop_count o) = (Ok xs, pos + length (record payload))).
  { apply load_sect_ok; [assumption|assumption|]. exists (le32 (Z.of_nat (length payload))).
    rewrite Hl, Hx. unfold record in Hb. repeat split; auto. lia. }
  destruct o as [d n|d n]; cbn [sop_dtype sop_count sop_run] in *.
  - rewrite E. exists (Some xs). split; [reflexivity|]. cbn. auto.
  - assert (E' : skip_sect file pos d n = (Ok tt, pos + length (record payload))) by (apply skip_load; eauto).
    rewrite E'. exists None. split; [reflexivity|exact I].
Qed.

Lemma session_ok : forall ps pre post ops, Forall2 sop_fits ops ps ->
  exists answers, session (pre ++ sections ps ++ post) (length pre) ops = (Ok answers, length pre + length (sections ps)) /\
    length answers = length ops /\
    forall k o p a, nth_error ops k = Some o -> nth_error ps k = Some p -> nth_error answers k = Some a -> answer o p a.
Proof.
  induction ps as [|p ps IH]; intros pre post ops H; inversion H as [|o ? ops' ? Ho Hops]; subst.
  - exists []. cbn. rewrite Nat.add_0_r. split; [reflexivity|]. split; [reflexivity|]. intros [|k]; discriminate.
  - cbn [session]. unfold sections. cbn [map concat]. fold (sections ps). rewrite <- !app_assoc.
    destruct (sop_ok (pre ++ record p ++ sections ps ++ post) (length pre) o p) as (a & E & A); [|assumption|].
    { exists pre, (sections ps ++ post). auto. }
    rewrite E.
    destruct (IH (pre ++ record p) post ops' Hops) as (as_ & E2 & L & N).
    rewrite app_length in E2. rewrite <- app_assoc in E2. rewrite E2. cbn [rmap].
    exists (a :: as_). split; [f_equal; rewrite app_length; lia|]. split; [cbn; lia|].
    intros [|k] o' p' a'; cbn [nth_error]; [congruence|]. apply N.
Qed.
