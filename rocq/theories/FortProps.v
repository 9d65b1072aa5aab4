(** C20, C21: Fortran unformatted files. *)
From Coq.Strings Require Import Byte.
From Verif Require Import Base FortSpec FortModel FortProofs.
Local Open Scope list_scope. Local Open Scope nat_scope.

(** C20: on a file made of records (with anything before the start position and after the last record), every mixture of
    loads and skips that asks each record for its own size succeeds; the k-th operation, when it is a load, returns the
    payload of the k-th record cut into elements, and the position ends right after the last record visited. *)
Theorem C20_sessions ps pre post ops : Forall2 sop_fits ops ps ->
  exists answers, session (pre ++ sections ps ++ post) (length pre) ops = (Ok answers, length pre + length (sections ps)) /\
    length answers = length ops /\
    forall k o p a, nth_error ops k = Some o -> nth_error ps k = Some p -> nth_error answers k = Some a -> answer o p a.
Proof. apply session_ok. Qed.
Print Assumptions C20_sessions.

(** C20: on any file, skip_sect succeeds exactly when load_sect does, and stops at the same position. *)
Theorem C20_skip_like_load file pos d n p : itemsize d <> 0 -> is_instance d = true -> nonneg n ->
  (skip_sect file pos d n = (Ok tt, p) <-> exists xs, load_sect file pos d n = (Ok xs, p)).
Proof. apply skip_load. Qed.
Print Assumptions C20_skip_like_load.

(** The length marker of a record shorter than 2 GiB is its length. *)
Theorem C20_marker_value (payload : list byte) : (Z.of_nat (length payload) < 2 ^ 31)%Z ->
  int32_of (le32 (Z.of_nat (length payload))) = Z.of_nat (length payload).
Proof. intros H. apply int32_le32. lia. Qed.
Print Assumptions C20_marker_value.

(** C20: with a scalar type (np.float32 instead of np.dtype('f4')) loading works but skipping always raises TypeError. *)
Theorem C20_skip_scalar_type_refuted file pos d n : is_instance d = false -> pos + 4 <= length file ->
  skip_sect file pos d n = (Err TypeError, pos + 4).
Proof. intros H L. unfold skip_sect. rewrite load_marker_ok by assumption. unfold skip_rec, rec_size. rewrite H. reflexivity. Qed.
Print Assumptions C20_skip_scalar_type_refuted.
Theorem C20_skip_np_int32_refuted file pos n : pos + 4 <= length file -> skip_sect file pos np_int32 n = (Err TypeError, pos + 4).
Proof. apply C20_skip_scalar_type_refuted. reflexivity. Qed.
Print Assumptions C20_skip_np_int32_refuted.
(** load_bytes: all the rest for -1, at most n bytes otherwise, moving as far as was read; a smaller n is a ValueError and moves nothing. *)
Theorem C20_load_bytes file pos n :
  ((n < -1)%Z -> load_bytes file pos n = (Err ValueError, pos)) /\
  (n = (-1)%Z -> exists bs, load_bytes file pos n = (Ok bs, pos + length bs) /\ skipn pos file = bs) /\
  ((0 <= n)%Z -> exists bs rest, load_bytes file pos n = (Ok bs, pos + length bs) /\ skipn pos file = bs ++ rest /\
     Z.of_nat (length bs) = Z.min n (Z.of_nat (length file - pos))).
Proof.
  unfold load_bytes. split; [intros H; destruct (Z.ltb_spec n (-1)); [reflexivity|lia]|]. split.
  - intros ->. eexists. split; reflexivity.
  - intros H. destruct (Z.ltb_spec n (-1)); [lia|]. destruct (Z.eqb_spec n (-1)); [lia|]. exists (firstn (Z.to_nat n) (skipn pos file)), (skipn (Z.to_nat n) (skipn pos file)).
    split; [reflexivity|]. split; [symmetry; apply firstn_skipn|]. rewrite firstn_length, skipn_length. lia.
Qed.
Print Assumptions C20_load_bytes.
(** load_rec with a negative count: every whole element to the end of the file; the position is after the last of them. *)
Theorem C20_load_all file pos d n : itemsize d <> 0 -> (n < 0)%Z ->
  let k := (length file - pos) / itemsize d in
  exists xs, load_rec file pos d (Some n) = (Ok xs, pos + k * itemsize d) /\ concat xs = firstn (k * itemsize d) (skipn pos file) /\
    length xs = k /\ Forall (fun x => length x = itemsize d) xs.
Proof.
  intros Hs Hn k. cbn [load_rec]. unfold fromfile. destruct (Nat.eqb_spec (itemsize d) 0); [contradiction|]. destruct (Z.ltb_spec n 0); [|lia].
  rewrite skipn_length. fold k. pose proof (Nat.mul_div_le (length file - pos) (itemsize d) Hs) as M. fold k in M.
  set (bs := firstn (k * itemsize d) (skipn pos file)). assert (L : length bs = k * itemsize d) by (unfold bs; rewrite firstn_length, skipn_length; lia).
  destruct (pieces_concat (itemsize d) k (length bs) bs Hs L) as (A & B & C); [rewrite L; apply mul_ge; exact Hs|]. exists (pieces (length bs) (itemsize d) bs).
  split; [f_equal; lia|]. auto.
Qed.
Print Assumptions C20_load_all.

(** C20: load_rec and skip_rec move alike as long as the file is long enough... *)
Theorem C20_records file pos d n : itemsize d <> 0 -> is_instance d = true -> nonneg n ->
  pos + count_of n * itemsize d <= length file ->
  skip_rec file pos d n = (Ok tt, pos + count_of n * itemsize d) /\
  exists xs, load_rec file pos d n = (Ok xs, pos + count_of n * itemsize d) /\ bytes_at file pos (concat xs) /\
             length xs = count_of n /\ Forall (fun x => length x = itemsize d) xs.
Proof.
  intros Hs Hi Hn Hl. split.
  - unfold skip_rec, rec_size, seek. rewrite Hi.
    replace (Z.of_nat (itemsize d) * match n with Some n0 => n0 | None => 1 end)%Z with (Z.of_nat (count_of n * itemsize d))
      by (destruct n; cbn [count_of nonneg] in *; nia).
    destruct (Z.ltb_spec (Z.of_nat pos + Z.of_nat (count_of n * itemsize d)) 0); [lia|]. cbn [rmap].
    f_equal. lia.
  - destruct (load_rec_full file pos d n Hs Hn Hl) as (xs & E & A & B & C). exists xs. split; [assumption|].
    split; [|auto]. rewrite A. apply bytes_at_firstn. assumption.
Qed.
Print Assumptions C20_records.

(** ... but not for n = -1, which numpy reads as "everything that is left": skipping then goes one element back. *)
Theorem C20_skip_all_refuted file pos d : itemsize d <> 0 -> is_instance d = true -> itemsize d <= pos ->
  skip_rec file pos d (Some (-1)%Z) = (Ok tt, pos - itemsize d).
Proof.
  intros Hs Hi Hl. unfold skip_rec, rec_size, seek. rewrite Hi.
  destruct (Z.ltb_spec (Z.of_nat pos + Z.of_nat (itemsize d) * -1) 0); [lia|]. cbn [rmap]. f_equal. lia.
Qed.
Print Assumptions C20_skip_all_refuted.

(** C21: exactly what load_sect accepts, on any file and at any position: the requested number of elements enclosed by two
    equal four-byte markers. *)
Theorem C21_accepts file pos d n xs p : itemsize d <> 0 -> nonneg n ->
  (load_sect file pos d n = (Ok xs, p) <->
   exists m, length m = 4 /\ bytes_at file pos (m ++ concat xs ++ m) /\ length xs = count_of n /\
             Forall (fun x => length x = itemsize d) xs /\ p = pos + 8 + count_of n * itemsize d).
Proof. apply load_sect_ok. Qed.
Print Assumptions C21_accepts.

(** C21: different markers are always rejected. *)
Theorem C21_mismatch file pos d n m1 raw m2 : itemsize d <> 0 -> nonneg n -> length m1 = 4 -> length m2 = 4 ->
  length raw = count_of n * itemsize d -> bytes_at file pos (m1 ++ raw ++ m2) -> m1 <> m2 ->
  fst (load_sect file pos d n) = Err AssertionError.
Proof. apply load_sect_mismatch. Qed.
Print Assumptions C21_mismatch.

(** C21: a file that ends before the trailing marker is rejected. *)
Theorem C21_truncated file pos d n : itemsize d <> 0 -> nonneg n ->
  length file < pos + 8 + count_of n * itemsize d -> fst (load_sect file pos d n) = Err IndexError.
Proof. apply load_sect_truncated. Qed.
Print Assumptions C21_truncated.

(** C21: skip_sect checks the markers as load_sect does: different markers are an AssertionError, a file that ends too early an IndexError. *)
Theorem C21_skip_mismatch file pos d n m1 raw m2 : itemsize d <> 0 -> is_instance d = true -> nonneg n -> length m1 = 4 -> length m2 = 4 ->
  length raw = count_of n * itemsize d -> bytes_at file pos (m1 ++ raw ++ m2) -> m1 <> m2 ->
  skip_sect file pos d n = (Err AssertionError, pos + 8 + count_of n * itemsize d).
Proof.
  intros Hs Hi Hn H1 H2 Hr Hb Hne.
  apply bytes_at_app in Hb. destruct Hb as [B1 Hb]. apply bytes_at_app in Hb. destruct Hb as [B2 B3].
  rewrite H1, Hr in *. apply bytes_at_inv in B1, B2, B3. rewrite H1, H2, Hr in *.
  destruct B1 as [L1 E1], B2 as [L2 E2], B3 as [L3 E3].
  unfold skip_sect. rewrite load_marker_ok by lia. destruct (C20_records file (pos + 4) d n Hs Hi Hn L2) as [-> _].
  rewrite load_marker_ok by lia. rewrite E1, E3. destruct (Z.eqb_spec (int32_of m1) (int32_of m2)) as [G|]; [|f_equal; lia].
  apply int32_inj in G; [contradiction|assumption|assumption].
Qed.
Print Assumptions C21_skip_mismatch.
Theorem C21_skip_truncated file pos d n : itemsize d <> 0 -> is_instance d = true -> nonneg n ->
  length file < pos + 8 + count_of n * itemsize d -> fst (skip_sect file pos d n) = Err IndexError.
Proof.
  intros Hs Hi Hn Hl. unfold skip_sect. destruct (Nat.le_gt_cases (pos + 4) (length file)) as [H1|H1].
  2:{ destruct (load_marker_err file pos H1) as [q ->]. reflexivity. }
  rewrite load_marker_ok by assumption. unfold skip_rec, rec_size, seek. rewrite Hi. set (k := (Z.of_nat (itemsize d) * match n with Some n => n | None => 1 end)%Z).
  assert (K : k = Z.of_nat (count_of n * itemsize d)) by (unfold k; destruct n as [n|]; cbn [nonneg count_of] in *; lia). rewrite K.
  destruct (Z.ltb_spec (Z.of_nat (pos + 4) + Z.of_nat (count_of n * itemsize d)) 0); [lia|]. cbn [rmap].
  destruct (load_marker_err file (Z.to_nat (Z.of_nat (pos + 4) + Z.of_nat (count_of n * itemsize d)))) as [q ->]; [lia|reflexivity].
Qed.
Print Assumptions C21_skip_truncated.
(** Finding: the marker is not compared with the size asked for.  Every payload and every marker value is accepted, and a
    load that asks for too little of a record can return a wrong answer without an exception. *)
Theorem C21_length_unchecked_refuted z raw : length raw <> 0 -> exists xs,
  load_sect (le32 z ++ raw ++ le32 z) 0 {| itemsize := 1; is_instance := true |} (Some (Z.of_nat (length raw)))
    = (Ok xs, 8 + length raw) /\ concat xs = raw.
Proof.
  intros H. destruct (chunk_exists 1 (length raw) raw) as (xs & A & B & C); [lia|lia|]. exists xs. split; [|assumption].
  apply load_sect_ok; [discriminate|cbn; lia|]. exists (le32 z). rewrite A. cbn [count_of itemsize].
  repeat split; auto; [|lia|lia]. exists [], []. rewrite app_nil_r. auto.
Qed.
Print Assumptions C21_length_unchecked_refuted.

Definition f4 : dtype := {| itemsize := 4; is_instance := true |}.
Definition wrong_size_file : list byte := record (le32 7 ++ le32 9).
(* a record of two int32 (7, 9) read as one int32 : the trailing marker is taken from the payload and differs *)
Example ex_too_short : fst (load_sect wrong_size_file 0 f4 None) = Err AssertionError. Proof. reflexivity. Qed.
(* ... but it is accepted when the second number happens to be the length of the record *)
Theorem C21_short_load_refuted : exists payload xs p, length payload = 8 /\
  load_sect (record payload) 0 f4 None = (Ok xs, p) /\ concat xs <> payload.
Proof. exists (le32 7 ++ le32 8), [le32 7], 12. split; [reflexivity|]. split; [reflexivity|]. discriminate. Qed.
Print Assumptions C21_short_load_refuted.

(** Non-vacuity. *)
Definition ex_payloads : list (list byte) := [le32 7 ++ le32 8; []; le32 (-1)].
Definition ex_ops : list sop := [Load f4 (Some 2%Z); Skip f4 (Some 0%Z); Load np_int32 None].
Example ex_session : session (sections ex_payloads) 0 ex_ops
  = (Ok [Some [le32 7; le32 8]; None; Some [le32 (-1)]], 36).
Proof. reflexivity. Qed.
Example ex_fits : Forall2 sop_fits ex_ops ex_payloads.
Proof. repeat constructor; cbn; lia. Qed.
Example ex_mismatch : fst (load_sect (le32 4 ++ le32 9 ++ le32 5) 0 f4 None) = Err AssertionError. Proof. reflexivity. Qed.
