(** Proofs for C92. *)
From Coq Require Import ZArith Reals Lra Lia List Bool.
Require Import Flocq.Core.Core Flocq.IEEE754.BinarySingleNaN.
From Verif Require Import Base ProcFloat InterpFloatProofs MeshFloatModel MeshFloatProofs BinFloatProofs FredModel FredSpec FredProofs FredProofs2 FredProofs3 FredProofs4 FquaModel FquaSpec FquaProofs FquaProofs2 GfltModel GfltSpec.
Import ListNotations. Local Open Scope list_scope. Local Open Scope R_scope.

(** ** Differences: overflow and gradual underflow keep the sign. *)
Lemma zero_le x : fin x = true -> Bleb (of_Z64 0) x = Rle_bool 0 (val x).
Proof. intros F. destruct zero64_facts as [F0 V0]. unfold zero64 in F0, V0. rewrite Bleb_val by assumption. rewrite V0. reflexivity. Qed.
Lemma rel_sign v d : Rabs d <= B (-53) -> Rle_bool 0 (v * (1 + d)) = Rle_bool 0 v.
Proof.
  intros H. pose proof small_facts as ((U0 & U1) & _). apply Rabs_le_inv in H. destruct (Rle_or_lt 0 v) as [P|P].
  - rewrite (Rle_bool_true _ _ P). apply Rle_bool_true. apply Rmult_le_pos; lra.
  - rewrite (Rle_bool_false _ _ P). apply Rle_bool_false. apply Ropp_lt_cancel. rewrite Ropp_0. replace (- (v * (1 + d))) with (- v * (1 + d)) by ring. apply Rmult_lt_0_compat; lra.
Qed.
Lemma Bsign_pos x : fin x = true -> Bsign x = false -> 0 <= val x.
Proof.
  destruct x as [s|s| |s m e h]; cbn [fin is_finite Bsign]; try discriminate; intros _ E; [unfold val; cbn; lra|]. subst s.
  unfold val. cbn [B2R]. apply F2R_ge_0. cbn. lia.
Qed.
Lemma Bsign_neg x : fin x = true -> Bsign x = true -> val x <= 0.
Proof.
  destruct x as [s|s| |s m e h]; cbn [fin is_finite Bsign]; try discriminate; intros _ E; [unfold val; cbn; lra|]. subst s.
  unfold val. cbn [B2R]. apply F2R_le_0. cbn. lia.
Qed.
Lemma diff_finite a b : fin a = true -> fin b = true -> Bleb (of_Z64 0) (sub64 b a) = Rle_bool (val a) (val b).
Proof.
  intros Fa Fb. pose proof (@Bminus_correct 53 1024 p53 pe53 mode_NE b a Fb Fa) as H.
  change (round_mode mode_NE) with ZnearestE in H. change (B2R b) with (val b) in H. change (B2R a) with (val a) in H.
  change (Bminus mode_NE b a) with (sub64 b a) in H.
  assert (E : Rle_bool (val a) (val b) = Rle_bool 0 (val b - val a)).
  { destruct (Rle_or_lt (val a) (val b)); [rewrite !Rle_bool_true by lra|rewrite !Rle_bool_false by lra]; reflexivity. }
  destruct (Rlt_bool (Rabs (rnd64 (val b - val a))) (bpow radix2 1024)) eqn:O.
  - destruct H as (V & F & _). change (fin (sub64 b a) = true) in F. change (val (sub64 b a) = rnd64 (val b - val a)) in V.
    rewrite zero_le by exact F. rewrite V. destruct (minus_rel b a) as (d & Hd & ->). rewrite rel_sign by exact Hd. symmetry. exact E.
  - destruct H as (S1 & S2). assert (S3 : sub64 b a = B754_infinity (Bsign b)).
    { apply B2SF_inj. rewrite S1. unfold binary_overflow. cbn. reflexivity. }
    rewrite S3. destruct (Bsign b) eqn:Sb; symmetry in S2.
    + apply negb_true_iff in S2. pose proof (Bsign_neg b Fb Sb). pose proof (Bsign_pos a Fa S2).
      assert (L : val b < val a).
      { destruct (Req_dec (val b) (val a)) as [Q|Q]; [|lra]. exfalso. rewrite Q, Rminus_diag_eq, rnd64_0, Rabs_R0 in O by reflexivity.
        rewrite Rlt_bool_true in O by apply bpow_gt_0. discriminate. }
      rewrite Rle_bool_false by exact L. reflexivity.
    + apply negb_false_iff in S2. pose proof (Bsign_pos b Fb Sb). pose proof (Bsign_neg a Fa S2).
      rewrite Rle_bool_true by lra. reflexivity.
Qed.
(** Any two doubles: the difference is not negative exactly when a <= b and they are not the same infinity. *)
Definition same_infinity (a b : b64) : bool := match a, b with B754_infinity s, B754_infinity t => Bool.eqb s t | _, _ => false end.
Lemma diff_any a b : Bleb (of_Z64 0) (sub64 b a) = Bleb a b && negb (same_infinity a b).
Proof.
  destruct (fin a) eqn:Fa, (fin b) eqn:Fb.
  - rewrite diff_finite, Bleb_val by assumption. destruct a, b; try discriminate; cbn [same_infinity negb]; rewrite andb_true_r; reflexivity.
  - destruct a as [sa|sa| |sa ma ea ha]; try discriminate; destruct b as [sb|[|]| |sb mb eb hb]; try discriminate; cbn; try reflexivity; destruct sa; reflexivity.
  - destruct b as [sa|sa| |sa ma ea ha]; try discriminate; destruct a as [sb|[|]| |sb mb eb hb]; try discriminate; cbn; try reflexivity; destruct sa; reflexivity.
  - destruct a as [sa|[|]| |sa ma ea ha]; try discriminate; destruct b as [sb|[|]| |sb mb eb hb]; try discriminate; reflexivity.
Qed.
Lemma rising_iff l : f_rising l = true <-> forall i a b, nth_error l i = Some a -> nth_error l (S i) = Some b -> Bleb (of_Z64 0) (sub64 b a) = true.
Proof.
  induction l as [|x l IH]; [cbn; split; [intros _ [|i]; discriminate|reflexivity]|].
  destruct l as [|y l]; [cbn [f_rising]; split; [intros _ [|i]; cbn; try discriminate; destruct i; discriminate|reflexivity]|].
  cbn [f_rising]. fold (f_rising (y :: l)). rewrite andb_true_iff, IH. split.
  - intros [H1 H2] [|i] a b; [cbn; intros [= <-] [= <-]; exact H1|]. intros A C. exact (H2 i a b A C).
  - intros H. split; [apply (H 0%nat); reflexivity|]. intros i a b A C. exact (H (S i) a b A C).
Qed.
Lemma adjacent_sorted (f : nat -> R) n : (forall i, (S i < n)%nat -> f i <= f (S i)) -> forall i j, (i <= j < n)%nat -> f i <= f j.
Proof. intros H i j [L Hj]. induction L as [|j L IH]; [lra|]. eapply Rle_trans; [apply IH; lia|]. apply H. exact Hj. Qed.
Lemma ascending_iff l : Forall (fun v => fin v = true) l -> (ascending l <-> f_rising l = true).
Proof.
  intros F. rewrite rising_iff. assert (G : forall i a, nth_error l i = Some a -> fin a = true) by (intros i a E; apply nth_error_In in E; rewrite Forall_forall in F; exact (F a E)).
  split.
  - intros [_ H] i a b A C. rewrite diff_finite by eauto. apply Rle_bool_true. apply (H i (S i)); [lia|assumption..].
  - intros H. split; [exact F|]. intros i j a b L A C.
    assert (A' : nth i l zero64 = a) by (apply nth_error_nth; exact A). assert (C' : nth j l zero64 = b) by (apply nth_error_nth; exact C). subst a b.
    apply (adjacent_sorted (fun k => val (nth k l zero64)) (length l)).
    + intros k Hk. assert (A1 : nth_error l k = Some (nth k l zero64)) by (apply nth_error_nth'; lia). assert (A2 : nth_error l (S k) = Some (nth (S k) l zero64)) by (apply nth_error_nth'; lia).
      specialize (H k _ _ A1 A2). rewrite diff_finite in H by eauto. destruct (Rle_bool_spec (val (nth k l zero64)) (val (nth (S k) l zero64))); [assumption|discriminate].
    + split; [exact L|]. apply nth_error_Some. congruence.
Qed.
Lemma grid_finite l : Forall (fun v => fin v = true) l -> f_grid1d l = if Nat.leb 1 (length l) && f_rising l then Ok l else Err AssertionError.
Proof. reflexivity. Qed.
Lemma grid_ok l : l <> [] -> ascending l -> f_grid1d l = Ok l.
Proof. intros N A. unfold f_grid1d. destruct l as [|x l]; [congruence|]. cbn [length Nat.leb andb]. destruct (ascending_iff (x :: l)) as [H _]; [apply A|]. rewrite (H A). reflexivity. Qed.
Lemma grid_bad l : Forall (fun v => fin v = true) l -> l = [] \/ ~ ascending l -> f_grid1d l = Err AssertionError.
Proof.
  intros F [-> |N]; [reflexivity|]. unfold f_grid1d. destruct (f_rising l) eqn:E; [|rewrite andb_false_r; reflexivity].
  exfalso. apply N. apply ascending_iff; assumption.
Qed.
