(** Proofs for C99. *)
From Coq Require Import ZArith Reals Lra Lia List Bool.
Require Import Flocq.Core.Core Flocq.IEEE754.BinarySingleNaN.
From Verif Require Import Base ProcFloat OrderSpec BinModel BinProofs BinFloatModel MeshFloatProofs FredModel FredSpec FredProofs NfltProofs FknnProofs GfltModel FbinModel FbinSpec.
From Verif Require GfltSpec.
Import ListNotations. Local Open Scope list_scope.

(** ** np.sort's order *)
Definition place (x : b64) : R := match x with B754_nan => bpow radix2 1026 | B754_infinity false => bpow radix2 1025 | B754_infinity true => (- bpow radix2 1025)%R | _ => val x end.
Lemma sort_lt_place a b : sort_lt a b = Rlt_bool (place a) (place b).
Proof.
  assert (P5 : (bpow radix2 1024 < bpow radix2 1025)%R) by (apply bpow_lt; lia). assert (P6 : (bpow radix2 1025 < bpow radix2 1026)%R) by (apply bpow_lt; lia). pose proof (bpow_gt_0 radix2 1024) as P4.
  assert (V : forall x : b64, fin x = true -> (- bpow radix2 1024 < val x < bpow radix2 1024)%R) by (intros x _; pose proof (abs_B2R_lt_emax 53 1024 x) as H; apply Rabs_def2 in H; exact (conj (proj2 H) (proj1 H))).
  destruct (fin a) eqn:Fa, (fin b) eqn:Fb.
  - assert (Na : is_nan a = false) by (destruct a; try discriminate Fa; reflexivity). assert (Nb : is_nan b = false) by (destruct b; try discriminate Fb; reflexivity). unfold sort_lt. rewrite Na, Nb. cbn [negb andb]. rewrite orb_false_r.
    rewrite (Bltb_correct 53 1024 a b Fa Fb). replace (place a) with (val a) by (destruct a as [|[]| |]; try discriminate Fa; reflexivity). replace (place b) with (val b) by (destruct b as [|[]| |]; try discriminate Fb; reflexivity). reflexivity.
  - specialize (V a Fa). replace (place a) with (val a) by (destruct a as [|[]| |]; try discriminate Fa; reflexivity). destruct b as [s|[]| |s m e h]; try discriminate Fb; cbn [place].
    + rewrite Rlt_bool_false by lra. destruct a as [|[]| |[]]; try discriminate Fa; reflexivity.
    + rewrite Rlt_bool_true by lra. destruct a as [|[]| |[]]; try discriminate Fa; reflexivity.
    + rewrite Rlt_bool_true by lra. destruct a as [|[]| |[]]; try discriminate Fa; reflexivity.
  - specialize (V b Fb). replace (place b) with (val b) by (destruct b as [|[]| |]; try discriminate Fb; reflexivity). destruct a as [s|[]| |s m e h]; try discriminate Fa; cbn [place].
    + rewrite Rlt_bool_true by lra. destruct b as [|[]| |[]]; try discriminate Fb; reflexivity.
    + rewrite Rlt_bool_false by lra. destruct b as [|[]| |[]]; try discriminate Fb; reflexivity.
    + rewrite Rlt_bool_false by lra. destruct b as [|[]| |[]]; try discriminate Fb; reflexivity.
  - destruct a as [s|[]| |s m e h]; try discriminate Fa; destruct b as [s'|[]| |s' m' e' h']; try discriminate Fb; cbn [place]; first [rewrite Rlt_bool_true by lra; reflexivity|rewrite Rlt_bool_false by lra; reflexivity].
Qed.
Lemma sort_order : weak_order sort_lt.
Proof.
  constructor.
  - intros a. rewrite sort_lt_place. apply Rlt_bool_false. lra.
  - intros a b c. rewrite !sort_lt_place. destruct (Rlt_bool_spec (place a) (place b)); [|discriminate]. destruct (Rlt_bool_spec (place b) (place c)); [|discriminate]. intros _ _. apply Rlt_bool_true. lra.
  - intros a b c. rewrite !sort_lt_place. destruct (Rlt_bool_spec (place a) (place b)); [discriminate|]. destruct (Rlt_bool_spec (place b) (place c)); [discriminate|]. intros _ _. apply Rlt_bool_false. lra.
Qed.
Lemma sort_ascending l : Forall (fun v => fin v = true) l -> GfltSpec.ascending (np_sort sort_lt l).
Proof.
  intros F. assert (F' : Forall (fun v => fin v = true) (np_sort sort_lt l)) by (eapply Permutation.Permutation_Forall; [apply Permutation.Permutation_sym, sort_perm|exact F]). split; [exact F'|].
  intros i j a b L Ea Eb. destruct (Nat.eq_dec i j) as [->|N]; [rewrite Ea in Eb; injection Eb as ->; lra|].
  pose proof (sort_asc sort_lt l sort_order i j a b ltac:(lia) Ea Eb) as Q. rewrite sort_lt_place in Q. rewrite Forall_forall in F'. pose proof (F' a (nth_error_In _ _ Ea)) as Fa. pose proof (F' b (nth_error_In _ _ Eb)) as Fb.
  replace (place a) with (val a) in Q by (destruct a as [|[]| |]; try discriminate Fa; reflexivity). replace (place b) with (val b) in Q by (destruct b as [|[]| |]; try discriminate Fb; reflexivity).
  destruct (Rlt_bool_spec (val b) (val a)); [discriminate Q|lra].
Qed.

(** ** The loop *)
Definition feed (loc : b64 -> Z) (d : list b64) (s : list (b64 * b64)) : list b64 := fold_left (fun d p => fd_at d (loc (fst p)) (snd p)) s d.
Lemma fd_at_length d id w : length (fd_at d id w) = length d.
Proof. unfold fd_at. destruct (_ && _); [apply upd_nth_length|reflexivity]. Qed.
Lemma feed_length loc s : forall d, length (feed loc d s) = length d.
Proof. unfold feed. induction s as [|p s IH]; intros d; [reflexivity|]. cbn [fold_left]. rewrite IH. apply fd_at_length. Qed.
Lemma fd_at_nth d id w i v : nth_error d i = Some v -> nth_error (fd_at d id w) i = Some (if (id =? Z.of_nat i)%Z then add64 v w else v).
Proof.
  intros E. assert (L : (i < length d)%nat) by (apply nth_error_Some; congruence). unfold fd_at. destruct (Z.eqb_spec id (Z.of_nat i)) as [->|N].
  - rewrite Nat2Z.id. destruct (Z.leb_spec 0 (Z.of_nat i)); [|lia]. destruct (Z.ltb_spec (Z.of_nat i) (Z.of_nat (length d))); [|lia]. cbn [andb]. rewrite upd_nth_same by exact L. rewrite (nth_error_nth _ _ _ E). reflexivity.
  - destruct ((0 <=? id)%Z && (id <? Z.of_nat (length d))%Z) eqn:C; [|exact E]. apply andb_prop in C. destruct C as [C _]. apply Z.leb_le in C. rewrite upd_nth_other by lia. exact E.
Qed.
Lemma feed_nth loc s : forall d i v, nth_error d i = Some v -> nth_error (feed loc d s) i = Some (fold_left add64 (into loc i s) v).
Proof.
  unfold feed, into. induction s as [|p s IH]; intros d i v E; [exact E|]. cbn [fold_left filter]. rewrite (IH _ _ _ (fd_at_nth _ _ (snd p) _ _ E)). destruct (loc (fst p) =? Z.of_nat i)%Z; reflexivity.
Qed.
Lemma feed_app loc d s s' : feed loc d (s ++ s') = feed loc (feed loc d s) s'.
Proof. unfold feed. apply fold_left_app. Qed.
Lemma fold_ids loc (ones : b64) x : forall d, fold_left (fun d id => fd_at d id ones) (map loc x) d = feed loc d (combine x (repeat ones (length x))).
Proof. unfold feed. induction x as [|a x IH]; intros d; [reflexivity|]. cbn [map fold_left length repeat combine fst snd]. apply IH. Qed.
Lemma fold_pairs loc x : forall w d, fold_left (fun d p => fd_at d (fst p) (snd p)) (combine (map loc x) w) d = feed loc d (combine x w).
Proof. unfold feed. induction x as [|a x IH]; intros w d; [reflexivity|]. destruct w as [|b w]; [reflexivity|]. cbn [map combine fold_left fst snd]. apply IH. Qed.
Lemma add_spec s c : fd_add s (fst c) (snd c) = if proper c then Ok {| fd_bins := fd_bins s; fd_data := feed (x_locate (fd_bins s)) (fd_data s) (samples [c]) |} else Err AssertionError.
Proof.
  destruct c as [x [w|]]; unfold fd_add, proper, samples; cbn [fst snd flat_map]; [|rewrite app_nil_r; cbn [proper snd]; rewrite fold_ids; reflexivity].
  rewrite map_length, Nat.eqb_sym. destruct (Nat.eqb (length w) (length x)) eqn:E; [|reflexivity]. unfold proper. cbn [fst snd]. rewrite E, app_nil_r, fold_pairs. reflexivity.
Qed.
Lemma step_spec s c : fd_step s c = {| fd_bins := fd_bins s; fd_data := feed (x_locate (fd_bins s)) (fd_data s) (samples [c]) |}.
Proof. unfold fd_step. rewrite add_spec. destruct (proper c) eqn:E; [reflexivity|]. unfold samples. cbn [flat_map]. rewrite E. destruct s; reflexivity. Qed.
Lemma run_spec h : forall s, fd_run s h = {| fd_bins := fd_bins s; fd_data := feed (x_locate (fd_bins s)) (fd_data s) (samples h) |}.
Proof.
  unfold fd_run. induction h as [|c h IH]; intros s; [destruct s; reflexivity|]. cbn [fold_left]. rewrite IH, step_spec. cbn [fd_bins fd_data]. rewrite <- feed_app. unfold samples. cbn [flat_map]. rewrite app_nil_r. reflexivity.
Qed.
(** ** Sums from left to right *)
Lemma add_up_sums l : forall s d l0, sums d l0 s -> (1 <= d)%nat \/ True -> sums (d + length l) (l0 ++ l) (fold_left add64 l s).
Proof.
  induction l as [|a l IH]; intros s d l0 H _; [rewrite app_nil_r, Nat.add_0_r; exact H|]. cbn [fold_left length]. replace (d + S (length l))%nat with (S d + length l)%nat by lia. replace (l0 ++ a :: l) with ((l0 ++ [a]) ++ l) by (rewrite <- app_assoc; reflexivity).
  apply IH; [|auto]. apply sums_add; [exact H|]. apply (sums_more 0 d [a] a); [apply sums_one|lia].
Qed.
Lemma left_sums l : sums (length l) l (fold_left add64 l zero64).
Proof. destruct zero64_facts as [F V]. apply (add_up_sums l zero64 0 [] (sums_nothing _ F V)). auto. Qed.
Lemma nneg_up l : forall v, Forall nneg l -> nneg v -> nneg (fold_left add64 l v) /\ (fin (fold_left add64 l v) = true -> fin v = true /\ (val v <= val (fold_left add64 l v))%R).
Proof.
  induction l as [|a l IH]; intros v H Hv; [split; [exact Hv|intros F; split; [exact F|apply Rle_refl]]|]. inversion H as [|a' l' Ha Hl]; subst. cbn [fold_left]. destruct (nneg_add v a Hv Ha) as [Nn Q]. destruct (IH _ Hl Nn) as [N1 N2]. split; [exact N1|]. intros F. destruct (N2 F) as [F1 L1].
  destruct Q as [E|(Fv & Fa & _ & V)]; [rewrite E in F1; discriminate F1|]. split; [exact Fv|]. destruct Ha as [[_ Pa]|E]; [|rewrite E in Fa; discriminate Fa].
  pose proof (rnd64_le (val v) (val v + val a) ltac:(lra)) as L2. rewrite rnd64_val in L2. rewrite V in L1. lra.
Qed.
