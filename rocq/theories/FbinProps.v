(** C99: binned accumulation in double precision. *)
From Coq Require Import ZArith Reals Lra Lia List Bool.
Require Import Flocq.Core.Core Flocq.IEEE754.BinarySingleNaN.
From Verif Require Import Base ProcFloat OrderSpec BinModel BinProofs BinFloatModel MeshFloatProofs FredModel FredSpec FredProofs NfltProofs FknnProofs GfltModel GfltSpec GfltProofs2 FbinModel FbinSpec FbinProofs.
Import ListNotations. Local Open Scope list_scope.

(** Explicit edges: any two or more are accepted and kept in rising order; for finite ones, a finite sample is at or above edge i exactly when its index is at least i (so below the first
    edge it is -1, at or above the last the number of bins); NaN counts as above. *)
Theorem C99_explicit l : (fs_new l = Err AssertionError <-> (length l < 2)%nat) /\
  (forall e, fs_new l = Ok e -> Permutation.Permutation e l /\
   (Forall (fun v => fin v = true) l -> GfltSpec.ascending e /\
    forall x, (-1 <= x_locate (Explicit e) x <= x_bins (Explicit e))%Z /\
      (fin x = true -> forall i a, nth_error e i = Some a -> ((val a <= val x)%R <-> (Z.of_nat i <= x_locate (Explicit e) x)%Z))) /\
   x_bins (Explicit e) = (Z.of_nat (length l) - 1)%Z /\ x_locate (Explicit e) B754_nan = x_bins (Explicit e)).
Proof.
  pose proof (sort_perm sort_lt l) as P. pose proof (Permutation.Permutation_length P) as L. unfold fs_new. rewrite L. split.
  - destruct (Nat.leb_spec 2 (length l)); split; intros; try discriminate; try lia; reflexivity.
  - intros e. destruct (Nat.leb_spec 2 (length l)); [|discriminate]. intros E. injection E as <-. split; [exact P|]. split; [|split; [cbn [x_bins]; rewrite L; reflexivity|cbn [x_locate x_bins]; apply locate_nan]].
    intros F. pose proof (sort_ascending l F) as A. split; [exact A|]. intros x. cbn [x_locate x_bins]. pose proof (locate_bounds (np_sort sort_lt l) x). split; [lia|]. intros Fx i a E. apply locate_iff; assumption.
Qed.
Print Assumptions C99_explicit.

(** A call is refused exactly for a wrong number of weights, and then changes nothing. *)
Theorem C99_refused s x w : (fd_add s x w = Err AssertionError <-> exists w', w = Some w' /\ length w' <> length x) /\
  (forall e, fd_add s x w = Err e -> e = AssertionError) /\ (forall e, fd_add s x w = Err e -> fd_step s (x, w) = s) /\ (forall s', fd_add s x w = Ok s' -> fd_step s (x, w) = s' /\ fd_bins s' = fd_bins s).
Proof.
  pose proof (add_spec s (x, w)) as E. cbn [fst snd] in E. unfold fd_step. cbn [fst snd]. rewrite E. unfold proper. cbn [fst snd]. destruct w as [w|].
  - destruct (Nat.eqb_spec (length w) (length x)) as [Q|Q]; repeat split; intros; try discriminate; try congruence.
    + destruct H as (w' & E' & N). injection E' as <-. contradiction.
    + injection H as <-. reflexivity.
    + exists w. auto.
  - repeat split; intros; try discriminate; try congruence; [destruct H as (w' & E' & _); discriminate|injection H as <-; reflexivity].
Qed.
Print Assumptions C99_refused.

(** After any history of calls, refused ones included, every bin holds the double-precision sum, from left to right and from 0, of the weights of exactly the samples located in it;
    samples located outside, whatever their weights, leave no trace. *)
Theorem C99_history b h : let s := fd_run (fd_new b) h in fd_bins s = b /\ length (fd_data s) = Z.to_nat (x_bins b) /\
  forall i, (i < Z.to_nat (x_bins b))%nat -> nth_error (fd_data s) i = Some (fold_left add64 (into (x_locate b) i (samples h)) (of_Z64 0)).
Proof.
  cbn zeta. rewrite run_spec. cbn [fd_new fd_bins fd_data]. split; [reflexivity|]. split; [rewrite feed_length; apply repeat_length|]. intros i L. change (of_Z64 0) with zero64. apply feed_nth.
  rewrite (nth_error_nth' _ zero64) by (rewrite repeat_length; exact L). rewrite nth_repeat. reflexivity.
Qed.
Print Assumptions C99_history.

(** How the samples are split into calls makes no difference at all. *)
Theorem C99_split s h h' : samples h = samples h' -> fd_run s h = fd_run s h'.
Proof. intros E. rewrite !run_spec, E. reflexivity. Qed.
Print Assumptions C99_split.

(** With finite weights a bin is the exact sum of its weights up to n 2^-52 of the sum of their magnitudes, n the number of samples in it, and exact when all weights are whole
    multiples of one power of two and sum up, in magnitude, to at most 2^53 of it, in whatever order they come; so plain counts are exact up to 2^53. *)
Theorem C99_value b h i : (i < Z.to_nat (x_bins b))%nat -> let l := into (x_locate b) i (samples h) in exists v, nth_error (fd_data (fd_run (fd_new b) h)) i = Some v /\
  (finite l -> (Z.of_nat (length l) <= 2 ^ 52)%Z -> (size l <= bpow radix2 1022)%R -> fin v = true /\ (Rabs (val v - exact l) <= INR (length l) * bpow radix2 (-52) * size l)%R) /\
  (forall (e : Z) (z : b64 -> Z), (-1074 <= e <= 970)%Z -> (forall x, In x l -> fin x = true /\ val x = (IZR (z x) * bpow radix2 e)%R) -> (fold_right Z.add 0 (map (fun x => Z.abs (z x)) l) <= 2 ^ 53)%Z ->
   fin v = true /\ val v = (IZR (fold_right Z.add 0%Z (map z l)) * bpow radix2 e)%R) /\
  (Forall (fun c => snd c = None) h -> (Z.of_nat (length l) <= 2 ^ 53)%Z -> fin v = true /\ val v = INR (length l)).
Proof.
  intros Hi l. destruct (C99_history b h) as (_ & _ & H). specialize (H i Hi). eexists. split; [exact H|]. fold l. pose proof (left_sums l) as S. change zero64 with (of_Z64 0) in S.
  assert (M : forall (e : Z) (z : b64 -> Z), (-1074 <= e <= 970)%Z -> (forall x, In x l -> fin x = true /\ val x = (IZR (z x) * bpow radix2 e)%R) -> (fold_right Z.add 0 (map (fun x => Z.abs (z x)) l) <= 2 ^ 53)%Z ->
   fin (fold_left add64 l (of_Z64 0)) = true /\ val (fold_left add64 l (of_Z64 0)) = (IZR (fold_right Z.add 0%Z (map z l)) * bpow radix2 e)%R) by (intros; eapply sums_multiples; eassumption).
  split; [|split; [exact M|]].
  - intros F N Z. apply (sums_bound _ _ _ S F); [|exact Z]. unfold eps. apply Rle_trans with (bpow radix2 52 * bpow radix2 (-52))%R; [apply Rmult_le_compat_r; [apply bpow_ge_0|]|rewrite <- bpow_plus; cbn; lra].
    rewrite INR_IZR_INZ. change (bpow radix2 52) with (IZR (2 ^ 52)). apply IZR_le. exact N.
  - intros U N. assert (O : forall x, In x l -> x = of_Z64 1).
    { unfold l, into. intros x Hx. apply in_map_iff in Hx. destruct Hx as ([a c] & <- & Hx). apply filter_In in Hx. destruct Hx as [Hx _]. unfold samples in Hx. apply in_flat_map in Hx. destruct Hx as (cl & Hc & Hx). rewrite Forall_forall in U. specialize (U cl Hc).
      unfold proper in Hx. rewrite U in Hx. apply in_combine_r in Hx. apply repeat_spec in Hx. exact Hx. }
    assert (Fl : forall l : list b64, fold_right Z.add 0%Z (map (fun _ => 1%Z) l) = Z.of_nat (length l)) by (induction l0 as [|a l0 IH]; [reflexivity|]; cbn [map fold_right length]; rewrite IH; lia).
    destruct (M 0%Z (fun _ => 1%Z) ltac:(lia)) as [Fv Vv].
    + intros x Hx. rewrite (O x Hx). destruct (of_Z64_exact 1 ltac:(lia)) as [V F]. split; [exact F|]. rewrite V. cbn. lra.
    + change (fold_right Z.add 0 (map (fun _ : b64 => 1) l) <= 2 ^ 53)%Z. rewrite Fl. exact N.
    + split; [exact Fv|]. rewrite Vv, Fl, INR_IZR_INZ. cbn. lra.
Qed.
Print Assumptions C99_value.

(** With weights that are not negative (infinity allowed) no bin is ever NaN or negative, and further calls never lower it. *)
Theorem C99_grows b h h' i v v' : Forall (fun p => (fin (snd p) = true /\ (0 <= val (snd p))%R) \/ snd p = B754_infinity false) (samples (h ++ h')) ->
  nth_error (fd_data (fd_run (fd_new b) h)) i = Some v -> nth_error (fd_data (fd_run (fd_new b) (h ++ h'))) i = Some v' ->
  ((fin v = true /\ (0 <= val v)%R) \/ v = B754_infinity false) /\ ((fin v' = true /\ fin v = true /\ (val v <= val v')%R) \/ v' = B754_infinity false).
Proof.
  intros H E E'. destruct (C99_history b h) as (_ & L & Q). cbn zeta in *. assert (Li : (i < Z.to_nat (x_bins b))%nat) by (rewrite <- L; apply nth_error_Some; congruence). specialize (Q i Li). rewrite E in Q. injection Q as ->.
  destruct (C99_history b (h ++ h')) as (_ & _ & Q'). specialize (Q' i Li). rewrite E' in Q'. injection Q' as ->. change (of_Z64 0) with zero64.
  assert (SA : samples (h ++ h') = samples h ++ samples h') by apply flat_map_app. rewrite SA in *. apply Forall_app in H. destruct H as [H H'].
  assert (G : forall s, Forall (fun p => (fin (snd p) = true /\ (0 <= val (snd p))%R) \/ snd p = B754_infinity false) s -> Forall nneg (into (x_locate b) i s)).
  { intros s Hs. unfold into. apply Forall_map. rewrite Forall_forall in *. intros p Hp. apply filter_In in Hp. destruct Hp as [Hp _]. exact (Hs p Hp). }
  assert (IA : into (x_locate b) i (samples h ++ samples h') = into (x_locate b) i (samples h) ++ into (x_locate b) i (samples h')) by (unfold into; rewrite filter_app, map_app; reflexivity).
  destruct (nneg_up (into (x_locate b) i (samples h)) zero64 (G _ H) zero_nneg) as [N1 _]. split; [exact N1|]. rewrite IA, fold_left_app. destruct (nneg_up (into (x_locate b) i (samples h')) _ (G _ H') N1) as [N2 M].
  destruct N2 as [[F P]|N2]; [|right; exact N2]. left. split; [exact F|]. apply M, F.
Qed.
Print Assumptions C99_grows.

(** A bin that has reached 2^53 counts no further (finding). *)
Lemma stuck k : fold_left add64 (repeat (of_Z64 1) k) (of_Z64 (2 ^ 53)) = of_Z64 (2 ^ 53).
Proof. assert (E : add64 (of_Z64 (2 ^ 53)) (of_Z64 1) = of_Z64 (2 ^ 53)) by (apply B2SF_inj; vm_compute; reflexivity). induction k as [|k IH]; [reflexivity|]. cbn [repeat fold_left]. rewrite E. exact IH. Qed.
Theorem C99_saturated_refuted s i x : nth_error (fd_data s) i = Some (of_Z64 (2 ^ 53)) -> Forall (fun a => x_locate (fd_bins s) a = Z.of_nat i) x ->
  exists s', fd_add s x None = Ok s' /\ nth_error (fd_data s') i = Some (of_Z64 (2 ^ 53)).
Proof.
  intros E H. pose proof (add_spec s (x, None)) as Q. cbn [fst snd proper] in Q. eexists. split; [exact Q|]. cbn [fd_data]. rewrite (feed_nth _ _ _ _ _ E). f_equal. unfold samples, into. cbn [flat_map proper fst snd]. rewrite app_nil_r.
  assert (G : map snd (filter (fun p => (x_locate (fd_bins s) (fst p) =? Z.of_nat i)%Z) (combine x (repeat (of_Z64 1) (length x)))) = repeat (of_Z64 1) (length x)).
  { clear Q. induction H as [|a x Ha _ IH]; [reflexivity|]. cbn [length repeat combine filter fst]. rewrite Ha, Z.eqb_refl. cbn [map snd]. rewrite IH. reflexivity. }
  rewrite G. apply stuck.
Qed.
Print Assumptions C99_saturated_refuted.

(** The order of the samples can show (finding): weights 2^53, 1, 1 leave 2^53, weights 1, 1, 2^53 leave 2^53 + 2. *)
Definition unit2 : xbins := Explicit [of_Z64 0; of_Z64 1].
Definition zeros (k : nat) : list b64 := repeat (of_Z64 0) k.
Theorem C99_order_refuted : exists w w', Permutation.Permutation w w' /\
  map B2SF (fd_data (fd_run (fd_new unit2) [(zeros 3, Some w)])) = [B2SF (of_Z64 (2 ^ 53))] /\ map B2SF (fd_data (fd_run (fd_new unit2) [(zeros 3, Some w')])) = [B2SF (of_Z64 (2 ^ 53 + 2))].
Proof.
  exists [of_Z64 (2 ^ 53); of_Z64 1; of_Z64 1], [of_Z64 1; of_Z64 1; of_Z64 (2 ^ 53)]. split; [|split; vm_compute; reflexivity].
  apply Permutation.Permutation_sym. apply (Permutation.Permutation_app_comm [of_Z64 1; of_Z64 1] [of_Z64 (2 ^ 53)]).
Qed.
Print Assumptions C99_order_refuted.

(** A history: two bins, a NaN sample with a NaN weight, a refused call, an infinite weight in the other bin. *)
Example C99_case : let b := Explicit [of_Z64 0; of_Z64 2; of_Z64 5] in
  let h := [([of_Z64 0; of_Z64 1; of_Z64 7], None); ([of_Z64 2; B754_nan], Some [B754_infinity false; B754_nan]); ([of_Z64 0], Some []); ([of_Z64 1], Some [of_Z64 3])] in
  map B2SF (fd_data (fd_run (fd_new b) h)) = [B2SF (of_Z64 5); B2SF (B754_infinity false : b64)] /\ length (into (x_locate b) 0 (samples h)) = 3%nat /\
  exists e, fs_new [of_Z64 5; of_Z64 0; of_Z64 2] = Ok e /\ map B2SF e = map B2SF [of_Z64 0; of_Z64 2; of_Z64 5].
Proof. split; [vm_compute; reflexivity|]. split; [vm_compute; reflexivity|]. eexists. split; [reflexivity|]. vm_compute. reflexivity. Qed.
Example C99_counts_case : let h := [(zeros 4, None)] in Forall (fun c : call => snd c = None) h /\ length (into (x_locate unit2) 0 (samples h)) = 4%nat /\ map B2SF (fd_data (fd_run (fd_new unit2) h)) = [B2SF (of_Z64 4)].
Proof. split; [repeat constructor|]. split; vm_compute; reflexivity. Qed.
