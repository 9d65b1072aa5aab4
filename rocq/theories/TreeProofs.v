From Coq Require Import Reals Lra Lia List Psatz.
From Verif Require Import Base FrameSpec FrameModel FrameProofs TreeSpec TreeModel.
Import ListNotations.
Local Open Scope R_scope. Local Open Scope list_scope.

Lemma min_image_spec l dx : 0 < l -> - (3 / 2 * l) <= dx <= 3 / 2 * l ->
  - (l / 2) <= min_image l dx <= l / 2 /\ exists k : Z, min_image l dx = dx + IZR k * l.
Proof.
  intros Hl H. unfold min_image. destruct (Rlt_dec (/ 2 * l) dx) as [A|A].
  - destruct (Rlt_dec (dx - l) (- (/ 2 * l))) as [B|B]; [lra|]. split; [lra|]. exists (-1)%Z. lra.
  - destruct (Rlt_dec dx (- (/ 2 * l))) as [B|B]; [split; [lra|]; exists 1%Z; lra|]. split; [lra|]. exists 0%Z. lra.
Qed.
Lemma image_min l r : 0 < l -> - (l / 2) <= r <= l / 2 -> forall k : Z, Rabs r <= Rabs (r + IZR k * l).
Proof.
  intros Hl H k. destruct (Z.eq_dec k 0) as [->|N]; [replace (r + IZR 0 * l) with r by lra; lra|].
  destruct (Z_lt_le_dec k 0) as [K|K].
  - assert (IZR k <= -1) by (apply IZR_le; lia). assert (IZR k * l <= - l) by nra. unfold Rabs. destruct (Rcase_abs r), (Rcase_abs (r + IZR k * l)); lra.
  - assert (1 <= IZR k) by (apply IZR_le; lia). assert (l <= IZR k * l) by nra. unfold Rabs. destruct (Rcase_abs r), (Rcase_abs (r + IZR k * l)); lra.
Qed.
Lemma min_image_le l dx k : 0 < l -> - (3 / 2 * l) <= dx <= 3 / 2 * l -> Rabs (min_image l dx) <= Rabs (dx + IZR k * l).
Proof.
  intros Hl H. destruct (min_image_spec l dx Hl H) as [B (j & E)]. pose proof (image_min l _ Hl B (k - j)) as M. rewrite E in *.
  replace (dx + IZR j * l + IZR (k - j) * l) with (dx + IZR k * l) in M by (rewrite minus_IZR; ring). exact M.
Qed.
Lemma min_image_sym l dx : 0 < l -> - (3 / 2 * l) <= dx <= 3 / 2 * l -> Rabs (min_image l (- dx)) = Rabs (min_image l dx).
Proof.
  intros Hl H. apply Rle_antisym.
  - destruct (min_image_spec l dx Hl H) as [_ (k & ->)]. rewrite <- (Rabs_Ropp (dx + IZR k * l)). replace (- (dx + IZR k * l)) with (- dx + IZR (- k) * l) by (rewrite opp_IZR; ring).
    apply min_image_le; lra.
  - destruct (min_image_spec l (- dx) Hl ltac:(lra)) as [_ (k & ->)]. rewrite <- (Rabs_Ropp (- dx + IZR k * l)). replace (- (- dx + IZR k * l)) with (dx + IZR (- k) * l) by (rewrite opp_IZR; ring).
    apply min_image_le; lra.
Qed.
Lemma min_image_tri l a b c : 0 < l -> 0 <= a < l -> 0 <= b < l -> 0 <= c < l ->
  Rabs (min_image l (a - c)) <= Rabs (min_image l (a - b)) + Rabs (min_image l (b - c)).
Proof.
  intros Hl Ha Hb Hc. destruct (min_image_spec l (a - b) Hl ltac:(lra)) as [_ (j & E1)]. destruct (min_image_spec l (b - c) Hl ltac:(lra)) as [_ (k & E2)].
  eapply Rle_trans; [|apply Rabs_triang]. rewrite E1, E2. replace (a - b + IZR j * l + (b - c + IZR k * l)) with (a - c + IZR (j + k) * l) by (rewrite plus_IZR; ring).
  apply min_image_le; lra.
Qed.
(** Cauchy-Schwarz and Minkowski for lists. *)
Definition dotp (a b : list R) : R := Rsum (map (fun p => fst p * snd p) (combine a b)).
Lemma sq_sum_dot a : Rsum (map (fun v => v * v) a) = dotp a a.
Proof. unfold dotp. induction a as [|x a IH]; simpl; [reflexivity|]. change (fold_right Rplus 0) with Rsum in *. rewrite IH. reflexivity. Qed.
Lemma cauchy a b : dotp a b * dotp a b <= dotp a a * dotp b b.
Proof.
  revert b. induction a as [|x a IH]; intros [|y b].
  - unfold dotp; simpl; lra.
  - unfold dotp; simpl; lra.
  - unfold dotp. simpl. lra.
  - unfold dotp; simpl; change (fold_right Rplus 0) with Rsum. specialize (IH b). fold (dotp a b). fold (dotp a a). fold (dotp b b).
    assert (0 <= dotp a a) by (rewrite <- sq_sum_dot; apply Rsum_sq_nonneg). assert (0 <= dotp b b) by (rewrite <- sq_sum_dot; apply Rsum_sq_nonneg).
    set (S := dotp a b) in *. set (A := dotp a a) in *. set (B := dotp b b) in *. clearbody S A B.
    assert (PA : 0 <= y * y * A) by (apply Rmult_le_pos; [nra|assumption]). assert (PB : 0 <= x * x * B) by (apply Rmult_le_pos; [nra|assumption]).
    assert (K : 2 * (x * y) * S <= x * x * B + y * y * A).
    { destruct (Rle_or_lt (2 * (x * y) * S) 0) as [N|P]; [lra|]. apply Rsqr_incr_0_var; [|lra]. unfold Rsqr.
      assert (4 * (x * y * (x * y)) * (S * S) <= 4 * (x * y * (x * y)) * (A * B)) by (apply Rmult_le_compat_l; [nra|assumption]).
      assert (0 <= (x * x * B - y * y * A) * (x * x * B - y * y * A)) by apply Rle_0_sqr.
      replace (2 * (x * y) * S * (2 * (x * y) * S)) with (4 * (x * y * (x * y)) * (S * S)) by ring.
      replace ((x * x * B + y * y * A) * (x * x * B + y * y * A)) with ((x * x * B - y * y * A) * (x * x * B - y * y * A) + 4 * (x * y * (x * y)) * (A * B)) by ring. lra. }
    replace ((x * y + S) * (x * y + S)) with (x * y * (x * y) + 2 * (x * y) * S + S * S) by ring.
    replace ((x * x + A) * (y * y + B)) with (x * y * (x * y) + (x * x * B + y * y * A) + A * B) by ring. lra.
Qed.
Lemma norm_mono a b : length a = length b -> (forall p, In p (combine a b) -> Rabs (fst p) <= snd p) -> norm a <= norm b.
Proof.
  intros L H. apply sqrt_le_1_alt. revert b L H. induction a as [|x a IH]; intros [|y b] L H; try discriminate; simpl; [lra|].
  change (fold_right Rplus 0) with Rsum. specialize (IH b ltac:(simpl in L; lia) (fun p Hp => H p (or_intror Hp))). specialize (H (x, y) (or_introl eq_refl)). simpl in H.
  assert (x * x <= y * y). { pose proof (Rabs_pos x). replace (x * x) with (Rabs x * Rabs x) by (rewrite <- Rabs_mult; apply Rabs_right; nra). nra. }
  lra.
Qed.
Lemma norm_add a b : length a = length b -> norm (map (fun p => fst p + snd p) (combine a b)) <= norm a + norm b.
Proof.
  intros L. pose proof (norm_nonneg a) as NA. pose proof (norm_nonneg b) as NB. apply Rsqr_incr_0_var; [|lra]. unfold Rsqr. rewrite norm_sq.
  assert (E : Rsum (map (fun v => v * v) (map (fun p => fst p + snd p) (combine a b))) = dotp a a + 2 * dotp a b + dotp b b).
  { clear NA NB. revert b L. induction a as [|x a IH]; intros [|y b] L; try discriminate; unfold dotp; simpl; change (fold_right Rplus 0) with Rsum; [ring|].
    simpl in L. rewrite IH by lia. fold (dotp a b) (dotp a a) (dotp b b). ring. }
  rewrite E. assert (A2 : norm a * norm a = dotp a a) by (rewrite norm_sq; apply sq_sum_dot). assert (B2 : norm b * norm b = dotp b b) by (rewrite norm_sq; apply sq_sum_dot).
  assert (dotp a b <= norm a * norm b).
  { destruct (Rle_or_lt (dotp a b) 0); [nra|]. apply Rsqr_incr_0_var; [|nra]. unfold Rsqr. pose proof (cauchy a b). nra. }
  nra.
Qed.
Lemma in_box_spec l x : in_box l x = true <-> forall v, In v x -> 0 <= v < l.
Proof.
  unfold in_box. rewrite forallb_forall. split; intros H v Hv; specialize (H v Hv); destruct (Rle_dec 0 v), (Rlt_dec v l); try discriminate; try reflexivity; try lra.
Qed.
Lemma norm_abs a : norm (map Rabs a) = norm a.
Proof. unfold norm. f_equal. rewrite map_map. f_equal. apply map_ext. intros v. rewrite <- Rabs_mult. apply Rabs_right. nra. Qed.
Lemma pdist_sym l a b : 0 < l -> length a = length b -> (forall v, In v a -> 0 <= v < l) -> (forall v, In v b -> 0 <= v < l) -> pdist l a b = pdist l b a.
Proof.
  intros Hl L Ha Hb. unfold pdist. rewrite <- (norm_abs (map (min_image l) (sub_vec b a))), <- (norm_abs (map (min_image l) (sub_vec a b))). f_equal. unfold sub_vec. rewrite !map_map.
  revert b L Hb. induction a as [|x a IH]; intros [|y b] L Hb; try discriminate; [reflexivity|]. simpl. f_equal.
  - specialize (Ha x (or_introl eq_refl)). specialize (Hb y (or_introl eq_refl)). replace (y - x) with (- (x - y)) by ring. apply min_image_sym; lra.
  - apply IH; [intros; apply Ha; right; assumption|simpl in L; lia|intros; apply Hb; right; assumption].
Qed.
Lemma pdist_tri l a b c : 0 < l -> length a = length b -> length b = length c ->
  (forall v, In v a -> 0 <= v < l) -> (forall v, In v b -> 0 <= v < l) -> (forall v, In v c -> 0 <= v < l) -> pdist l a c <= pdist l a b + pdist l b c.
Proof.
  intros Hl L1 L2 Ha Hb Hc. unfold pdist.
  set (u := map (min_image l) (sub_vec b a)). set (w := map (min_image l) (sub_vec c b)).
  rewrite <- (norm_abs u), <- (norm_abs w). eapply Rle_trans; [|apply norm_add].
  - apply norm_mono.
    + unfold u, w, sub_vec. repeat rewrite ?map_length, ?combine_length. lia.
    + unfold u, w, sub_vec. clear u w. revert b c L1 L2 Hb Hc. induction a as [|x a IH]; intros [|y b] [|z c] L1 L2 Hb Hc; try discriminate; [intros p []|].
      simpl. intros p [<-|Hp].
      * simpl. specialize (Ha x (or_introl eq_refl)). specialize (Hb y (or_introl eq_refl)). specialize (Hc z (or_introl eq_refl)).
        pose proof (min_image_tri l z y x Hl Hc Hb Ha). lra.
      * apply (IH (fun v Hv => Ha v (or_intror Hv)) b c ltac:(simpl in L1; lia) ltac:(simpl in L2; lia) (fun v Hv => Hb v (or_intror Hv)) (fun v Hv => Hc v (or_intror Hv)) p Hp).
  - unfold u, w, sub_vec. repeat rewrite ?map_length, ?combine_length. lia.
Qed.
(** The distance is the smallest over all periodic images. *)
Lemma pdist_min l a b k : 0 < l -> length a = length b -> length k = length b -> (forall v, In v a -> 0 <= v < l) -> (forall v, In v b -> 0 <= v < l) ->
  pdist l a b <= norm (sub_vec (shifted l b k) a).
Proof.
  intros Hl L Lk Ha Hb. unfold pdist. rewrite <- (norm_abs (sub_vec (shifted l b k) a)). apply norm_mono.
  - unfold sub_vec, shifted. repeat rewrite ?map_length, ?combine_length. lia.
  - unfold sub_vec, shifted. revert b k L Lk Hb. induction a as [|x a IH]; intros [|y b] [|j k] L Lk Hb; try discriminate; [intros p []|].
    simpl. intros p [<-|Hp].
    + simpl. specialize (Ha x (or_introl eq_refl)). specialize (Hb y (or_introl eq_refl)). replace (y + IZR j * l - x) with (y - x + IZR j * l) by ring. apply min_image_le; lra.
    + apply (IH (fun v Hv => Ha v (or_intror Hv)) b k ltac:(simpl in L; lia) ltac:(simpl in Lk; lia) (fun v Hv => Hb v (or_intror Hv)) p Hp).
Qed.
Lemma pdist_attained l a b : 0 < l -> length a = length b -> (forall v, In v a -> 0 <= v < l) -> (forall v, In v b -> 0 <= v < l) ->
  exists k, length k = length b /\ pdist l a b = norm (sub_vec (shifted l b k) a).
Proof.
  intros Hl L Ha Hb.
  assert (G : exists k, length k = length b /\ map (min_image l) (sub_vec b a) = sub_vec (shifted l b k) a).
  { unfold sub_vec, shifted. revert b L Hb. induction a as [|x a IH]; intros [|y b] L Hb; try discriminate; [exists []; auto|].
    destruct (IH (fun v Hv => Ha v (or_intror Hv)) b ltac:(simpl in L; lia) (fun v Hv => Hb v (or_intror Hv))) as (k & Lk & E).
    specialize (Ha x (or_introl eq_refl)). specialize (Hb y (or_introl eq_refl)). destruct (min_image_spec l (y - x) Hl ltac:(lra)) as [_ (j & Ej)].
    exists (j :: k). split; [simpl; lia|]. simpl. rewrite E, Ej. f_equal. ring. }
  destruct G as (k & Lk & E). exists k. split; [exact Lk|]. unfold pdist. rewrite E. reflexivity.
Qed.
Lemma pdist_bound l a b : 0 < l -> length a = length b -> (forall v, In v a -> 0 <= v < l) -> (forall v, In v b -> 0 <= v < l) ->
  forall d, In d (map (min_image l) (sub_vec b a)) -> - (l / 2) <= d <= l / 2.
Proof.
  intros Hl L Ha Hb d Hd. apply in_map_iff in Hd. destruct Hd as (dx & <- & Hd). unfold sub_vec in Hd. apply in_map_iff in Hd. destruct Hd as ([y x] & <- & Hp).
  pose proof (in_combine_l _ _ _ _ Hp) as I1. pose proof (in_combine_r _ _ _ _ Hp) as I2. simpl. apply Hb in I1. apply Ha in I2. apply min_image_spec; lra.
Qed.
Lemma pdist_zero l a b : 0 < l -> length a = length b -> (forall v, In v a -> 0 <= v < l) -> (forall v, In v b -> 0 <= v < l) -> (pdist l a b = 0 <-> a = b).
Proof.
  intros Hl L Ha Hb. unfold pdist. rewrite norm_zero. split.
  - revert b L Hb. unfold sub_vec. induction a as [|x a IH]; intros [|y b] L Hb H; try discriminate; [reflexivity|]. simpl in H.
    specialize (IH (fun v Hv => Ha v (or_intror Hv)) b ltac:(simpl in L; lia) (fun v Hv => Hb v (or_intror Hv)) (fun v Hv => H v (or_intror Hv))).
    specialize (H _ (or_introl eq_refl)). specialize (Ha x (or_introl eq_refl)). specialize (Hb y (or_introl eq_refl)). f_equal; [|assumption].
    destruct (min_image_spec l (y - x) Hl ltac:(lra)) as [_ (k & E)]. rewrite H in E. assert (K : (k < 1)%Z) by (apply lt_IZR; nra). assert (K' : (-1 < k)%Z) by (apply lt_IZR; nra). assert (k = 0)%Z by lia. subst k. lra.
  - intros <- v Hv. apply in_map_iff in Hv. destruct Hv as (dx & <- & Hd). unfold sub_vec in Hd. apply in_map_iff in Hd. destruct Hd as ([y x] & <- & Hp).
    assert (y = x). { clear -Hp. induction a as [|z a IH]; [destruct Hp|]. simpl in Hp. destruct Hp as [E|Hp]; [congruence|auto]. }
    subst y. simpl. unfold min_image. replace (x - x) with 0 by ring. destruct (Rlt_dec (/ 2 * l) 0); [lra|]. destruct (Rlt_dec 0 (- (/ 2 * l))); lra.
Qed.
Lemma norm_euclid a b : norm (sub_vec a b) = euclid a b.
Proof. unfold norm, euclid, sub_vec. rewrite !map_map. reflexivity. Qed.
Lemma pdist_half l a b : 0 < l -> length a = length b -> in_cube l a -> in_cube l b -> pdist l a b * pdist l a b <= INR (length a) * (l / 2 * (l / 2)).
Proof.
  intros Hl L Ha Hb. unfold pdist. rewrite norm_sq. unfold sub_vec. rewrite !map_map. revert b L Hb. induction a as [|x a IH]; intros [|y b] L Hb; try discriminate; [simpl; lra|].
  specialize (IH (fun v Hv => Ha v (or_intror Hv)) b ltac:(simpl in L; lia) (fun v Hv => Hb v (or_intror Hv))). specialize (Ha x (or_introl eq_refl)). specialize (Hb y (or_introl eq_refl)).
  change (length (x :: a)) with (S (length a)). rewrite S_INR. cbn [combine map fst snd]. change (Rsum (?u :: ?v)) with (u + Rsum v).
  destruct (min_image_spec l (y - x) Hl ltac:(lra)) as [B _]. nra.
Qed.
