(** Proofs for C89: masks, weights, means. *)
From Coq Require Import ZArith Reals Lra Lia List Permutation.
Require Import Flocq.Core.Core Flocq.IEEE754.BinarySingleNaN.
From Verif Require Import Base ProcFloat InterpFloatProofs MeshFloatProofs FredModel FredSpec FredProofs.
Import ListNotations. Local Open Scope list_scope. Local Open Scope R_scope.
Notation eta := (B (-1075)).

Lemma Rsum_app a b : Rsum (a ++ b) = Rsum a + Rsum b.
Proof. unfold Rsum. induction a as [|x a IH]; cbn [app fold_right]; [ring|]. rewrite IH. ring. Qed.
Lemma Rsize_pos l : 0 <= Rsize l.
Proof. unfold Rsize, Rsum. induction l as [|x l IH]; cbn [map fold_right]; [lra|]. pose proof (Rabs_pos x). lra. Qed.
Lemma Rsum_size l : Rabs (Rsum l) <= Rsize l.
Proof. unfold Rsize, Rsum. induction l as [|x l IH]; cbn [map fold_right]; [rewrite Rabs_R0; lra|]. eapply Rle_trans; [apply Rabs_triang|]. lra. Qed.
Lemma Rsize_In l x : In x l -> Rabs x <= Rsize l.
Proof.
  unfold Rsize, Rsum. induction l as [|y l IH]; cbn [map fold_right]; intros H; [destruct H|]. pose proof (Rsize_pos l) as P. unfold Rsize, Rsum in P.
  destruct H as [->|H]; [lra|]. pose proof (Rabs_pos y). specialize (IH H). lra.
Qed.

(** All terms, those masked out being 0. *)
Definition base (x : list b64) (w : option (list b64)) : list R := match w with None => map val x | Some w => map (fun p => val (fst p) * val (snd p)) (combine x w) end.
Definition masked (m : option (list bool)) (t : list R) : list R := match m with None => t | Some m => map (fun p : R * bool => if snd p then fst p else 0) (combine t m) end.
Lemma masked_sum m t : (forall m', m = Some m' -> length m' = length t) -> Rsum (masked m t) = Rsum (chosen m t) /\ Rsize (masked m t) = Rsize (chosen m t).
Proof.
  intros L. destruct m as [m|]; [|split; reflexivity]. specialize (L m eq_refl). cbn [masked chosen]. unfold Rsize, Rsum. revert m L. induction t as [|v t IH]; intros [|b m] L; try discriminate; [split; reflexivity|].
  injection L as L. destruct (IH m L) as [I1 I2]. cbn [combine map filter snd fst fold_right]. destruct b; cbn [map fst fold_right]; rewrite <- ?I1, <- ?I2, ?Rabs_R0; split; ring.
Qed.
Definition products (x : list b64) (w : option (list b64)) (m : option (list bool)) : list b64 :=
  match w, m with None, None => x | None, Some m => times x (map of_bool64 m) | Some w, None => times x w | Some w, Some m => times x (times w (map of_bool64 m)) end.
Lemma f_sum_products total x w m : f_sum total x w m = total (products x w m).
Proof. destruct w, m; reflexivity. Qed.
Lemma of_bool64_val b : fin (of_bool64 b) = true /\ val (of_bool64 b) = if b then 1 else 0.
Proof. destruct b; unfold of_bool64; [destruct (of_Z64_exact 1) as [V F]|destruct (of_Z64_exact 0) as [V F]]; try (cbn; lia); split; assumption. Qed.
Lemma times_mask x b : fin x = true -> fin (mul64 x (of_bool64 b)) = true /\ val (mul64 x (of_bool64 b)) = if b then val x else 0.
Proof. intros F. destruct (of_bool64_val b) as [Fb Vb]. destruct b; [apply mul64_1|apply mul64_0]; assumption. Qed.

Definition same (p : b64) (t : R) : Prop := fin p = true /\ val p = t.
Definition close (p : b64) (t : R) : Prop := fin p = true /\ Rabs (val p - t) <= u * Rabs t + eta.
Lemma same_close p t : same p t -> close p t.
Proof. intros [F V]. split; [exact F|]. rewrite V, Rminus_diag_eq, Rabs_R0 by reflexivity. pose proof u0. pose proof (Rabs_pos t). pose proof (bpow_gt_0 radix2 (-1075)). nra. Qed.
Lemma mul_close x w : fin x = true -> fin w = true -> Rabs (val x * val w) <= B 1022 -> close (mul64 x w) (val x * val w).
Proof.
  intros Fx Fw Bd. destruct (mul64_b x w Fx Fw) as [F V]; [eapply Rle_trans; [exact Bd|apply bpow_le; lia]|]. split; [exact F|]. rewrite V.
  destruct (err64 (val x * val w)) as (d & e & Hd & He & _ & E). rewrite E. replace (val x * val w * (1 + d) + e - val x * val w) with (val x * val w * d + e) by ring.
  eapply Rle_trans; [apply Rabs_triang|]. rewrite Rabs_mult. apply Rplus_le_compat; [|exact He]. rewrite Rmult_comm. apply Rmult_le_compat_r; [apply Rabs_pos|exact Hd].
Qed.
Lemma close_0 x w : fin x = true -> fin w = true -> val w = 0 -> same (mul64 x w) 0.
Proof. intros. apply mul64_0; assumption. Qed.
Lemma products_same x m : well_formed x None m -> Forall2 same (products x None m) (masked m (base x None)).
Proof.
  intros (Fx & _ & Lm). destruct m as [m|]; cbn [products masked base].
  - specialize (Lm m eq_refl). revert m Lm. induction Fx as [|v x Fv Fx IH]; intros [|b m] L; try discriminate; [constructor|]. injection L as L.
    unfold times in *. cbn [map combine fst snd]. constructor; [|apply IH, L]. destruct (times_mask v b Fv) as [F V]. split; assumption.
  - clear Lm. induction Fx as [|v x Fv Fx IH]; [constructor|]. constructor; [split; [exact Fv|reflexivity]|exact IH].
Qed.
Lemma products_close x w m : well_formed x w m -> Forall (fun c => Rabs c <= B 1022) (contributions x w m) -> Forall2 close (products x w m) (masked m (base x w)).
Proof.
  destruct w as [w|].
  - intros (Fx & Fw & Lm) Bd. destruct (Fw w eq_refl) as [F L]. clear Fw. destruct m as [m|]; unfold contributions in Bd; cbn [products masked base chosen] in *.
    + specialize (Lm m eq_refl). revert w F L m Lm Bd. induction Fx as [|v x Fv Fx IH]; intros [|a w] F L [|b m] Lm Bd; try discriminate; [constructor|]. injection L as L. injection Lm as Lm. inversion F as [|? ? Fa F']; subst.
      unfold times in *. cbn [map combine fst snd filter] in *. destruct (times_mask a b Fa) as [Fp Vp]. destruct b; cbn [map fst] in Bd.
      * inversion Bd as [|? ? B1 B2]; subst. constructor; [|apply IH; assumption]. pose proof (mul_close v (mul64 a (of_bool64 true)) Fv Fp) as C. rewrite Vp in C. apply C, B1.
      * constructor; [|apply IH; assumption]. apply same_close, close_0; assumption.
    + clear Lm. revert w F L Bd. induction Fx as [|v x Fv Fx IH]; intros [|a w] F L Bd; try discriminate; [constructor|]. injection L as L. inversion F as [|? ? Fa F']; subst.
      unfold times in *. cbn [map combine fst snd] in *. inversion Bd as [|? ? B1 B2]; subst. constructor; [apply mul_close; assumption|apply IH; assumption].
  - intros W _. generalize (products_same _ _ W). generalize (products x None m) (masked m (base x None)). induction 1; constructor; [apply same_close|]; assumption.
Qed.
Lemma same_sum P T : Forall2 same P T -> finite P /\ exact P = Rsum T /\ size P = Rsize T /\ length P = length T.
Proof.
  induction 1 as [|p t P T [F V] H (I1 & I2 & I3 & I4)]; [repeat split; constructor|]. repeat split; [constructor; assumption| | |cbn; congruence]; unfold exact, size, Rsum, Rsize, Rsum in *; cbn [fold_right map]; rewrite ?I2, ?I3, V; reflexivity.
Qed.
Lemma close_sum P T : Forall2 close P T -> finite P /\ length P = length T /\ Rabs (exact P - Rsum T) <= u * Rsize T + INR (length T) * eta /\ size P <= (1 + u) * Rsize T + INR (length T) * eta.
Proof.
  induction 1 as [|p t P T [F V] H (I1 & I2 & I3 & I4)].
  - split; [constructor|]. split; [reflexivity|]. unfold exact, size, Rsize, Rsum. cbn [fold_right map length INR]. rewrite Rminus_0_r, Rabs_R0. split; lra.
  - split; [constructor; assumption|]. split; [cbn; congruence|]. cbn [length]. rewrite S_INR. unfold exact, size, Rsize, Rsum in *. cbn [fold_right map]. set (E := fold_right (fun x s => val x + s) 0 P) in *. set (S := fold_right (fun x s => Rabs (val x) + s) 0 P) in *.
    set (R0 := fold_right Rplus 0 T) in *. set (Z := fold_right Rplus 0 (map Rabs T)) in *. split.
    + replace (val p + E - (t + R0)) with ((val p - t) + (E - R0)) by ring. eapply Rle_trans; [apply Rabs_triang|]. lra.
    + assert (Rabs (val p) <= Rabs t + (u * Rabs t + eta)); [|lra]. replace (val p) with (t + (val p - t)) by ring. eapply Rle_trans; [apply Rabs_triang|]. lra.
Qed.
Lemma eps_u : eps = 2 * u. Proof. unfold eps. pose proof small_facts as (_ & _ & _ & H & _). exact H. Qed.
Lemma base_length x w m : well_formed x w m -> length (base x w) = length x.
Proof. intros (_ & Fw & _). destruct w as [w|]; cbn [base]; [destruct (Fw w eq_refl) as [_ L]; rewrite map_length, combine_length, L; lia|apply map_length]. Qed.
Lemma masked_length x w m : well_formed x w m -> length (masked m (base x w)) = length x.
Proof. intros W. pose proof (base_length _ _ _ W) as L. destruct m as [m|]; cbn [masked]; [|exact L]. destruct W as (_ & _ & Lm). rewrite map_length, combine_length, L, (Lm m eq_refl). lia. Qed.
Lemma contrib x w m : well_formed x w m -> Rsum (masked m (base x w)) = Rsum (contributions x w m) /\ Rsize (masked m (base x w)) = Rsize (contributions x w m).
Proof. intros W. pose proof (base_length _ _ _ W) as L. unfold contributions. fold (base x w). apply masked_sum. intros m' ->. destruct W as (_ & _ & Lm). rewrite L. apply Lm. reflexivity. Qed.

Lemma sum_plain total D x m : adds total D -> well_formed x None m -> INR (D (length x)) * eps <= 1 -> Rsize (contributions x None m) <= B 1022 ->
  fin (f_sum total x None m) = true /\ Rabs (val (f_sum total x None m) - Rsum (contributions x None m)) <= INR (D (length x)) * eps * Rsize (contributions x None m).
Proof.
  intros A W Hd Hs. destruct (contrib _ _ _ W) as [C1 C2]. pose proof (products_same _ _ W) as P. apply same_sum in P. destruct P as (F & E & S & L). rewrite f_sum_products. rewrite (masked_length _ _ _ W) in L.
  pose proof (A (products x None m)) as H. rewrite L in H. rewrite <- C1, <- C2, <- E, <- S. apply sums_bound; try assumption. rewrite S, C2. exact Hs.
Qed.
Lemma sum_weighted total D x w m : adds total D -> well_formed x w m -> (Z.of_nat (length x) <= 2 ^ 53)%Z -> INR (D (length x)) * eps <= 1 -> Rsize (contributions x w m) <= B 1020 ->
  fin (f_sum total x w m) = true /\
  Rabs (val (f_sum total x w m) - Rsum (contributions x w m)) <= (INR (D (length x)) + 1) * eps * Rsize (contributions x w m) + INR (length x) * B (-1074).
Proof.
  intros A W Hn Hd Hs. destruct (contrib _ _ _ W) as [C1 C2]. pose proof (Rsize_pos (contributions x w m)) as S0. pose proof u0 as U. pose proof (bpow_gt_0 radix2 (-1075)) as ET.
  pose proof (products_close x w m W) as P. destruct (close_sum (products x w m) (masked m (base x w))) as (F & L & E & S).
  { apply P. apply Forall_forall. intros c Hc. eapply Rle_trans; [apply Rsize_In, Hc|]. eapply Rle_trans; [exact Hs|]. apply bpow_le; lia. }
  rewrite (masked_length _ _ _ W) in *. rewrite C1, C2 in *. rewrite f_sum_products. pose proof (A (products x w m)) as H. rewrite L in H.
  assert (Nb : INR (length x) * eta <= 1).
  { rewrite INR_IZR_INZ. apply Rle_trans with (B 53 * B (-1075)); [apply Rmult_le_compat_r; [lra|change (B 53) with (IZR (2 ^ 53)); apply IZR_le; lia]|]. rewrite <- bpow_plus. apply (bpow_le radix2 _ 0). lia. }
  assert (N0 : 0 <= INR (length x)) by apply pos_INR.
  set (n := INR (length x)) in *. set (d := INR (D (length x))) in *. assert (D0 : 0 <= d) by apply pos_INR. set (Z := Rsize (contributions x w m)) in *. set (R0 := Rsum (contributions x w m)) in *.
  assert (U1 : u <= 1). { pose proof small_facts as (F1 & _). lra. }
  assert (Sb : size (products x w m) <= B 1022).
  { eapply Rle_trans; [exact S|]. apply Rle_trans with (2 * B 1020 + 1); [apply Rplus_le_compat; [apply Rmult_le_compat; lra|exact Nb]|].
    replace (B 1022) with (4 * B 1020) by (replace 1022%Z with (2 + 1020)%Z by reflexivity; rewrite bpow_plus; reflexivity). assert (1 <= B 1020) by (apply (bpow_le radix2 0); lia). lra. }
  destruct (sums_bound _ _ _ H F Hd Sb) as [Fs Es]. split; [exact Fs|]. fold d in Es. set (s := val (total (products x w m))) in *. set (X := exact (products x w m)) in *.
  replace (s - R0) with ((s - X) + (X - R0)) by ring. eapply Rle_trans; [apply Rabs_triang|].
  assert (K : d * eps * size (products x w m) <= d * eps * ((1 + u) * Z) + n * eta).
  { apply Rle_trans with (d * eps * ((1 + u) * Z + n * eta)); [apply Rmult_le_compat_l; [apply Rmult_le_pos; [exact D0|unfold eps; apply bpow_ge_0]|exact S]|].
    rewrite Rmult_plus_distr_l. apply Rplus_le_compat_l. rewrite <- (Rmult_1_l (n * eta)) at 2. apply Rmult_le_compat_r; [apply Rmult_le_pos; lra|exact Hd]. }
  assert (T : B (-1074) = 2 * eta) by (replace (-1074)%Z with (1 + -1075)%Z by reflexivity; rewrite bpow_plus; reflexivity).
  rewrite T. assert (K2 : d * eps * u * Z <= u * Z) by (rewrite <- (Rmult_1_l (u * Z)) at 1; rewrite Rmult_assoc; apply Rmult_le_compat_r; [apply Rmult_le_pos; lra|exact Hd]).
  pose proof eps_u as EU. replace (d * eps * ((1 + u) * Z)) with (d * eps * Z + d * eps * u * Z) in K by ring. replace ((d + 1) * eps * Z) with (d * eps * Z + eps * Z) by ring. rewrite EU at 2. nra.
Qed.

(** ** means *)
Lemma count_chosen {A} (x : list A) m : length m = length x -> length (filter (fun b : bool => b) m) = length (map fst (filter (fun p : A * bool => snd p) (combine x m))).
Proof. rewrite map_length. revert m. induction x as [|v x IH]; intros [|b m] L; try discriminate; [reflexivity|]. injection L as L. cbn [combine filter snd]. destruct b; cbn [length]; rewrite (IH m L); reflexivity. Qed.
Lemma count_contrib x w m : well_formed x w m -> f_count x m = length (contributions x w m).
Proof.
  intros W. pose proof (base_length _ _ _ W) as L. unfold contributions, f_count. fold (base x w). destruct m as [m|]; cbn [chosen]; [|symmetry; exact L]. destruct W as (_ & _ & Lm).
  apply count_chosen. rewrite L. apply Lm. reflexivity.
Qed.
Lemma filter_le {A} (f : A -> bool) l : (length (filter f l) <= length l)%nat.
Proof. induction l as [|a l IH]; cbn [filter length]; [lia|]. destruct (f a); cbn [length]; lia. Qed.
Lemma count_le x m : well_formed x None m -> (f_count x m <= length x)%nat.
Proof. intros W. rewrite (count_contrib _ _ _ W). unfold contributions. destruct m as [m|]; cbn [chosen]; rewrite ?map_length; [|lia]. eapply Nat.le_trans; [apply filter_le|]. rewrite combine_length, map_length. lia. Qed.
Lemma mean_plain total D fill x m : adds total D -> well_formed x None m -> (Z.of_nat (length x) <= 2 ^ 53)%Z -> INR (D (length x)) * eps <= 1 ->
  let c := contributions x None m in c <> [] -> Rsize c <= B 1022 ->
  fin (f_mean total fill x None m) = true /\
  Rabs (val (f_mean total fill x None m) - Rsum c / INR (length c)) <= (INR (D (length x)) + 1) * eps * (Rsize c / INR (length c)) + eta.
Proof.
  intros A W Hn Hd c Nc Hs. pose proof (count_contrib _ _ _ W) as C. fold c in C. pose proof (count_le _ _ W) as Cl. unfold f_mean. rewrite C in *.
  assert (K1 : (1 <= length c)%nat) by (destruct c; [congruence|cbn; lia]). destruct (Nat.ltb_spec (length c) 1); [lia|].
  destruct (sum_plain total D x m A W Hd Hs) as [Fs Es]. fold c in Es. set (s := f_sum total x None m) in *. destruct (of_Z64_exact (Z.of_nat (length c))) as [Vk Fk]; [lia|]. rewrite <- INR_IZR_INZ in Vk.
  assert (Kp : 1 <= INR (length c)) by (apply (le_INR 1); exact K1). set (k := INR (length c)) in *. set (Z := Rsize c) in *. set (d := INR (D (length x))) in *. assert (D0 : 0 <= d) by apply pos_INR. assert (Z0 : 0 <= Z) by apply Rsize_pos.
  pose proof (Rsum_size c) as Rz. fold Z in Rz. pose proof u0 as U. pose proof eps_u as EU.
  assert (Sb : Rabs (val s) <= 2 * Z). { replace (val s) with ((val s - Rsum c) + Rsum c) by ring. eapply Rle_trans; [apply Rabs_triang|]. assert (d * eps * Z <= 1 * Z) by (apply Rmult_le_compat_r; assumption). lra. }
  assert (Qb : Rabs (val s / k) <= 2 * (Z / k)). { unfold Rdiv. rewrite Rabs_mult, (Rabs_right (/ k)) by (left; apply Rinv_0_lt_compat; lra). rewrite <- Rmult_assoc. apply Rmult_le_compat_r; [left; apply Rinv_0_lt_compat; lra|exact Sb]. }
  destruct (div64_b s (of_Z64 (Z.of_nat (length c))) Fs) as [Fm Vm]; rewrite ?Vk; [lra| |].
  { eapply Rle_trans; [exact Qb|]. apply Rle_trans with (2 * B 1022). - apply Rmult_le_compat_l; [lra|]. apply Rle_trans with (Z / 1); [apply Rmult_le_compat_l; [exact Z0|apply Rinv_le_contravar; lra]|]. lra.
    - replace (B 1023) with (2 * B 1022); [lra|]. replace 1023%Z with (1 + 1022)%Z by reflexivity. rewrite bpow_plus. reflexivity. }
  split; [exact Fm|]. rewrite Vm, Vk. destruct (err64 (val s / k)) as (e1 & e2 & H1 & H2 & _ & E). rewrite E.
  replace (val s / k * (1 + e1) + e2 - Rsum c / k) with ((val s - Rsum c) / k + val s / k * e1 + e2) by (field; lra).
  eapply Rle_trans; [apply Rabs_triang|]. apply Rplus_le_compat; [|exact H2]. eapply Rle_trans; [apply Rabs_triang|].
  replace ((d + 1) * eps * (Z / k)) with (d * eps * (Z / k) + eps * (Z / k)) by ring. apply Rplus_le_compat.
  - unfold Rdiv. rewrite Rabs_mult, (Rabs_right (/ k)) by (left; apply Rinv_0_lt_compat; lra). rewrite <- Rmult_assoc. apply Rmult_le_compat_r; [left; apply Rinv_0_lt_compat; lra|exact Es].
  - rewrite Rabs_mult, EU. replace (2 * u * (Z / k)) with (2 * (Z / k) * u) by ring. apply Rmult_le_compat; try apply Rabs_pos; assumption.
Qed.

Lemma contrib_weights x w m : contributions w None m = chosen m (map val w) /\ contributions x (Some w) m = chosen m (map (fun p => val (fst p) * val (snd p)) (combine x w)).
Proof. split; reflexivity. Qed.
Lemma Rsum_nonneg l : Forall (fun v => 0 <= v) l -> Rsize l = Rsum l.
Proof. unfold Rsize, Rsum. induction 1 as [|v l H _ IH]; [reflexivity|]. cbn [map fold_right]. rewrite IH, Rabs_right by lra. reflexivity. Qed.
Lemma weighted_size x w m X : length w = length x -> (forall m', m = Some m' -> length m' = length x) -> Forall (fun a => 0 <= val a) w -> 0 <= X -> Forall (fun v => Rabs (val v) <= X) (chosen m x) ->
  Rsize (contributions x (Some w) m) <= X * Rsum (contributions w None m).
Proof.
  intros L Lm Fw X0. unfold contributions, Rsize, Rsum. destruct m as [m|]; cbn [chosen].
  - specialize (Lm m eq_refl). revert w L m Lm Fw. induction x as [|v x IH]; intros [|a w] L [|b m] Lm Fw Fx; try discriminate; [cbn; lra|]. injection L as L. injection Lm as Lm. inversion Fw as [|? ? Ha Fw']; subst.
    cbn [combine map fst snd filter] in *. destruct b; cbn [map fst fold_right] in *; [|apply IH; assumption]. inversion Fx as [|? ? Hv Fx']; subst. rewrite Rmult_plus_distr_l. apply Rplus_le_compat; [|apply IH; assumption].
    rewrite Rabs_mult, (Rabs_right (val a)) by lra. apply Rmult_le_compat_r; [lra|exact Hv].
  - clear Lm. revert w L Fw. induction x as [|v x IH]; intros [|a w] L Fw Fx; try discriminate; [cbn; lra|]. injection L as L. inversion Fw as [|? ? Ha Fw']; subst. inversion Fx as [|? ? Hv Fx']; subst.
    cbn [combine map fst snd fold_right] in *. rewrite Rmult_plus_distr_l. apply Rplus_le_compat; [|apply IH; assumption]. rewrite Rabs_mult, (Rabs_right (val a)) by lra. apply Rmult_le_compat_r; [lra|exact Hv].
Qed.
Lemma chosen_Forall {A} (P : A -> Prop) (m : option (list bool)) l : Forall P l -> Forall P (chosen m l).
Proof. intros H. destruct m as [m|]; cbn [chosen]; [|exact H]. rewrite Forall_forall in *. intros y Y. apply in_map_iff in Y. destruct Y as ((a & b) & <- & Hin). apply filter_In in Hin. destruct Hin as [Hin _]. apply in_combine_l in Hin. apply H, Hin. Qed.
Lemma mean_weighted total D fill x w m X : adds total D -> well_formed x (Some w) m -> (Z.of_nat (length x) <= 2 ^ 53)%Z -> INR (D (length x)) * eps <= / 8 ->
  Forall (fun a => 0 <= val a) w -> Forall (fun v => Rabs (val v) <= X) (chosen m x) ->
  let S := Rsum (contributions w None m) in B (-900) <= S <= B 510 -> X <= B 510 ->
  fin (f_mean total fill x (Some w) m) = true /\
  Rabs (val (f_mean total fill x (Some w) m) - Rsum (contributions x (Some w) m) / S) <= (4 * INR (D (length x)) + 4) * eps * X + B (-100).
Proof.
  intros A W Hn Hd Fw Fx S [S1 S2] XB. pose proof W as (Fin & Fww & Lm). destruct (Fww w eq_refl) as [Fiw Lw].
  assert (Ww : well_formed w None m) by (split; [exact Fiw|split; [discriminate|intros m' E; rewrite Lw; apply Lm, E]]).
  assert (Sp : 0 < S) by (pose proof (bpow_gt_0 radix2 (-900)); lra).
  assert (Nn : Forall (fun v => 0 <= v) (contributions w None m)) by (unfold contributions; apply chosen_Forall, Forall_map; exact Fw).
  assert (Cne : contributions w None m <> []) by (intros E; unfold S in Sp; rewrite E in Sp; cbn in Sp; lra).
  assert (Cn : (1 <= f_count x m)%nat). { replace (f_count x m) with (f_count w m) by (unfold f_count; destruct m; [reflexivity|exact Lw]). rewrite (count_contrib _ _ _ Ww). destruct (contributions w None m); [congruence|cbn; lia]. }
  assert (X0 : 0 <= X).
  { assert (Nx : chosen m x <> []). { intros E. assert (length (chosen m x) = f_count x m). { unfold f_count. destruct m as [m|]; cbn [chosen]; [|reflexivity]. symmetry. apply count_chosen, Lm. reflexivity. } rewrite E in H. cbn in H. lia. }
    destruct (chosen m x) as [|v l]; [congruence|]. inversion Fx; subst. pose proof (Rabs_pos (val v)). lra. }
  pose proof (weighted_size x w m X Lw Lm Fw X0 Fx) as Z1. fold S in Z1. set (c := contributions x (Some w) m) in *. pose proof (Rsize_pos c) as Z0. pose proof (Rsum_size c) as Rz.
  pose proof u0 as U. pose proof eps_u as EU. unfold f_mean. destruct (Nat.ltb_spec (f_count x m) 1); [lia|].
  assert (ZB : X * S <= B 1020). { change 1020%Z with (510 + 510)%Z. rewrite bpow_plus. apply Rmult_le_compat; lra. }
  destruct (sum_weighted total D x (Some w) m A W Hn) as [F1 E1]; [lra|eapply Rle_trans; [exact Z1|exact ZB]|]. fold c in E1.
  destruct (sum_plain total D w m A Ww) as [F2 E2]; [rewrite Lw; lra|rewrite Rsum_nonneg by exact Nn; fold S; eapply Rle_trans; [exact S2|apply bpow_le; lia]|].
  rewrite (Rsum_nonneg _ Nn) in E2. fold S in E2. rewrite Lw in E2. set (s1 := f_sum total x (Some w) m) in *. set (s2 := f_sum total w None m) in *.
  set (d := INR (D (length x))) in *. assert (D0 : 0 <= d) by apply pos_INR. set (t := d * eps) in *. assert (T0 : 0 <= t) by (apply Rmult_le_pos; [exact D0|unfold eps; apply bpow_ge_0]).
  set (r := Rsum c / S). assert (Er : Rsum c = r * S) by (unfold r; field; lra). assert (Rb : Rabs r <= X).
  { unfold r, Rdiv. rewrite Rabs_mult, (Rabs_right (/ S)) by (left; apply Rinv_0_lt_compat, Sp). apply (Rmult_le_reg_r S); [exact Sp|]. rewrite Rmult_assoc, Rinv_l by lra. lra. }
  set (q := INR (length x) * B (-1074)) in *.
  assert (Q : q <= B (-1021)). { unfold q. rewrite INR_IZR_INZ. apply Rle_trans with (B 53 * B (-1074)); [apply Rmult_le_compat_r; [apply bpow_ge_0|change (B 53) with (IZR (2 ^ 53)); apply IZR_le; lia]|]. rewrite <- bpow_plus. apply Rle_refl. }
  assert (Q0 : 0 <= q) by (apply Rmult_le_pos; [apply pos_INR|apply bpow_ge_0]).
  assert (QS : q / S <= B (-121)). { apply Rle_trans with (B (-1021) / B (-900)). - apply Rmult_le_compat; [exact Q0|left; apply Rinv_0_lt_compat, Sp|exact Q|apply Rinv_le_contravar; [apply bpow_gt_0|exact S1]]. - unfold Rdiv. rewrite <- bpow_opp, <- bpow_plus. apply Rle_refl. }
  assert (QS0 : 0 <= q / S) by (apply Rmult_le_pos; [exact Q0|left; apply Rinv_0_lt_compat, Sp]).
  assert (E1' : Rabs (val s1 - r * S) <= (t + eps) * (X * S) + q). { rewrite <- Er. eapply Rle_trans; [exact E1|]. apply Rplus_le_compat_r. replace ((d + 1) * eps) with (t + eps) by (unfold t; ring). apply Rmult_le_compat_l; [|exact Z1]. rewrite EU. lra. }
  assert (tS : t * S <= S / 8) by (unfold Rdiv; rewrite Rmult_comm; apply Rmult_le_compat_l; lra).
  assert (P2 : 7 / 8 * S <= val s2). { apply Rabs_le_inv in E2. lra. }
  assert (P2' : 0 < val s2) by lra.
  assert (DF : Rabs (val s1 / val s2 - r) <= 8 / 7 * ((2 * t + eps) * X + q / S)).
  { replace (val s1 / val s2 - r) with (((val s1 - r * S) - r * (val s2 - S)) / val s2) by (field; lra). unfold Rdiv at 1. rewrite Rabs_mult, (Rabs_right (/ val s2)) by (left; apply Rinv_0_lt_compat, P2').
    apply (Rmult_le_reg_r (val s2)); [exact P2'|]. rewrite Rmult_assoc, Rinv_l, Rmult_1_r by lra.
    apply Rle_trans with ((t + eps) * (X * S) + q + X * (t * S)).
    - unfold Rminus at 1. eapply Rle_trans; [apply Rabs_triang|]. rewrite Rabs_Ropp, Rabs_mult. apply Rplus_le_compat; [exact E1'|]. apply Rmult_le_compat; try apply Rabs_pos; assumption.
    - apply Rle_trans with (8 / 7 * ((2 * t + eps) * X + q / S) * (7 / 8 * S)); [apply Req_le; field; lra|]. apply Rmult_le_compat_l; [|exact P2]. apply Rmult_le_pos; [lra|]. apply Rplus_le_le_0_compat; [|exact QS0]. apply Rmult_le_pos; [rewrite EU; lra|exact X0]. }
  assert (EpsS : eps <= / 512). { rewrite EU. pose proof small_facts as (F3 & _). lra. }
  assert (B121 : B (-121) <= / 1024 * B (-100)). { replace (/ 1024) with (B (-10)) by reflexivity. rewrite <- bpow_plus. apply bpow_le. lia. }
  assert (B100 : 0 < B (-100)) by apply bpow_gt_0. assert (B100' : B (-100) <= 1) by (apply (bpow_le radix2 (-100) 0); lia).
  assert (TX : t * X <= X / 8) by (unfold Rdiv; rewrite Rmult_comm; apply Rmult_le_compat_l; lra). assert (EX0 : 0 <= eps * X) by (apply Rmult_le_pos; [unfold eps; apply bpow_ge_0|exact X0]). assert (TX0 : 0 <= t * X) by (apply Rmult_le_pos; assumption).
  assert (EX : eps * X <= X / 512) by (unfold Rdiv; rewrite Rmult_comm; apply Rmult_le_compat_l; lra).
  assert (QB : Rabs (val s1 / val s2) <= 2 * X + 1). { replace (val s1 / val s2) with ((val s1 / val s2 - r) + r) by ring. eapply Rle_trans; [apply Rabs_triang|]. rewrite Rmult_plus_distr_r, Rmult_assoc in DF. lra. }
  destruct (div64_b s1 s2 F1) as [Fm Vm]; [lra| |].
  { eapply Rle_trans; [exact QB|]. pose proof (bpow_le radix2 0 510 ltac:(lia)) as B1. change (B 0) with 1 in B1. apply Rle_trans with (B 512); [change 512%Z with (2 + 510)%Z; rewrite bpow_plus; change (B 2) with 4; lra|apply bpow_le; lia]. }
  split; [exact Fm|]. rewrite Vm. destruct (err64 (val s1 / val s2)) as (e1 & e2 & H1 & H2 & _ & E). rewrite E.
  replace (val s1 / val s2 * (1 + e1) + e2 - r) with ((val s1 / val s2 - r) * (1 + e1) + r * e1 + e2) by ring.
  assert (A1 : Rabs (1 + e1) <= 1 + u) by (eapply Rle_trans; [apply Rabs_triang|]; rewrite Rabs_R1; lra).
  eapply Rle_trans; [apply Rabs_triang|]. apply Rle_trans with (8 / 7 * ((2 * t + eps) * X + q / S) * (1 + u) + X * u + eta).
  { apply Rplus_le_compat; [|exact H2]. eapply Rle_trans; [apply Rabs_triang|]. rewrite !Rabs_mult. apply Rplus_le_compat; apply Rmult_le_compat; try apply Rabs_pos; assumption. }
  assert (UL : 1 + u <= 513 / 512) by (pose proof small_facts as (F3 & _); lra). assert (ET : eta <= / 1024 * B (-100)). { replace (/ 1024) with (B (-10)) by reflexivity. rewrite <- bpow_plus. apply bpow_le. lia. }
  apply Rle_trans with (8 / 7 * ((2 * t + eps) * X + q / S) * (513 / 512) + X * u + eta).
  { apply Rplus_le_compat_r, Rplus_le_compat_r, Rmult_le_compat_l; [|exact UL]. apply Rmult_le_pos; [lra|]. rewrite Rmult_plus_distr_r, Rmult_assoc. lra. }
  replace ((4 * d + 4) * eps * X) with (4 * (t * X) + 4 * (eps * X)) by (unfold t; ring). assert (Xu : X * u = eps * X / 2) by (rewrite EU; field). rewrite Xu, Rmult_plus_distr_r, Rmult_assoc. lra.
Qed.
