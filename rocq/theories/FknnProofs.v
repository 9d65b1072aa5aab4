(** Proofs for C98. *)
From Coq Require Import ZArith Reals Lra Lia List Bool.
Require Import Flocq.Core.Core Flocq.IEEE754.BinarySingleNaN.
From Verif Require Import Base ProcFloat InterpFloatProofs MeshFloatModel MeshFloatProofs FredModel FredSpec FredProofs FredProofs2 NfltProofs FknnModel FknnSpec.
Import ListNotations. Local Open Scope list_scope. Local Open Scope R_scope.

(** ** Order of nonnegative doubles, infinity included *)
Definition below (x y : b64) : Prop := nneg x /\ nneg y /\ (y = inf64 \/ (fin x = true /\ fin y = true /\ val x <= val y)).
Lemma nneg_nonneg x : nonneg x -> nneg x. Proof. intros H. left. exact H. Qed.
Lemma below_fin x y : nonneg x -> nonneg y -> val x <= val y -> below x y.
Proof. intros Hx Hy L. split; [apply nneg_nonneg, Hx|]. split; [apply nneg_nonneg, Hy|]. right. destruct Hx, Hy. auto. Qed.
Lemma below_add x x' y y' : below x y -> below x' y' -> below (add64 x x') (add64 y y').
Proof.
  intros (Nx & Ny & H) (Nx' & Ny' & H'). destruct (nneg_add x x' Nx Nx') as [N1 _]. destruct (nneg_add y y' Ny Ny') as [N2 [E|(Fy & Fy' & Fs & Vs)]].
  - split; [exact N1|]. split; [exact N2|]. left. exact E.
  - destruct H as [E|(Fx & _ & L)]; [rewrite E in Fy; discriminate|]. destruct H' as [E|(Fx' & _ & L')]; [rewrite E in Fy'; discriminate|].
    split; [exact N1|]. split; [exact N2|]. right.
    assert (Px : 0 <= val x) by (destruct Nx as [[_ P]|E]; [exact P|rewrite E in Fx; discriminate]). assert (Px' : 0 <= val x') by (destruct Nx' as [[_ P]|E]; [exact P|rewrite E in Fx'; discriminate]).
    assert (R : rnd64 (val x + val x') <= rnd64 (val y + val y')) by (apply rnd64_le; lra). assert (R0 : 0 <= rnd64 (val x + val x')) by (apply rnd64_pos; lra).
    destruct (add64_ok x x' (add64 y y') Fx Fx' Fs) as [F V]; [rewrite Vs, !Rabs_right by lra; exact R|]. rewrite V, Vs. auto.
Qed.
Lemma below_refl x : nneg x -> below x x.
Proof. intros N. split; [exact N|]. split; [exact N|]. destruct N as [[F _]|E]; [right; split; [exact F|split; [exact F|lra]]|left; exact E]. Qed.
Lemma zero_nneg : nneg zero64. Proof. left. destruct zero64_facts as [F V]. split; [exact F|]. rewrite V. lra. Qed.
Lemma below_up l l' : Forall2 below l l' -> forall s s', below s s' -> below (add_up s l) (add_up s' l').
Proof. unfold add_up. induction 1 as [|x y l l' H _ IH]; intros s s' B; cbn [fold_left]; [exact B|]. apply IH. apply below_add; assumption. Qed.
Lemma F2_combine {A B C D} (R : A -> C -> Prop) (S : B -> D -> Prop) l l' m m' : Forall2 R l l' -> Forall2 S m m' -> Forall2 (fun p q => R (fst p) (fst q) /\ S (snd p) (snd q)) (combine l m) (combine l' m').
Proof. intros H. revert m m'. induction H as [|x y l l' H _ IH]; intros m m' K; [constructor|]. destruct K as [|a b m m' K Ks]; cbn [combine]; constructor; [split; assumption|apply IH, Ks]. Qed.
Lemma F2_map {A B C D} (f : A -> C) (g : B -> D) (R : C -> D -> Prop) l l' : Forall2 (fun a b => R (f a) (g b)) l l' -> Forall2 R (map f l) (map g l').
Proof. induction 1; constructor; assumption. Qed.
Lemma F2_imp {A B} (R S : A -> B -> Prop) l l' : (forall a b, R a b -> S a b) -> Forall2 R l l' -> Forall2 S l l'.
Proof. intros H. induction 1; constructor; auto. Qed.
Lemma F2_len {A B} (R : A -> B -> Prop) l l' : Forall2 R l l' -> length l = length l'.
Proof. induction 1; cbn; congruence. Qed.
Lemma F2_firstn {A B} (R : A -> B -> Prop) n l l' : Forall2 R l l' -> Forall2 R (firstn n l) (firstn n l').
Proof. intros H. revert n. induction H; intros [|n]; cbn; constructor; auto. Qed.
Lemma F2_skipn {A B} (R : A -> B -> Prop) n l l' : Forall2 R l l' -> Forall2 R (skipn n l) (skipn n l').
Proof. intros H. revert n. induction H as [|a b l l' H F IH]; intros [|n]; cbn; try constructor; auto. Qed.
Lemma below_row acc acc' row row' : Forall2 below acc acc' -> Forall2 below row row' -> Forall2 below (add_row acc row) (add_row acc' row').
Proof. intros H K. unfold add_row. apply F2_map. eapply F2_imp; [|apply (F2_combine _ _ _ _ _ _ H K)]. intros [a b] [c d] [P Q]. apply below_add; assumption. Qed.
Lemma below_rows k : forall acc acc' l l', Forall2 below acc acc' -> Forall2 below l l' ->
  Forall2 below (fst (add_rows k acc l)) (fst (add_rows k acc' l')) /\ Forall2 below (snd (add_rows k acc l)) (snd (add_rows k acc' l')).
Proof. induction k as [|k IH]; intros acc acc' l l' H K; cbn [add_rows]; [split; assumption|]. apply IH; [apply below_row; [exact H|apply F2_firstn, K]|apply F2_skipn, K]. Qed.
Lemma below_nth i l l' : Forall2 below l l' -> below (nth i l zero64) (nth i l' zero64).
Proof. intros H. revert i. induction H as [|x y l l' H _ IH]; intros [|i]; cbn [nth]; try (apply below_refl, zero_nneg); [exact H|apply IH]. Qed.
Lemma below_block l l' : Forall2 below l l' -> below (add_block l) (add_block l').
Proof.
  intros H. unfold add_block. rewrite <- (F2_len _ _ _ H). pose proof (below_rows (length l / 8 - 1) _ _ _ _ (F2_firstn _ 8 _ _ H) (F2_skipn _ 8 _ _ H)) as [A R].
  destruct (add_rows (length l / 8 - 1) (firstn 8 l) (skipn 8 l)) as [acc rest]. destruct (add_rows (length l / 8 - 1) (firstn 8 l') (skipn 8 l')) as [acc' rest']. cbn [fst snd] in A, R.
  apply below_up; [exact R|]. unfold add_eight. repeat apply below_add; apply below_nth; exact A.
Qed.
Lemma below_pairwise fuel : forall l l', Forall2 below l l' -> below (pairwise fuel l) (pairwise fuel l').
Proof.
  induction fuel as [|fuel IH]; intros l l' H; cbn [pairwise]; rewrite <- (F2_len _ _ _ H).
  - destruct (Nat.ltb (length l) 8); [apply below_up; [exact H|apply below_refl, zero_nneg]|]. destruct (Nat.leb (length l) 128); [apply below_block, H|apply below_refl, zero_nneg].
  - destruct (Nat.ltb (length l) 8); [apply below_up; [exact H|apply below_refl, zero_nneg]|]. destruct (Nat.leb (length l) 128); [apply below_block, H|].
    apply below_add; apply IH; [apply F2_firstn, H|apply F2_skipn, H].
Qed.
Lemma below_sum l l' : Forall2 below l l' -> below (np_sum l) (np_sum l').
Proof. intros H. unfold np_sum. rewrite <- (F2_len _ _ _ H). apply below_add; [apply below_refl, zero_nneg|apply below_pairwise, H]. Qed.

(** ** Products *)
Lemma pos_sign (x : b64) : fin x = true -> 0 < val x -> Bsign x = false.
Proof.
  destruct x as [s|s| |[] m e h]; try discriminate; intros _ P; try reflexivity; [change (val (B754_zero s)) with 0 in P; lra|].
  exfalso. apply (Rlt_not_le _ _ (F2R_lt_0 radix2 (Float radix2 (Zneg m) e) ltac:(reflexivity))). left. exact P.
Qed.
Lemma nneg_mul x a : nonneg x -> nonneg a -> mul64 x a = inf64 \/ (fin (mul64 x a) = true /\ val (mul64 x a) = rnd64 (val x * val a) /\ 0 <= val (mul64 x a)).
Proof.
  intros [Fx Px] [Fa Pa]. pose proof (@Bmult_correct 53 1024 p53 pe53 mode_NE x a) as C. fold (mul64 x a) in C. cbn [round_mode] in C. fold (val x) (val a) in C.
  assert (P0 : 0 <= val x * val a) by (apply Rmult_le_pos; assumption).
  destruct (Rlt_bool_spec (Rabs (rnd64 (val x * val a))) (bpow radix2 1024)) as [L|L].
  - destruct C as (V & F & _). right. change (fin (mul64 x a) = (fin x && fin a)%bool) in F. rewrite Fx, Fa in F. split; [exact F|]. change (val (mul64 x a) = rnd64 (val x * val a)) in V. split; [exact V|]. rewrite V. apply rnd64_pos. exact P0.
  - left. assert (N : val x * val a <> 0) by (intros E; rewrite E, rnd64_0, Rabs_R0 in L; pose proof (bpow_gt_0 radix2 1024); lra).
    assert (Nx : val x <> 0) by (intros E; apply N; rewrite E; ring). assert (Na : val a <> 0) by (intros E; apply N; rewrite E; ring).
    rewrite (pos_sign x Fx) in C by lra. rewrite (pos_sign a Fa) in C by lra. apply B2SF_inj. exact C.
Qed.
Lemma below_mul x y a : nonneg x -> nonneg y -> nonneg a -> val x <= val y -> below (mul64 x a) (mul64 y a).
Proof.
  intros Hx Hy Ha L. assert (M : val x * val a <= val y * val a) by (apply Rmult_le_compat_r; [exact (proj2 Ha)|exact L]).
  assert (M0 : 0 <= val x * val a) by (apply Rmult_le_pos; [exact (proj2 Hx)|exact (proj2 Ha)]).
  assert (Nm : forall z, nonneg z -> nneg (mul64 z a)) by (intros z Hz; destruct (nneg_mul z a Hz Ha) as [E|(F & _ & P)]; [right; exact E|left; auto]).
  split; [apply Nm, Hx|]. split; [apply Nm, Hy|]. destruct (nneg_mul y a Hy Ha) as [E|(Fy & Vy & Py)]; [left; exact E|]. right.
  assert (R : rnd64 (val x * val a) <= rnd64 (val y * val a)) by (apply rnd64_le; exact M).
  destruct (nneg_mul x a Hx Ha) as [E|(Fx & Vx & _)]; [exfalso|split; [exact Fx|split; [exact Fy|lra]]].
  pose proof (@Bmult_correct 53 1024 p53 pe53 mode_NE x a) as C. fold (mul64 x a) in C. cbn [round_mode] in C. fold (val x) (val a) in C. rewrite Rlt_bool_true in C.
  - destruct C as (_ & F & _). change (fin (mul64 x a) = (fin x && fin a)%bool) in F. rewrite (proj1 Hx), (proj1 Ha), E in F. discriminate F.
  - pose proof (@abs_B2R_lt_emax 53 1024 (mul64 y a)) as B. fold (val (mul64 y a)) in B. rewrite Rabs_right in B by lra. assert (0 <= rnd64 (val x * val a)) by (apply rnd64_pos; exact M0). rewrite Rabs_right by lra. lra.
Qed.
Lemma of_bool_val b : fin (of_bool64 b) = true /\ val (of_bool64 b) = if b then 1 else 0.
Proof. unfold of_bool64. destruct b; [destruct (of_Z64_exact 1 ltac:(lia))|destruct (of_Z64_exact 0 ltac:(lia))]; auto. Qed.
Lemma times_bool w b : nonneg w -> nonneg (mul64 w (of_bool64 b)) /\ val (mul64 w (of_bool64 b)) = if b then val w else 0.
Proof.
  intros Hw. destruct (of_bool_val b) as [Fb Vb]. assert (Hb : nonneg (of_bool64 b)) by (split; [exact Fb|rewrite Vb; destruct b; lra]).
  assert (Q : rnd64 (val w * val (of_bool64 b)) = if b then val w else 0) by (rewrite Vb; destruct b; [rewrite Rmult_1_r; apply rnd64_val|rewrite Rmult_0_r; apply rnd64_0]).
  destruct (nneg_mul w (of_bool64 b) Hw Hb) as [E|(F & V & P)]; [exfalso|rewrite Q in V; split; [split; assumption|exact V]].
  pose proof (@Bmult_correct 53 1024 p53 pe53 mode_NE w (of_bool64 b)) as C. fold (mul64 w (of_bool64 b)) in C. cbn [round_mode] in C. fold (val w) (val (of_bool64 b)) in C. rewrite Q in C. rewrite Rlt_bool_true in C.
  - destruct C as (_ & F & _). change (fin (mul64 w (of_bool64 b)) = (fin w && fin (of_bool64 b))%bool) in F. rewrite (proj1 Hw), Fb, E in F. discriminate F.
  - destruct b; [apply abs_B2R_lt_emax|rewrite Rabs_R0; apply bpow_gt_0].
Qed.
Lemma bool_times w b : nonneg w -> nonneg (mul64 (of_bool64 b) w) /\ val (mul64 (of_bool64 b) w) = if b then val w else 0.
Proof.
  intros Hw. assert (C : forall x y : b64, fin x = true -> fin y = true -> 0 <= val x -> 0 <= val y -> nonneg (mul64 y x) -> nonneg (mul64 x y) /\ val (mul64 x y) = val (mul64 y x)).
  { intros x y Fx Fy Px Py (F & P). pose proof (nneg_mul x y (conj Fx Px) (conj Fy Py)) as [E|(F' & V & P')].
    - exfalso. destruct (nneg_mul y x (conj Fy Py) (conj Fx Px)) as [E'|(_ & V & _)]; [rewrite E' in F; discriminate|].
      pose proof (@Bmult_correct 53 1024 p53 pe53 mode_NE x y) as C. fold (mul64 x y) in C. cbn [round_mode] in C. fold (val x) (val y) in C. rewrite Rmult_comm, <- V in C. rewrite Rlt_bool_true in C by apply abs_B2R_lt_emax.
      destruct C as (_ & F' & _). change (fin (mul64 x y) = (fin x && fin y)%bool) in F'. rewrite Fx, Fy, E in F'. discriminate F'.
    - split; [split; assumption|]. rewrite V. destruct (nneg_mul y x (conj Fy Py) (conj Fx Px)) as [E'|(_ & V' & _)]; [rewrite E' in F; discriminate|]. rewrite V', Rmult_comm. reflexivity. }
  destruct (of_bool_val b) as [Fb Vb]. destruct (times_bool w b Hw) as [N V]. destruct (C (of_bool64 b) w Fb (proj1 Hw) ltac:(rewrite Vb; destruct b; lra) (proj2 Hw) N) as [N' V']. split; [exact N'|]. rewrite V'. exact V.
Qed.

(** ** Sums over neighbours *)
Definition leq (a b : b64) : Prop := nonneg a /\ nonneg b /\ val a <= val b.
Lemma zero_nonneg : nonneg zero64. Proof. destruct zero64_facts as [F V]. split; [exact F|]. rewrite V. lra. Qed.
Lemma nth_leq y y' i : Forall2 leq y y' -> leq (nth i y zero64) (nth i y' zero64).
Proof.
  assert (Z : leq zero64 zero64) by (split; [exact zero_nonneg|split; [exact zero_nonneg|lra]]).
  intros H. revert i. induction H as [|a b y y' H _ IH]; intros [|i]; cbn [nth]; [exact Z|exact Z|exact H|apply IH].
Qed.
Lemma pick_leq y y' nb : Forall2 leq y y' -> Forall2 leq (pick y nb) (pick y' nb).
Proof. intros H. unfold pick. induction nb as [|[d i] nb IH]; cbn [map snd]; [constructor|]. constructor; [apply nth_leq, H|exact IH]. Qed.
Lemma times_leq x x' f : Forall2 leq x x' -> Forall nonneg f -> Forall2 below (times x f) (times x' f).
Proof.
  intros H. revert f. unfold times. induction H as [|a b x x' (Ha & Hb & L) _ IH]; intros f Hf; [constructor|]. destruct Hf as [|c f Hc Hf]; cbn [combine map]; constructor; [|apply IH, Hf].
  cbn [fst snd]. apply below_mul; assumption.
Qed.
Lemma times_bools w m : Forall nonneg w -> Forall nonneg (times w (map of_bool64 m)).
Proof.
  intros H. revert m. unfold times. induction H as [|a w Ha _ IH]; intros [|b m]; cbn [map combine]; try constructor; [|apply IH]. cbn [fst snd]. apply times_bool, Ha.
Qed.
Lemma bools_nonneg m : Forall nonneg (map of_bool64 m).
Proof. apply Forall_forall. intros x H. apply in_map_iff in H. destruct H as (b & <- & _). destruct (of_bool_val b) as [F V]. split; [exact F|]. rewrite V. destruct b; lra. Qed.
Lemma leq_below x y : leq x y -> below x y. Proof. intros (A & B & L). apply below_fin; assumption. Qed.
Lemma sum_leq x x' w m : Forall2 leq x x' -> (forall w', w = Some w' -> Forall nonneg w') -> below (f_sum np_sum x w m) (f_sum np_sum x' w m).
Proof.
  intros H W. unfold f_sum. apply below_sum. destruct w as [w|], m as [m|].
  - apply times_leq; [exact H|]. apply times_bools, W. reflexivity.
  - apply times_leq; [exact H|]. apply W. reflexivity.
  - apply times_leq; [exact H|]. apply bools_nonneg.
  - eapply F2_imp; [|exact H]. intros a b. apply leq_below.
Qed.
Lemma kernel_weights K nb w : kernel_ok K nb -> row_weight None K nb = Some w -> Forall nonneg w.
Proof.
  intros H E. unfold row_weight in E. destruct K as [k|]; cbn in E; [|discriminate]. injection E as <-. specialize (H k eq_refl). apply Forall_forall. intros x Hx. apply in_map_iff in Hx. destruct Hx as (p & <- & Hp).
  rewrite Forall_forall in H. exact (H p Hp).
Qed.
Lemma knn_leq y y' K r nb : Forall2 leq y y' -> kernel_ok K nb -> below (knn_sum y None K r nb) (knn_sum y' None K r nb).
Proof. intros H HK. unfold knn_sum. apply sum_leq; [apply pick_leq, H|]. intros w E. exact (kernel_weights K nb w HK E). Qed.

(** ** The fraction *)
Lemma masked_leq m m' w : Forall nonneg w -> Forall2 (fun a b : bool => a = true -> b = true) m m' -> length m = length w -> Forall2 leq (masked_weight m w) (masked_weight m' w).
Proof.
  intros H M. revert w H. unfold masked_weight, times. induction M as [|a b m m' Hab _ IH]; intros w H L; [constructor|]. destruct H as [|v w Hv Hw]; [discriminate|]. cbn [map combine]. constructor; [|apply IH; [exact Hw|cbn in L; congruence]].
  cbn [fst snd]. destruct (bool_times v a Hv) as [Na Va]. destruct (bool_times v b Hv) as [Nb Vb]. split; [exact Na|]. split; [exact Nb|]. rewrite Va, Vb. destruct Hv as [_ P]. destruct a; [rewrite Hab by reflexivity; lra|destruct b; lra].
Qed.
Lemma masked_weight_leq m w : Forall nonneg w -> length m = length w -> Forall2 leq (masked_weight m w) w.
Proof.
  intros H. revert m. unfold masked_weight, times. induction H as [|v w Hv _ IH]; intros [|b m] L; try discriminate; [constructor|]. cbn [map combine]. constructor; [|apply IH; cbn in L; congruence].
  cbn [fst snd]. destruct (bool_times v b Hv) as [N V]. split; [exact N|]. split; [exact Hv|]. rewrite V. destruct Hv. destruct b; lra.
Qed.
Lemma floor64_facts : fin floor64 = true /\ 0 < val floor64 <= / 9999999999.
Proof.
  replace floor64 with (@B754_finite 53 1024 false 7737125245533627 (-86) eq_refl : b64) by (apply B2SF_inj; vm_compute; reflexivity).
  split; [reflexivity|]. unfold val. cbn [B2R cond_Zopp]. unfold F2R. cbn [Fnum Fexp]. change (bpow radix2 (-86)) with (/ 77371252455336267181195264). split; [|].
  - apply Rmult_lt_0_compat; lra.
  - lra.
Qed.
Lemma clip_facts w : nonneg w -> fin (clip_low w) = true /\ 0 < val (clip_low w) /\ val w <= val (clip_low w) /\ (val floor64 <= val w -> clip_low w = w).
Proof.
  intros [F P]. destruct floor64_facts as (Ff & Pf & _). unfold clip_low. rewrite (Bltb_correct 53 1024 w floor64 F Ff). fold (val w) (val floor64).
  destruct (Rlt_bool_spec (val w) (val floor64)); [repeat split; try assumption; try lra; intros; exfalso; lra|repeat split; try assumption; lra].
Qed.
Lemma quotient_unit a c : nonneg a -> fin c = true -> 0 < val c -> val a <= val c -> fin (div64 a c) = true /\ val (div64 a c) = rnd64 (val a / val c) /\ 0 <= val (div64 a c) <= 1.
Proof.
  intros [Fa Pa] Fc Pc L. assert (Q : 0 <= val a / val c <= 1).
  { split; [apply Rmult_le_pos; [exact Pa|left; apply Rinv_0_lt_compat; exact Pc]|]. apply Rmult_le_reg_r with (val c); [exact Pc|]. unfold Rdiv. rewrite Rmult_assoc, Rinv_l by lra. lra. }
  destruct (div64_b a c Fa) as [F V]; [lra|rewrite Rabs_right by lra; apply Rle_trans with (B 0); [cbn; lra|apply bpow_le; lia]|]. split; [exact F|]. split; [exact V|]. rewrite V.
  split; [apply rnd64_pos; lra|]. pose proof (format_int 1 0 ltac:(lia) ltac:(lia)) as K. change (B 0) with 1 in K. rewrite Rmult_1_r in K. rewrite <- K. apply rnd64_le. lra.
Qed.
Lemma sums_zero d l s : sums d l s -> Forall (fun x => fin x = true /\ val x = 0) l -> fin s = true /\ val s = 0.
Proof.
  induction 1 as [z F V|x|d l s l' s' _ IH _ IH'|d l l' s _ IH P|d d' l s _ IH _]; intros H.
  - auto.
  - inversion H; assumption.
  - apply Forall_app in H. destruct H as [H H']. destruct (IH H) as [F V]. destruct (IH' H') as [F' V']. destruct (add64_b s s' F F') as [Fs Vs]; [rewrite V, V', Rplus_0_r, Rabs_R0; apply bpow_ge_0|].
    rewrite V, V', Rplus_0_r, rnd64_0 in Vs. auto.
  - apply IH. eapply Permutation.Permutation_Forall; [apply Permutation.Permutation_sym; exact P|exact H].
  - apply IH, H.
Qed.
Lemma times_zero_list x f : Forall (fun v => fin v = true /\ val v = 0) x -> Forall nonneg f -> Forall (fun v => fin v = true /\ val v = 0) (times x f).
Proof.
  intros H. revert f. unfold times. induction H as [|a x [Fa Va] _ IH]; intros f Hf; [constructor|]. destruct Hf as [|c f Hc Hf]; cbn [combine map]; constructor; [|apply IH, Hf]. cbn [fst snd].
  destruct (mul64_b a c Fa (proj1 Hc)) as [F V]; [rewrite Va, Rmult_0_l, Rabs_R0; apply bpow_ge_0|]. rewrite Va, Rmult_0_l, rnd64_0 in V. auto.
Qed.
Lemma knn_zero y K r nb : Forall (fun v => fin v = true /\ val v = 0) y -> kernel_ok K nb -> fin (knn_sum y None K r nb) = true /\ val (knn_sum y None K r nb) = 0.
Proof.
  intros H HK. assert (P : Forall (fun v => fin v = true /\ val v = 0) (pick y nb)).
  { apply Forall_forall. intros v Hv. apply in_map_iff in Hv. destruct Hv as ([d i] & <- & _). cbn [snd]. destruct (nth_in_or_default i y zero64) as [I|E]; [rewrite Forall_forall in H; exact (H _ I)|rewrite E; exact zero64_facts]. }
  unfold knn_sum, f_sum. eapply (sums_zero _ _ _ (np_sum_adds _)). destruct (row_weight None K nb) as [w|] eqn:Ew, (row_mask r nb) as [m|].
  - apply times_zero_list; [exact P|]. apply times_bools. exact (kernel_weights K nb w HK Ew).
  - apply times_zero_list; [exact P|]. exact (kernel_weights K nb w HK Ew).
  - apply times_zero_list; [exact P|apply bools_nonneg].
  - exact P.
Qed.
Lemma training_nonneg n weight : (forall w, weight = Some w -> Forall nonneg w /\ length w = n) -> Forall nonneg (training_weight n weight) /\ length (training_weight n weight) = n.
Proof.
  intros H. destruct weight as [w|]; [exact (H w eq_refl)|]. cbn [training_weight]. split; [|apply repeat_length]. apply Forall_forall. intros x Hx. apply repeat_spec in Hx. subst x.
  destruct (of_Z64_exact 1 ltac:(lia)) as [V F]. split; [exact F|]. rewrite V. lra.
Qed.
