From Coq Require Import QArith Permutation Reals Lra.
From Verif Require Import Base OrderSpec BinModel BinProofs InterpModel InterpProofs ReduModel ReduProofs3 PrepModel.
Local Open Scope list_scope. Local Open Scope R_scope.

Lemma zip3_nth f : forall x m s i a b c, nth_error x i = Some a -> nth_error m i = Some b -> nth_error s i = Some c ->
  nth_error (zip3 f x m s) i = Some (f a b c).
Proof.
  unfold zip3. induction x as [|x0 x IH]; intros [|m0 m] [|s0 s] [|i] a b c Ha Hb Hc; cbn [nth_error combine map] in *; try discriminate; [congruence|eauto].
Qed.
Lemma zip3_len f x m s : length m = length x -> length s = length x -> length (zip3 f x m s) = length x.
Proof. intros H H'. unfold zip3. rewrite map_length, !combine_length. lia. Qed.
Lemma list_ext {A} : forall (l l' : list A), length l = length l' -> (forall i a b, nth_error l i = Some a -> nth_error l' i = Some b -> a = b) -> l = l'.
Proof.
  induction l as [|x l IH]; intros [|y l'] H N; cbn in H; try discriminate; [reflexivity|]. f_equal; [apply (N 0%nat); reflexivity|].
  apply IH; [congruence|]. intros i. apply (N (S i)).
Qed.
Lemma back_forw t x : length x = length (s_mean t) -> length (s_sd t) = length (s_mean t) -> Forall (fun s => s <> 0) (s_sd t) -> backward t (forward t x) = x /\ forward t (backward t x) = x.
Proof.
  intros Hx Hs Hn. unfold backward, forward.
  assert (G : forall f g, (forall x m s, s <> 0 -> g (f x m s) m s = x) -> zip3 g (zip3 f x (s_mean t) (s_sd t)) (s_mean t) (s_sd t) = x).
  { intros f g Hfg. assert (Lf : length (zip3 f x (s_mean t) (s_sd t)) = length x) by (apply zip3_len; congruence).
    apply list_ext; [rewrite zip3_len; congruence|]. intros i a b Ha Hb.
    assert (Li : (i < length x)%nat) by (apply nth_error_Some; congruence).
    destruct (nth_error (s_mean t) i) as [m|] eqn:Em; [|apply nth_error_None in Em; lia].
    destruct (nth_error (s_sd t) i) as [s|] eqn:Es; [|apply nth_error_None in Es; lia].
    pose proof (zip3_nth f _ _ _ _ _ _ _ Hb Em Es) as Hf. rewrite (zip3_nth g _ _ _ _ _ _ _ Hf Em Es) in Ha. injection Ha as <-. apply Hfg.
    rewrite Forall_forall in Hn. apply Hn. eapply nth_error_In; eassumption. }
  split; apply G; intros; field; assumption.
Qed.

(** ** Moments of an affinely transformed sample *)
Lemma Rsum_affine a b l : Rsum (map (fun x => a * x + b) l) = a * Rsum l + b * INR (length l).
Proof. induction l as [|x l IH]; cbn [map Rsum length]; [cbn; ring|]. rewrite IH, S_INR. ring. Qed.
Lemma INR_len_pos {A} (l : list A) : l <> [] -> 0 < INR (length l).
Proof. intros H. apply lt_0_INR. destruct l; [congruence|cbn; lia]. Qed.
Lemma rmean_affine a b l : l <> [] -> rmean (map (fun x => a * x + b) l) = a * rmean l + b.
Proof. intros H. unfold rmean. rewrite Rsum_affine, map_length. pose proof (INR_len_pos l H). field. lra. Qed.
Definition rvar (l : list R) : R := rmean (map (fun a => (a - rmean l) * (a - rmean l)) l).
Lemma rvar_affine a b l : l <> [] -> rvar (map (fun x => a * x + b) l) = a * a * rvar l.
Proof.
  intros H. unfold rvar. rewrite rmean_affine by assumption. rewrite map_map.
  rewrite (map_ext _ (fun x => (a * a) * ((x - rmean l) * (x - rmean l)) + 0)) by (intros; ring).
  rewrite <- (map_map (fun x => (x - rmean l) * (x - rmean l)) (fun y => (a * a) * y + 0)). rewrite rmean_affine; [ring|]. destruct l; [congruence|discriminate].
Qed.
Lemma rvar_nonneg l : 0 <= rvar l.
Proof.
  unfold rvar, rmean at 1. set (f := map (fun a => (a - rmean l) * (a - rmean l)) l).
  assert (F : 0 <= Rsum f). { unfold f. generalize (rmean l). intros m. clear f. induction l as [|x l IH]; cbn [map Rsum]; [lra|]. pose proof (Rle_0_sqr (x - m)). unfold Rsqr in *. lra. }
  destruct (length f) as [|k] eqn:E; [destruct f; [cbn; unfold Rdiv; rewrite Rmult_0_l; lra|discriminate]|]. apply Rmult_le_pos; [assumption|]. left. apply Rinv_0_lt_compat, lt_0_INR. lia.
Qed.
Lemma rstd_eq l : rstd l = sqrt (rvar l). Proof. reflexivity. Qed.

Local Open Scope nat_scope.
From Coq Require Import Lqa.
(** ** Piecewise linear inverse *)
Lemma last_nth {A} (l : list A) : l <> [] -> exists a, nth_error l (length l - 1) = Some a.
Proof. intros H. destruct (nth_error l (length l - 1)) eqn:E; [eauto|]. apply nth_error_None in E. destruct l; [congruence|cbn in E; lia]. Qed.
Lemma interp_inverse xs ys q v x0 xn y0 yn : increasing Qltb xs -> increasing Qltb ys -> length ys = length xs ->
  nth_error xs 0 = Some x0 -> nth_error xs (length xs - 1) = Some xn -> nth_error ys 0 = Some y0 -> nth_error ys (length ys - 1) = Some yn ->
  (x0 <= q)%Q -> (q <= xn)%Q -> bisearch_interp xs ys q = Ok v -> (y0 <= v)%Q /\ (v <= yn)%Q /\ exists u, bisearch_interp ys xs v = Ok u /\ (u == q)%Q.
Proof.
  intros Hx Hy Hl X0 Xn Y0 Yn Q0 Qn E.
  pose proof (increasing_ascending _ _ Q_weak_order Hx) as Ax. pose proof (increasing_ascending _ _ Q_weak_order Hy) as Ay.
  assert (Nx : xs <> []) by (intros ->; discriminate). assert (Ny : ys <> []) by (intros ->; discriminate).
  assert (M : forall l, increasing Qltb l -> forall i j a b, (i < j) -> nth_error l i = Some a -> nth_error l j = Some b -> (a < b)%Q)
    by (intros l H i j a b L Ha Hb; apply Qltb_lt; apply (H i j a b L Ha Hb)).
  assert (M' : forall l, increasing Qltb l -> forall i j a b, (i <= j) -> nth_error l i = Some a -> nth_error l j = Some b -> (a <= b)%Q).
  { intros l H i j a b L Ha Hb. destruct (Nat.eq_dec i j) as [->|N]; [assert (a = b) by congruence; subst; lra|]. apply Qlt_le_weak. apply (M l H i j); [lia|assumption|assumption]. }
  destruct (interp_cases xs ys q Ax Nx Hl) as (v' & E' & Hc). assert (v' = v) by congruence. subst v'.
  destruct Hc as [(x0' & y0' & Hx0' & Hy0' & Hq & Hv)|[(xn' & yn' & Hxn' & Hyn' & Hq & Hv)|(i & xl & xr & yl & yr & Hil & Hir & Hyl & Hyr & L1 & L2 & Hv)]].
  - assert (x0' = x0) by congruence. subst. lra.
  - assert (xn' = xn) by congruence. assert (yn' = yn) by congruence. subst.
    assert ((y0 <= yn)%Q) by (apply (M' ys Hy 0 (length ys - 1)); [lia|assumption|assumption]). split; [lra|]. split; [lra|].
    destruct (interp_cases ys xs v Ay Ny ltac:(congruence)) as (u & Eu & Hc). exists u. split; [assumption|].
    destruct Hc as [(a & b & Ha & Hb & Hq' & Hu)|[(a & b & Ha & Hb & Hq' & Hu)|(j & a & b & c & e & Ha & Hb & Hc & He & M1 & M2 & Hu)]].
    + assert (a = y0) by congruence. subst. lra.
    + rewrite Hl in Hb. assert (b = xn) by congruence. subst. lra.
    + assert ((b <= yn)%Q). { apply (M' ys Hy (S j) (length ys - 1)); [|assumption|assumption]. assert (S j < length ys) by (apply nth_error_Some; congruence). lia. }
      lra.
  - assert (XL : (xl < xr)%Q) by (apply (M xs Hx i (S i)); [lia|assumption|assumption]). assert (YL : (yl < yr)%Q) by (apply (M ys Hy i (S i)); [lia|assumption|assumption]).
    set (t := ((q - xl) / (xr - xl))%Q). assert (T0 : (0 <= t)%Q) by (unfold t; apply Qle_shift_div_l; lra). assert (T1 : (t < 1)%Q) by (unfold t; apply Qlt_shift_div_r; lra).
    assert (Hv' : (v == yl + (yr - yl) * t)%Q) by (rewrite Hv; unfold t; field; lra).
    assert (V1 : (yl <= v)%Q) by nra. assert (V2 : (v < yr)%Q) by nra.
    assert ((y0 <= yl)%Q) by (apply (M' ys Hy 0 i); [lia|assumption|assumption]).
    assert ((yr <= yn)%Q). { apply (M' ys Hy (S i) (length ys - 1)); [|assumption|assumption]. assert (S i < length ys) by (apply nth_error_Some; congruence). lia. }
    split; [lra|]. split; [lra|].
    destruct (interp_between ys xs v i yl yr xl xr Ay ltac:(congruence) Hyl Hyr Hil Hir V1 V2) as (u & Eu & Hu & _). exists u. split; [assumption|].
    rewrite Hu, Hv'. unfold t. field. split; lra.
Qed.

(** ** The transform *)
Lemma diffs_increasing l : forallb (fun d => Qltb 0 d) (diffs l) = true -> increasing Qltb l.
Proof.
  assert (G : forall l, forallb (fun d => Qltb 0 d) (diffs l) = true -> forall a, nth_error l 0 = Some a -> forall j b, 0 < j -> nth_error l j = Some b -> (a < b)%Q).
  { clear. induction l as [|a l IH]; [discriminate|]. intros H a' Ha j b Hj Hb. injection Ha as <-. destruct j as [|j]; [lia|]. cbn [nth_error] in Hb.
    destruct l as [|c l]; [destruct j; discriminate|]. cbn [diffs forallb] in H. apply andb_true_iff in H. destruct H as [H1 H2]. apply Qltb_lt in H1.
    destruct j as [|j]; [cbn [nth_error] in Hb; assert (b = c) by congruence; subst; lra|].
    assert ((c < b)%Q) by (apply (IH H2 c eq_refl (S j) b); [lia|exact Hb]). lra. }
  induction l as [|a l IH]; intros H i j x y L Hx Hy; [destruct i; discriminate|]. destruct i as [|i].
  - apply Qltb_lt. eapply (G (a :: l) H x Hx j y); [lia|assumption].
  - destruct j as [|j]; [lia|]. cbn [nth_error] in *. apply (IH) with (i := i) (j := j); [|lia|assumption|assumption].
    destruct l as [|c l]; [reflexivity|]. cbn [diffs forallb] in H. apply andb_true_iff in H. apply H.
Qed.
Lemma increasing_diffs : forall l, increasing Qltb l -> forallb (fun d => Qltb 0 d) (diffs l) = true.
Proof.
  induction l as [|a [|c l] IH]; intros H; try reflexivity. change (forallb (fun d => Qltb 0 d) (diffs (a :: c :: l))) with (Qltb 0 (c - a) && forallb (fun d => Qltb 0 d) (diffs (c :: l))). apply andb_true_iff. split.
  - assert (X := H 0 1 a c ltac:(lia) eq_refl eq_refl). apply Qltb_lt in X. apply Qltb_lt. lra.
  - apply IH. intros i j x y L Hx Hy. apply (H (S i) (S j) x y); [lia|assumption|assumption].
Qed.
Lemma diffs_nil l : diffs l = [] <-> length l <= 1.
Proof. destruct l as [|a [|b l]]; cbn; split; intros; try reflexivity; try lia; discriminate. Qed.

(** Nodes k/(n-1). *)
Definition fracs (n : nat) : list Q := map (fun i => (inject_Z (Z.of_nat i) / inject_Z (Z.of_nat (n - 1)))%Q) (seq 0 n).
Lemma fracs_len n : length (fracs n) = n. Proof. unfold fracs. rewrite map_length, seq_length. reflexivity. Qed.
Lemma fracs_nth n i : i < n -> nth_error (fracs n) i = Some (zq i / zq (n - 1))%Q.
Proof. intros H. unfold fracs. rewrite nth_error_map. rewrite nth_error_nth' with (d := 0) by (rewrite seq_length; assumption). rewrite seq_nth by assumption. reflexivity. Qed.
Lemma fracs_inc n : 1 < n -> increasing Qltb (fracs n).
Proof.
  intros Hn i j a b L Ha Hb. assert (i < n) by (rewrite <- (fracs_len n); apply nth_error_Some; congruence).
  assert (j < n) by (rewrite <- (fracs_len n); apply nth_error_Some; congruence). rewrite fracs_nth in Ha, Hb by assumption.
  injection Ha as <-. injection Hb as <-. apply Qltb_lt.
  assert (Z1 : (0 < zq (n - 1))%Q) by (unfold zq; change 0%Q with (inject_Z 0); rewrite <- Zlt_Qlt; lia).
  apply Qlt_shift_div_l; [assumption|]. setoid_replace (zq i / zq (n - 1) * zq (n - 1))%Q with (zq i) by (field; lra). apply zq_lt. assumption.
Qed.

(** ** Columns of a standardized table *)
From Coq Require Import Lra.
Local Open Scope R_scope.
Lemma std_init_ok c rows lb t : standardize_init (A2 c rows) lb = Ok t -> rows <> [] /\
  s_mean t = map (fun j => rmean (col rows j)) (seq 0 c) /\ s_sd t = map (fun j => Rmax (rstd (col rows j)) lb) (seq 0 c).
Proof. cbn [standardize_init]. destruct rows as [|r rows]; [discriminate|]. intros H. injection H as <-. split; [discriminate|]. split; reflexivity. Qed.
Lemma seq_map_nth {B} (f : nat -> B) c j : (j < c)%nat -> nth_error (map f (seq 0 c)) j = Some (f j).
Proof. intros H. rewrite nth_error_map. rewrite nth_error_nth' with (d := 0%nat) by (rewrite seq_length; assumption). rewrite seq_nth by assumption. reflexivity. Qed.
Lemma col_forward c rows lb t j : standardize_init (A2 c rows) lb = Ok t -> (j < c)%nat -> Forall (fun r => length r = c) rows ->
  col (standardize_call t rows false) j = map (fun x => (x - rmean (col rows j)) / Rmax (rstd (col rows j)) lb) (col rows j).
Proof.
  intros E Hj HF. destruct (std_init_ok _ _ _ _ E) as (_ & Em & Es). unfold col at 1 4, standardize_call. rewrite !map_map. apply map_ext_in. intros r Hr.
  rewrite Forall_forall in HF. pose proof (HF _ Hr) as Lr. cbn [negb].
  assert (Hx : nth_error r j = Some (nth j r 0)) by (apply nth_error_nth'; lia).
  pose proof (zip3_nth (fun x m s => (x - m) / s) _ _ _ _ _ _ _ Hx (seq_map_nth (fun j => rmean (col rows j)) c j Hj) (seq_map_nth (fun j => Rmax (rstd (col rows j)) lb) c j Hj)) as N.
  unfold forward. rewrite Em, Es. apply nth_error_nth with (d := 0) in N. exact N.
Qed.
Lemma std_col_moments c rows lb t j : 0 < lb -> standardize_init (A2 c rows) lb = Ok t -> (j < c)%nat -> Forall (fun r => length r = c) rows ->
  rmean (col (standardize_call t rows false) j) = 0 /\
  rstd (col (standardize_call t rows false) j) = rstd (col rows j) / Rmax (rstd (col rows j)) lb.
Proof.
  intros Hlb E Hj HF. rewrite (col_forward _ _ _ _ _ E Hj HF). destruct (std_init_ok _ _ _ _ E) as (Hr & _).
  set (l := col rows j). assert (Hl : l <> []) by (unfold l, col; destruct rows; [congruence|discriminate]). set (m := rmean l). set (s := Rmax (rstd l) lb).
  assert (Hs : 0 < s) by (unfold s; eapply Rlt_le_trans; [exact Hlb|apply Rmax_r]).
  rewrite (map_ext _ (fun x => / s * x + (- m / s))) by (intros; field; lra). split.
  - rewrite rmean_affine by assumption. fold m. field. lra.
  - rewrite rstd_eq, rvar_affine by assumption. rewrite sqrt_mult_alt by (apply Rle_0_sqr). rewrite sqrt_square by (left; apply Rinv_0_lt_compat; assumption).
    rewrite <- rstd_eq. field. lra.
Qed.
Lemma rmean_const l a : l <> [] -> (forall x, In x l -> x = a) -> rmean l = a.
Proof.
  intros H HI. replace l with (map (fun x => 0 * x + a) l).
  - rewrite rmean_affine by assumption. ring.
  - rewrite <- (map_id l) at 2. apply map_ext_in. intros x Hx. rewrite (HI x Hx). ring.
Qed.
