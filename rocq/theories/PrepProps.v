(** C52: Standardize; C53: ProbTransToNorm. *)
From Coq Require Import QArith Permutation Reals Lra.
From Verif Require Import Base OrderSpec BinModel BinProofs InterpModel ReduModel ReduProofs3 PrepModel PrepProofs PrepProofs2.
Local Open Scope list_scope. Local Open Scope R_scope.

(** ** C52 *)
(** Only tables are accepted; each column then has its own mean, and its standard deviation raised to the floor. *)
Theorem C52_init x_train sd_lb : match x_train with
  | A1 _ => standardize_init x_train sd_lb = Err AssertionError
  | A2 c rows => rows <> [] -> exists t, standardize_init x_train sd_lb = Ok t /\ length (s_mean t) = c /\ length (s_sd t) = c /\
      forall j, (j < c)%nat -> nth j (s_mean t) 0 = rmean (col rows j) /\ nth j (s_sd t) 0 = Rmax (rstd (col rows j)) sd_lb
  end.
Proof.
  destruct x_train as [l|c rows]; [reflexivity|]. intros H. destruct rows as [|r rows]; [congruence|]. cbn [standardize_init]. eexists. split; [reflexivity|]. cbn [s_mean s_sd].
  rewrite !map_length, seq_length. split; [reflexivity|]. split; [reflexivity|]. intros j Hj. split; apply nth_error_nth; apply (seq_map_nth (fun j => _)); assumption.
Qed.
Print Assumptions C52_init.
(** For a positive floor, backward undoes forward and forward undoes backward, for every row (not only training rows), however
    small the spread of the training columns. *)
Theorem C52_round_trip c rows sd_lb t row : 0 < sd_lb -> standardize_init (A2 c rows) sd_lb = Ok t -> length row = c ->
  backward t (forward t row) = row /\ forward t (backward t row) = row.
Proof.
  intros Hl E Hr. destruct (std_init_ok _ _ _ _ E) as (_ & Em & Es). apply back_forw.
  - rewrite Em, map_length, seq_length. assumption.
  - rewrite Em, Es, !map_length. reflexivity.
  - rewrite Es. apply Forall_map, Forall_forall. intros j _. assert (sd_lb <= Rmax (rstd (col rows j)) sd_lb) by apply Rmax_r. lra.
Qed.
Print Assumptions C52_round_trip.
Theorem C52_round_trip_table c rows sd_lb t x : 0 < sd_lb -> standardize_init (A2 c rows) sd_lb = Ok t -> Forall (fun r => length r = c) x ->
  standardize_call t (standardize_call t x false) true = x /\ standardize_call t (standardize_call t x true) false = x.
Proof.
  intros Hl E Hx. unfold standardize_call. rewrite !map_map, Forall_forall in *. split; rewrite <- (map_id x) at 2; apply map_ext_in; intros r Hr;
    destruct (C52_round_trip _ _ _ _ r Hl E (Hx r Hr)); assumption.
Qed.
Print Assumptions C52_round_trip_table.
(** The standardized training table has mean zero in every column and standard deviation one in every column whose own
    standard deviation reaches the floor; below the floor it is the ratio to the floor, smaller than one. *)
Theorem C52_moments c rows sd_lb t j : 0 < sd_lb -> standardize_init (A2 c rows) sd_lb = Ok t -> (j < c)%nat -> Forall (fun r => length r = c) rows ->
  let out := col (standardize_call t rows false) j in
  rmean out = 0 /\ (sd_lb <= rstd (col rows j) -> rstd out = 1) /\ (rstd (col rows j) < sd_lb -> rstd out = rstd (col rows j) / sd_lb /\ rstd out < 1).
Proof.
  intros Hl E Hj HF out. destruct (std_col_moments _ _ _ _ _ Hl E Hj HF) as [M V]. fold out in M, V. split; [assumption|]. split.
  - intros H. rewrite V, Rmax_left by assumption. field. lra.
  - intros H. rewrite V, Rmax_right by lra. split; [reflexivity|]. apply (Rmult_lt_reg_r sd_lb); [assumption|]. unfold Rdiv. rewrite Rmult_assoc, Rinv_l, Rmult_1_r, Rmult_1_l by lra. assumption.
Qed.
Print Assumptions C52_moments.
(** A constant training column (spread zero) becomes a column of zeros instead of dividing by zero. *)
Theorem C52_constant_column c rows sd_lb t j a : 0 < sd_lb -> standardize_init (A2 c rows) sd_lb = Ok t -> (j < c)%nat -> Forall (fun r => length r = c) rows ->
  (forall x, In x (col rows j) -> x = a) -> forall y, In y (col (standardize_call t rows false) j) -> y = 0.
Proof.
  intros Hl E Hj HF HC y Hy. rewrite (col_forward _ _ _ _ _ E Hj HF) in Hy. apply in_map_iff in Hy. destruct Hy as (x & <- & Hx).
  assert (N : col rows j <> []) by (intros N; rewrite N in Hx; destruct Hx). rewrite (rmean_const _ a N HC), (HC x Hx). unfold Rdiv. ring.
Qed.
Print Assumptions C52_constant_column.
(** Order inside a column is kept. *)
Theorem C52_order c rows sd_lb t j x y : 0 < sd_lb -> standardize_init (A2 c rows) sd_lb = Ok t -> (j < c)%nat -> length x = c -> length y = c ->
  nth j x 0 < nth j y 0 -> nth j (forward t x) 0 < nth j (forward t y) 0.
Proof.
  intros Hl E Hj Hx Hy L. destruct (std_init_ok _ _ _ _ E) as (_ & Em & Es). unfold forward. rewrite Em, Es.
  set (m := fun j => rmean (col rows j)). set (s := fun j => Rmax (rstd (col rows j)) sd_lb). set (f := fun x m s : R => (x - m) / s).
  assert (G : forall z, length z = c -> nth j (zip3 f z (map m (seq 0 c)) (map s (seq 0 c))) 0 = f (nth j z 0) (m j) (s j)).
  { intros z Hz. apply nth_error_nth. apply zip3_nth; [apply nth_error_nth'; lia|apply seq_map_nth; assumption..]. }
  rewrite !G by assumption. unfold f. assert (0 < s j) by (eapply Rlt_le_trans; [exact Hl|apply Rmax_r]). apply Rmult_lt_compat_r; [apply Rinv_0_lt_compat; assumption|lra].
Qed.
Print Assumptions C52_order.
Example C52_nonvacuous : exists t, standardize_init (A2 2 [[1; 5]; [3; 5]]) (/ 10) = Ok t /\ / 10 <= rstd (col [[1; 5]; [3; 5]] 0) /\ rstd (col [[1; 5]; [3; 5]] 1) < / 10 /\
  forall x, In x (col [[1; 5]; [3; 5]] 1) -> x = 5.
Proof.
  eexists. split; [reflexivity|]. unfold col. cbn [map nth]. split; [|split].
  - replace (rstd [1; 3]) with 1; [lra|]. unfold rstd, rmean. cbn [map Rsum length]. cbn [INR]. rewrite <- sqrt_1 at 1. f_equal. field.
  - replace (rstd [5; 5]) with 0; [lra|]. unfold rstd, rmean. cbn [map Rsum length]. cbn [INR]. rewrite <- sqrt_0 at 1. f_equal. field.
  - intros x [H|[H|[]]]; congruence.
Qed.

(** ** C53 *)
Local Open Scope nat_scope.
(** Fewer than two samples are refused (ValueError), ties are refused (AssertionError), all other samples accepted. *)
Theorem C53_init xs : match ptrans_init xs with
  | Ok _ => 2 <= length xs /\ NoDup (map Qred xs)
  | Err ValueError => length xs < 2
  | Err e => e = AssertionError /\ 2 <= length xs /\ ~ NoDup (map Qred xs)
  end.
Proof. destruct (ptrans_cases xs) as [(A1 & ->)|[(A1 & A2 & ->)|(A1 & A2 & A3 & ->)]]; [lia|auto|auto]. Qed.
Print Assumptions C53_init.
(** The order of the samples does not matter. *)
Theorem C53_order_irrelevant xs xs' : Permutation xs xs' -> ptrans_init xs = ptrans_init xs'.
Proof. exact (ptrans_perm xs xs'). Qed.
Print Assumptions C53_order_irrelevant.
(** The sample with k smaller samples is sent to k/(n-1), the fraction k/(n-1) back to it. *)
Theorem C53_rank xs t x : ptrans_init xs = Ok t -> In x xs ->
  let k := length (filter (fun a => Qltb a x) xs) in let p := (inject_Z (Z.of_nat k) / inject_Z (Z.of_nat (length xs - 1)))%Q in
  (exists y, forw_p t x = Ok y /\ (y == p)%Q) /\ (exists x', back_p t p = Ok x' /\ (x' == x)%Q).
Proof.
  intros E Hx k p. destruct (ptrans_ok _ _ E) as (x0 & xn & L & Ex & Ec & Ix & Ic & Lx & Lc & X0 & Xn & _ & _ & B & y0 & yn & Y0 & Yn & Z0 & Z1).
  assert (P : Permutation (p_xs t) xs) by (rewrite Ex; apply sort_perm).
  assert (Hx' : In x (p_xs t)) by (eapply Permutation_in; [apply Permutation_sym; exact P|exact Hx]). destruct (In_nth_error _ _ Hx') as (i & Hi).
  assert (Ki : k = i).
  { unfold k. transitivity (length (filter (fun a => Qltb a x) (p_xs t))).
    - clear - P. induction P; cbn [filter]; [reflexivity| | |congruence].
      + destruct (Qltb x0 x); cbn [length]; congruence.
      + destruct (Qltb x0 x), (Qltb y x); reflexivity.
    - clear - Ix Hi. revert i Hi. induction (p_xs t) as [|a l IH]; intros i Hi; [destruct i; discriminate|]. 
      assert (Il : increasing Qltb l) by (intros u v b c Luv Hb Hc; apply (Ix (S u) (S v) b c); [lia|assumption|assumption]).
      destruct i as [|i]; cbn [nth_error] in Hi.
      + assert (a = x) by congruence. subst a. cbn [filter]. rewrite (wo_irr _ Q_weak_order). cut (forall b, In b l -> Qltb b x = false).
        { clear. induction l as [|b l IH]; intros H; [reflexivity|]. cbn [filter]. rewrite (H b (or_introl eq_refl)). apply IH. intros c Hc. apply H. right. exact Hc. }
        intros b Hb. destruct (In_nth_error _ _ Hb) as (v & Hv). assert (X := Ix 0 (S v) x b ltac:(lia) eq_refl Hv). apply Qltb_lt in X. apply Qltb_ge. apply Qlt_le_weak. assumption.
      + cbn [filter]. assert (X := Ix 0 (S i) a x ltac:(lia) eq_refl Hi). rewrite X. cbn [length]. f_equal. apply IH; assumption. }
  assert (Li : i < length xs) by (rewrite <- Lx; apply nth_error_Some; congruence).
  assert (Hp : nth_error (p_cum t) i = Some p) by (rewrite Ec, fracs_nth by assumption; unfold p; rewrite Ki; reflexivity).
  destruct (InterpProofs.interp_node (p_xs t) (p_cum t) i x p Ix ltac:(congruence) Hi Hp) as (v & Ev & Hv).
  assert (R : (x0 <= x)%Q /\ (x <= xn)%Q) by (apply B; assumption).
  assert (F : forw_p t x = Ok v) by (unfold forw_p; rewrite (i1d_in _ _ x0 xn); tauto).
  split; [exists v; auto|]. destruct (InterpProofs.interp_node (p_cum t) (p_xs t) i p x Ic ltac:(congruence) Hp Hi) as (u & Eu & Hu). exists u. split; [|exact Hu].
  unfold back_p. rewrite (i1d_in _ _ y0 yn); try assumption.
  - destruct i as [|i]; [assert (p = y0) by congruence; subst p; rewrite H; apply Qle_refl|]. apply Qlt_le_weak, Qltb_lt. apply (Ic 0 (S i)); [lia|assumption|assumption].
  - destruct (Nat.eq_dec i (length (p_cum t) - 1)) as [Ei|Ei]; [assert (p = yn) by congruence; subst p; rewrite H; apply Qle_refl|].
    apply Qlt_le_weak, Qltb_lt. apply (Ic i (length (p_cum t) - 1)); [lia|assumption|assumption].
Qed.
Print Assumptions C53_rank.
(** forw is defined exactly between the smallest and the largest sample, with values in [0,1]; back exactly on [0,1]. *)
Theorem C53_domain xs t : ptrans_init xs = Ok t -> (forall x, match forw_p t x with
    | Ok y => (exists a b, In a xs /\ In b xs /\ (a <= x)%Q /\ (x <= b)%Q) /\ (0 <= y)%Q /\ (y <= 1)%Q
    | Err e => e = ValueError /\ ((forall a, In a xs -> (x < a)%Q) \/ (forall a, In a xs -> (a < x)%Q)) end) /\
  (forall y, match back_p t y with
    | Ok x => (0 <= y)%Q /\ (y <= 1)%Q /\ (exists a b, In a xs /\ In b xs /\ (a <= x)%Q /\ (x <= b)%Q)
    | Err e => e = ValueError /\ ((y < 0)%Q \/ (1 < y)%Q) end).
Proof.
  intros E. destruct (ptrans_ok _ _ E) as (x0 & xn & L & Ex & Ec & Ix & Ic & Lx & Lc & X0 & Xn & I0 & In' & B & y0 & yn & Y0 & Yn & Z0 & Z1). split; intros q.
  - destruct (Qlt_le_dec q x0) as [A|A]; [|destruct (Qlt_le_dec xn q) as [C|C]].
    + unfold forw_p. rewrite (i1d_out _ _ x0 xn) by auto. split; [reflexivity|]. left. intros a Ha. destruct (B a Ha). eapply Qlt_le_trans; eassumption.
    + unfold forw_p. rewrite (i1d_out _ _ x0 xn) by auto. split; [reflexivity|]. right. intros a Ha. destruct (B a Ha). eapply Qle_lt_trans; eassumption.
    + destruct (i1d_defined (p_xs t) (p_cum t) x0 xn y0 yn Ix Ic ltac:(congruence) X0 Xn Y0 Yn q A C) as (v & Ev & V1 & V2). unfold forw_p. rewrite Ev. rewrite Z0 in V1. rewrite Z1 in V2. split; [|auto]. exists x0, xn. auto.
  - destruct (Qlt_le_dec q 0) as [A|A]; [|destruct (Qlt_le_dec 1 q) as [C|C]].
    + unfold back_p. rewrite (i1d_out _ _ y0 yn); try assumption; [auto|]. left. rewrite Z0. assumption.
    + unfold back_p. rewrite (i1d_out _ _ y0 yn); try assumption; [auto|]. right. rewrite Z1. assumption.
    + rewrite <- Z0 in A. rewrite <- Z1 in C. destruct (i1d_defined (p_cum t) (p_xs t) y0 yn x0 xn Ic Ix ltac:(congruence) Y0 Yn X0 Xn q A C) as (v & Ev & V1 & V2).
      unfold back_p. rewrite Ev. rewrite Z0 in A. rewrite Z1 in C. split; [assumption|]. split; [assumption|]. exists x0, xn. auto.
Qed.
Print Assumptions C53_domain.
(** Strictly increasing, both ways. *)
Theorem C53_increasing xs t u v y z : ptrans_init xs = Ok t -> (u < v)%Q -> (forw_p t u = Ok y -> forw_p t v = Ok z -> (y < z)%Q) /\ (back_p t u = Ok y -> back_p t v = Ok z -> (y < z)%Q).
Proof.
  intros E Luv. destruct (ptrans_ok _ _ E) as (x0 & xn & L & Ex & Ec & Ix & Ic & Lx & Lc & X0 & Xn & I0 & In' & B & y0 & yn & Y0 & Yn & Z0 & Z1). split; intros F G.
  - apply (i1d_strict (p_xs t) (p_cum t) x0 xn y0 yn u v); try assumption. congruence.
  - apply (i1d_strict (p_cum t) (p_xs t) y0 yn x0 xn u v); try assumption. congruence.
Qed.
Print Assumptions C53_increasing.
(** Inverse of each other wherever defined. *)
Theorem C53_inverse xs t u v : ptrans_init xs = Ok t -> (forw_p t u = Ok v -> exists u', back_p t v = Ok u' /\ (u' == u)%Q) /\ (back_p t u = Ok v -> exists u', forw_p t v = Ok u' /\ (u' == u)%Q).
Proof.
  intros E. destruct (ptrans_ok _ _ E) as (x0 & xn & L & Ex & Ec & Ix & Ic & Lx & Lc & X0 & Xn & I0 & In' & B & y0 & yn & Y0 & Yn & Z0 & Z1). split; intros F.
  - apply (i1d_inverse (p_xs t) (p_cum t) x0 xn y0 yn); try assumption. congruence.
  - apply (i1d_inverse (p_cum t) (p_xs t) y0 yn x0 xn); try assumption. congruence.
Qed.
Print Assumptions C53_inverse.
(** With the normal distribution on top: if its cdf undoes its quantile function on [0,1] and the quantile function is
    strictly increasing for an order [ltY], the full transform is strictly increasing and back undoes forw. *)
Theorem C53_with_norm (Y : Type) (ltY : Y -> Y -> Prop) (cdf : Y -> Q) (ppf : Q -> Y) xs t : ptrans_init xs = Ok t ->
  (forall p, (0 <= p)%Q -> (p <= 1)%Q -> (cdf (ppf p) == p)%Q) -> (forall p q, (0 <= p)%Q -> (p < q)%Q -> (q <= 1)%Q -> ltY (ppf p) (ppf q)) ->
  (forall x y, forw ppf t x = Ok y -> exists x', back cdf t y = Ok x' /\ (x' == x)%Q) /\
  (forall x x' y y', (x < x')%Q -> forw ppf t x = Ok y -> forw ppf t x' = Ok y' -> ltY y y').
Proof.
  intros E Hc Hm. destruct (C53_domain _ _ E) as [DF DB]. split.
  - intros x y F. unfold forw, rmap in F. pose proof (DF x) as D. destruct (forw_p t x) as [p|] eqn:Ep; cbn [bind] in F; [|discriminate]. assert (y = ppf p) by congruence. subst y.
    destruct D as (_ & P0 & P1). pose proof (Hc p P0 P1) as C. unfold back. destruct (C53_inverse _ _ x p E) as [I _]. destruct (I Ep) as (u & Eu & Hu).
    pose proof (DB (cdf (ppf p))) as D. destruct (back_p t (cdf (ppf p))) as [w|] eqn:Ew; [|destruct D as [_ [D|D]]; rewrite C in D; exfalso; eapply Qlt_not_le; eassumption].
    exists w. split; [reflexivity|]. rewrite <- Hu.
    destruct (ptrans_ok _ _ E) as (x0 & xn & L & Ex & Ec & Ix & Ic & Lx & Lc & X0 & Xn & I0 & In' & B & y0 & yn & Y0 & Yn & Z0 & Z1).
    apply Qle_antisym; [apply (i1d_mono (p_cum t) (p_xs t) y0 yn) with (q1 := cdf (ppf p)) (q2 := p)|apply (i1d_mono (p_cum t) (p_xs t) y0 yn) with (q1 := p) (q2 := cdf (ppf p))]; try assumption; try congruence; rewrite C; apply Qle_refl.
  - intros x x' y y' L F F'. unfold forw, rmap in F, F'. pose proof (DF x) as D. pose proof (DF x') as D'. destruct (forw_p t x) as [p|] eqn:Ep; cbn [bind] in F; [|discriminate].
    destruct (forw_p t x') as [p'|] eqn:Ep'; cbn [bind] in F'; [|discriminate]. assert (y = ppf p) by congruence. assert (y' = ppf p') by congruence. subst.
    apply Hm; [apply D| |apply D']. destruct (C53_increasing _ _ x x' p p' E L) as [I _]. apply I; assumption.
Qed.
Print Assumptions C53_with_norm.
Example C53_nonvacuous : exists t, ptrans_init [3; 1; 2]%Q = Ok t /\ (exists y, forw_p t (5 # 2) = Ok y /\ (y == 3 # 4)%Q) /\ (exists x, back_p t (1 # 4) = Ok x /\ (x == 3 # 2)%Q) /\
  forw_p t 4 = Err ValueError /\ ptrans_init [1; 1]%Q = Err AssertionError /\ ptrans_init [1]%Q = Err ValueError.
Proof. eexists. repeat split; try reflexivity; eexists; split; reflexivity. Qed.
(** The hypotheses of C53_with_norm are met, e.g. by a uniform instead of a normal distribution. *)
Example C53_with_norm_nonvacuous : let cdf (y : Q) := ((y + 1) / 2)%Q in let ppf p := (2 * p - 1)%Q in
  (forall p, (0 <= p)%Q -> (p <= 1)%Q -> (cdf (ppf p) == p)%Q) /\ (forall p q, (0 <= p)%Q -> (p < q)%Q -> (q <= 1)%Q -> (ppf p < ppf q)%Q).
Proof. intros cdf ppf. unfold cdf, ppf. split; intros; [field|Lqa.lra]. Qed.
