(** Quantiles. *)
From Coq Require Import QArith Qround Qabs Lqa Permutation.
From Verif Require Import Base OrderSpec BinSpec BinModel BinProofs BinProofs2 InterpModel InterpProofs ReduSpec ReduModel ReduProofs ReduProofs2.
Local Open Scope list_scope. Local Open Scope nat_scope.

Definition zq (k : nat) : Q := inject_Z (Z.of_nat k).
Definition nodes (n : nat) : list Q := map zq (seq 0 n).
Lemma nodes_nth n i : i < n -> nth_error (nodes n) i = Some (zq i).
Proof. intros H. unfold nodes. rewrite nth_error_map. rewrite nth_error_nth' with (d := 0) by (rewrite seq_length; assumption). rewrite seq_nth by assumption. reflexivity. Qed.
Lemma nodes_len n : length (nodes n) = n.
Proof. unfold nodes. rewrite map_length, seq_length. reflexivity. Qed.
Lemma zq_lt i j : i < j -> (zq i < zq j)%Q.
Proof. intros H. unfold zq. rewrite <- Zlt_Qlt. lia. Qed.
Lemma zq_S i : (zq (S i) == zq i + 1)%Q.
Proof. unfold zq. rewrite Nat2Z.inj_succ. unfold Z.succ. rewrite inject_Z_plus. reflexivity. Qed.
Lemma nodes_asc n : ascending Qltb (nodes n).
Proof.
  intros i j a b L Ha Hb. assert (i < n) by (rewrite <- (nodes_len n); apply nth_error_Some; congruence).
  assert (j < n) by (rewrite <- (nodes_len n); apply nth_error_Some; congruence). rewrite nodes_nth in Ha, Hb by assumption.
  injection Ha as <-. injection Hb as <-. apply Qltb_ge. apply Qlt_le_weak, zq_lt. assumption.
Qed.
Lemma sort_len {T} (lt : T -> T -> bool) l : length (np_sort lt l) = length l.
Proof. apply Permutation_length, sort_perm. Qed.

Lemma np_quantile_interp x p : x <> [] -> (0 <= p)%Q -> (p <= 1)%Q ->
  exists u v, np_quantile x p = Ok u /\ bisearch_interp (nodes (length x)) (np_sort Qltb x) (p * zq (length x - 1)) = Ok v /\ (u == v)%Q.
Proof.
  intros Hx P0 P1. unfold np_quantile. apply Qle_bool_iff in P0 as B0. apply Qle_bool_iff in P1 as B1. rewrite B0, B1. cbn [andb].
  rewrite sort_len. set (n := length x). set (s := np_sort Qltb x). assert (Ls : length s = n) by apply sort_len.
  assert (Hn : 0 < n) by (unfold n; destruct x; [congruence|cbn; lia]).
  fold (zq (n - 1)). set (h := (p * zq (n - 1))%Q).
  assert (Z0 : (0 <= zq (n - 1))%Q) by (unfold zq; change 0%Q with (inject_Z 0); rewrite <- Zle_Qle; lia).
  assert (H0 : (0 <= h)%Q) by (unfold h; apply Qmult_le_0_compat; assumption).
  assert (H1 : (h <= zq (n - 1))%Q) by (unfold h; nra).
  pose proof (Qfloor_le h) as F1. pose proof (Qlt_floor h) as F2.
  assert (Fz : (0 <= Qfloor h)%Z) by (change 0%Z with (Qfloor 0); apply Qfloor_resp_le; assumption).
  set (i := Z.to_nat (Qfloor h)). assert (Ei : Qfloor h = Z.of_nat i) by (unfold i; lia). rewrite Ei in F1, F2 |- *.
  change (inject_Z (Z.of_nat i)) with (zq i) in *.
  assert (F3 : (h < zq i + 1)%Q). { rewrite inject_Z_plus in F2. exact F2. }
  assert (Hi : i <= n - 1). { destruct (Nat.le_gt_cases i (n - 1)) as [L|L]; [assumption|]. apply zq_lt in L. lra. }
  assert (Hne : nodes n <> []) by (intros E; apply (f_equal (@length Q)) in E; rewrite nodes_len in E; cbn in E; lia).
  assert (Hlen : length s = length (nodes n)) by (rewrite nodes_len; assumption).
  destruct (Nat.eq_dec i (n - 1)) as [E|E].
  - destruct (interp_cases (nodes n) s h (nodes_asc n) Hne Hlen) as (v & Ev & Hc). eexists. exists v. split; [reflexivity|]. split; [exact Ev|].
    assert (Hh : (h == zq (n - 1))%Q) by (rewrite E in F1; lra).
    destruct (nth_error s i) as [lo|] eqn:Elo; [|apply nth_error_None in Elo; lia]. rewrite (nth_error_nth_d _ _ _ 0%Q Elo).
    rewrite nodes_len in Hc.
    destruct Hc as [(x0 & y0 & Hx0 & Hy0 & Hq & Hv)|[(xn & yn & Hxn & Hyn & Hq & Hv)|(j & xl & xr & yl & yr & Hl & Hr & Hyl & Hyr & Q1 & Q2 & Hv)]].
    + rewrite nodes_nth in Hx0 by lia. injection Hx0 as <-. change (zq 0) with 0%Q in Hq. lra.
    + assert (yn = lo) by congruence. subst yn. rewrite Hv, E, Hh. ring.
    + assert (S j < n) by (rewrite <- (nodes_len n); apply nth_error_Some; congruence). rewrite nodes_nth in Hr by assumption.
      injection Hr as <-. assert ((zq (S j) <= zq (n - 1))%Q) by (unfold zq; rewrite <- Zle_Qle; lia). lra.
  - assert (Li : S i < n) by lia.
    destruct (nth_error s i) as [lo|] eqn:Elo; [|apply nth_error_None in Elo; lia].
    destruct (nth_error s (S i)) as [hi|] eqn:Ehi; [|apply nth_error_None in Ehi; lia].
    rewrite (nth_error_nth_d _ _ _ 0%Q Elo), (nth_error_nth_d _ _ _ lo Ehi).
    destruct (interp_between (nodes n) s h i (zq i) (zq (S i)) lo hi (nodes_asc n) Hlen) as (v & Ev & Hv & _);
      [apply nodes_nth; lia|apply nodes_nth; lia|assumption|assumption|assumption|rewrite zq_S; assumption|].
    eexists. exists v. split; [reflexivity|]. split; [exact Ev|]. rewrite Hv. setoid_replace (zq (S i) - zq i)%Q with 1%Q by (rewrite zq_S; ring). field.
Qed.

Lemma np_quantile_bounded x p lo hi : x <> [] -> (0 <= p)%Q -> (p <= 1)%Q -> (forall a, In a x -> (lo <= a /\ a <= hi)%Q) ->
  exists u, np_quantile x p = Ok u /\ (lo <= u /\ u <= hi)%Q.
Proof.
  intros Hx P0 P1 Hb. destruct (np_quantile_interp x p Hx P0 P1) as (u & v & Eu & Ev & Huv). exists u. split; [assumption|].
  destruct (interp_bounded (nodes (length x)) (np_sort Qltb x) (p * zq (length x - 1)) lo hi (nodes_asc _)) as (v' & Ev' & B).
  - intros E. apply (f_equal (@length Q)) in E. rewrite nodes_len in E. destruct x; [congruence|discriminate].
  - rewrite nodes_len, sort_len. reflexivity.
  - intros y Hy. apply Hb. eapply Permutation_in; [apply sort_perm|exact Hy].
  - assert (v' = v) by congruence. subst. rewrite Huv. assumption.
Qed.
Lemma np_quantile_mono x p1 p2 u1 u2 : x <> [] -> (p1 <= p2)%Q -> np_quantile x p1 = Ok u1 -> np_quantile x p2 = Ok u2 -> (u1 <= u2)%Q.
Proof.
  intros Hx Hp E1 E2.
  assert (G : forall p u, np_quantile x p = Ok u -> (0 <= p)%Q /\ (p <= 1)%Q).
  { intros p u E. unfold np_quantile in E. destruct (Qle_bool 0 p) eqn:A; [|discriminate]. destruct (Qle_bool p 1) eqn:B; [|discriminate].
    apply Qle_bool_iff in A. apply Qle_bool_iff in B. auto. }
  destruct (G _ _ E1) as [A1 B1], (G _ _ E2) as [A2 B2].
  destruct (np_quantile_interp x p1 Hx A1 B1) as (u & v & Eu & Ev & Huv). destruct (np_quantile_interp x p2 Hx A2 B2) as (u' & v' & Eu' & Ev' & Huv').
  assert (u = u1) by congruence. assert (u' = u2) by congruence. subst. rewrite Huv, Huv'.
  eapply (interp_mono (nodes (length x)) (np_sort Qltb x)); [apply nodes_asc|apply sort_asc, Q_weak_order| | | |exact Ev|exact Ev'].
  - intros E. apply (f_equal (@length Q)) in E. rewrite nodes_len in E. destruct x; [congruence|discriminate].
  - rewrite nodes_len, sort_len. reflexivity.
  - assert ((0 <= zq (length x - 1))%Q) by (unfold zq; change 0%Q with (inject_Z 0); rewrite <- Zle_Qle; lia). nra.
Qed.
(** The order statistics: probability k/(n-1) gives the k-th smallest sample. *)
Lemma np_quantile_order x k v : k < length x -> 1 < length x -> nth_error (np_sort Qltb x) k = Some v ->
  exists u, np_quantile x (zq k / zq (length x - 1)) = Ok u /\ (u == v)%Q.
Proof.
  intros Hk Hn Hv. assert (Z1 : (0 < zq (length x - 1))%Q) by (unfold zq; change 0%Q with (inject_Z 0); rewrite <- Zlt_Qlt; lia).
  assert (Zk : (0 <= zq k)%Q) by (unfold zq; change 0%Q with (inject_Z 0); rewrite <- Zle_Qle; lia).
  assert (Zk' : (zq k <= zq (length x - 1))%Q) by (unfold zq; rewrite <- Zle_Qle; lia).
  destruct (np_quantile_interp x (zq k / zq (length x - 1))) as (u & v' & Eu & Ev & Huv).
  - intros ->. cbn in Hk. lia.
  - apply Qle_shift_div_l; [assumption|]. lra.
  - apply Qle_shift_div_r; [assumption|]. lra.
  - exists u. split; [assumption|]. rewrite Huv.
    assert (Hs : increasing Qltb (nodes (length x))).
    { intros i j a b L Ha Hb. assert (i < length x) by (rewrite <- (nodes_len (length x)); apply nth_error_Some; congruence).
      assert (j < length x) by (rewrite <- (nodes_len (length x)); apply nth_error_Some; congruence). rewrite nodes_nth in Ha, Hb by assumption.
      injection Ha as <-. injection Hb as <-. apply Qltb_lt. apply zq_lt. assumption. }
    set (h := (zq k / zq (length x - 1) * zq (length x - 1))%Q) in *. assert (Eh : (h == zq k)%Q) by (unfold h; field; lra).
    assert (Hne : nodes (length x) <> []) by (intros E; apply (f_equal (@length Q)) in E; rewrite nodes_len in E; destruct x; [cbn in Hk; lia|discriminate]).
    assert (Hl : length (np_sort Qltb x) = length (nodes (length x))) by (rewrite nodes_len, sort_len; reflexivity).
    destruct (interp_node (nodes (length x)) (np_sort Qltb x) k (zq k) v Hs Hl (nodes_nth _ _ Hk) Hv) as (w & Ew & Hw).
    rewrite <- Hw. apply Qle_antisym.
    + eapply (interp_mono (nodes (length x)) (np_sort Qltb x) h (zq k)); [apply nodes_asc|apply sort_asc, Q_weak_order|assumption|assumption|lra|exact Ev|exact Ew].
    + eapply (interp_mono (nodes (length x)) (np_sort Qltb x) (zq k) h); [apply nodes_asc|apply sort_asc, Q_weak_order|assumption|assumption|lra|exact Ew|exact Ev].
Qed.

(** Median is the quantile at 1/2. *)
Lemma np_median_quantile x : x <> [] -> exists u, np_quantile x (1 # 2) = Ok u /\ (u == np_median x)%Q.
Proof.
  intros Hx. unfold np_quantile, np_median. cbn [Qle_bool]. cbn [andb]. change (Qle_bool 0 (1 # 2) && Qle_bool (1 # 2) 1) with true. cbn iota.
  set (s := np_sort Qltb x). assert (Hl : length s = length x) by apply sort_len. rewrite Hl. set (n := length x) in *.
  assert (Hn : 0 < n) by (unfold n; destruct x; [congruence|cbn; lia]). eexists. split; [reflexivity|].
  pose proof (Nat.div_mod n 2 ltac:(lia)) as D. assert (M : n mod 2 < 2) by (apply Nat.mod_upper_bound; lia).
  destruct (Nat.even n) eqn:Ev.
  - assert (n mod 2 = 0). { apply Nat.even_spec in Ev. destruct Ev as [k ->]. rewrite Nat.mul_comm. apply Nat.mod_mul. lia. }
    assert (Ez : Qfloor ((1 # 2) * inject_Z (Z.of_nat (n - 1))) = Z.of_nat (n / 2 - 1)).
    { set (k := n / 2) in *. assert (n - 1 = 2 * (k - 1) + 1) by lia. rewrite H0. unfold Qfloor, Qmult, inject_Z. cbn [Qnum Qden].
      rewrite Z.mul_1_l. change (Z.pos (2 * 1)) with 2%Z. symmetry. apply Z.div_unique with (r := 1%Z); lia. }
    rewrite Ez, Nat2Z.id.
    assert (Hh : (inject_Z (Z.of_nat (n - 1)) == 2 * inject_Z (Z.of_nat (n / 2 - 1)) + 1)%Q).
    { rewrite <- (inject_Z_plus) || idtac. change 2%Q with (inject_Z 2). change 1%Q with (inject_Z 1). rewrite <- inject_Z_mult, <- inject_Z_plus.
      apply inject_Z_injective. lia. }
    rewrite Hh. replace (S (n / 2 - 1)) with (n / 2) by lia.
    rewrite (nth_indep s (nth (n / 2 - 1) s 0%Q) 0%Q) by lia. field.
  - assert (n mod 2 = 1).
    { destruct (Nat.eq_dec (n mod 2) 0) as [E|E]; [|lia]. rewrite E, Nat.add_0_r in D. rewrite D in Ev. rewrite Nat.even_mul in Ev. discriminate. }
    assert (Ez : Qfloor ((1 # 2) * inject_Z (Z.of_nat (n - 1))) = Z.of_nat (n / 2)).
    { set (k := n / 2) in *. assert (n - 1 = 2 * k) by lia. rewrite H0. unfold Qfloor, Qmult, inject_Z. cbn [Qnum Qden].
      rewrite Z.mul_1_l. change (Z.pos (2 * 1)) with 2%Z. symmetry. apply Z.div_unique with (r := 0%Z); lia. }
    rewrite Ez, Nat2Z.id.
    assert (Hh : (inject_Z (Z.of_nat (n - 1)) == 2 * inject_Z (Z.of_nat (n / 2)))%Q).
    { change 2%Q with (inject_Z 2). rewrite <- inject_Z_mult. apply inject_Z_injective. lia. }
    rewrite Hh. field.
Qed.

(** ** Weighted *)
Lemma cumsum_len : forall l acc, length (cumsum acc l) = length l.
Proof. induction l as [|a l IH]; intros acc; cbn [cumsum length]; [reflexivity|]. rewrite IH. reflexivity. Qed.
Lemma cumsum_asc : forall l acc, (forall a, In a l -> (0 <= a)%Q) -> ascending Qltb (cumsum acc l) /\ forall c, In c (cumsum acc l) -> (acc <= c)%Q.
Proof.
  induction l as [|a l IH]; intros acc H; cbn [cumsum].
  - split; [intros i j u v L Hu; destruct i; discriminate|intros c []].
  - assert (Ha : (0 <= a)%Q) by (apply H; left; reflexivity). destruct (IH (acc + a)%Q) as [A B]; [intros; apply H; right; assumption|]. split.
    + apply asc_cons. split; [|exact A]. intros c Hc. apply Qltb_ge. apply B. assumption.
    + intros c [<-|Hc]; [lra|]. specialize (B c Hc). lra.
Qed.
Lemma fst_weak_order : weak_order fst_lt.
Proof.
  unfold fst_lt. destruct Q_weak_order as [A B C]. constructor; intros; eauto.
Qed.
Lemma asc_map_fst l : ascending fst_lt l -> ascending Qltb (map fst l).
Proof.
  intros H i j a b L Ha Hb. rewrite nth_error_map in Ha, Hb. destruct (nth_error l i) as [u|] eqn:Eu; [|discriminate]. destruct (nth_error l j) as [v|] eqn:Ev; [|discriminate].
  injection Ha as <-. injection Hb as <-. apply (H i j u v L Eu Ev).
Qed.
Lemma combine_map {A B} : forall (x : list A) (w : list B), length w = length x -> map fst (combine x w) = x /\ map snd (combine x w) = w.
Proof.
  induction x as [|a x IH]; intros [|b w] H; cbn in H; try discriminate; [split; reflexivity|]. cbn [combine map fst snd].
  destruct (IH w) as [E F]; [congruence|]. rewrite E, F. split; reflexivity.
Qed.

(** The sorted pairs used by the weighted quantile. *)
Definition wpairs (sort : bool) (x w : list Q) : list (Q * Q) := if sort then np_sort fst_lt (combine x w) else combine x w.
Lemma wpairs_perm sort x w : Permutation (wpairs sort x w) (combine x w).
Proof. unfold wpairs. destruct sort; [apply sort_perm|apply Permutation_refl]. Qed.
Lemma wpairs_ok sort x w : length w = length x -> x <> [] -> (forall a, In a w -> (0 <= a)%Q) ->
  let cdf := cumsum 0 (map snd (wpairs sort x w)) in let xs := map fst (wpairs sort x w) in
  ascending Qltb cdf /\ cdf <> [] /\ length xs = length cdf /\ (forall a, In a xs -> In a x) /\ (sort = true -> ascending Qltb xs).
Proof.
  intros L Hx Hw cdf xs. pose proof (wpairs_perm sort x w) as P. destruct (combine_map x w L) as [Cf Cs].
  assert (Lp : length (wpairs sort x w) = length x) by (rewrite (Permutation_length P), combine_length; lia).
  split; [|split; [|split; [|split]]].
  - apply cumsum_asc. intros a Ha. apply Hw. rewrite <- Cs. eapply Permutation_in; [apply Permutation_map; exact P|exact Ha].
  - intros E. apply (f_equal (@length Q)) in E. unfold cdf in E. rewrite cumsum_len, map_length, Lp in E. destruct x; [congruence|discriminate].
  - unfold xs, cdf. rewrite cumsum_len, !map_length. reflexivity.
  - intros a Ha. rewrite <- Cf. eapply Permutation_in; [apply Permutation_map; exact P|exact Ha].
  - intros ->. apply asc_map_fst. apply sort_asc, fst_weak_order.
Qed.
Lemma weighted_quantile_eq sort x w p : weighted_quantile sort x w p =
  bisearch_interp (cumsum 0 (map snd (wpairs sort x w))) (map fst (wpairs sort x w)) p.
Proof. reflexivity. Qed.

Lemma wq_bounded sort x w p lo hi : length w = length x -> x <> [] -> (forall a, In a w -> (0 <= a)%Q) ->
  (forall a, In a x -> (lo <= a /\ a <= hi)%Q) -> exists u, weighted_quantile sort x w p = Ok u /\ (lo <= u /\ u <= hi)%Q.
Proof.
  intros L Hx Hw Hb. rewrite weighted_quantile_eq. destruct (wpairs_ok sort x w L Hx Hw) as (A & N & E & I & _).
  apply interp_bounded; auto.
Qed.
Lemma wq_mono x w p1 p2 u1 u2 : length w = length x -> x <> [] -> (forall a, In a w -> (0 <= a)%Q) -> (p1 <= p2)%Q ->
  weighted_quantile true x w p1 = Ok u1 -> weighted_quantile true x w p2 = Ok u2 -> (u1 <= u2)%Q.
Proof.
  intros L Hx Hw Hp. rewrite !weighted_quantile_eq. destruct (wpairs_ok true x w L Hx Hw) as (A & N & E & I & S1).
  intros E1 E2. exact (interp_mono _ _ _ _ _ _ A (S1 eq_refl) N E Hp E1 E2).
Qed.

(** ** One row *)
Lemma Qsum_nonneg l : (forall a, In a l -> (0 <= a)%Q) -> (0 <= Qsum l)%Q.
Proof.
  induction l as [|a l IH]; intros H; cbn [Qsum]; [lra|]. pose proof (H a (or_introl eq_refl)). assert ((0 <= Qsum l)%Q) by (apply IH; intros; apply H; right; assumption). lra.
Qed.
Lemma norm_nonneg w : (forall a, In a w -> (0 <= a)%Q) -> (0 < Qsum w)%Q -> forall a, In a (map (fun a => a / Qsum w)%Q w) -> (0 <= a)%Q.
Proof.
  intros H L a Ha. apply in_map_iff in Ha. destruct Ha as (b & <- & Hb). apply Qle_shift_div_l; [assumption|]. specialize (H b Hb). lra.
Qed.
Lemma sel_len {A B} (l : list A) (l' : list B) m : length l' = length l -> match m with Some m => length m = length l | None => True end ->
  length (sel m l') = length (sel m l).
Proof. intros H Hm. destruct m as [m|]; cbn [sel]; [|assumption]. rewrite !selected_length; congruence. Qed.
Lemma sel_In {A} m (l : list A) a : In a (sel m l) -> In a l.
Proof. destruct m; cbn [sel]; [apply selected_In|auto]. Qed.

(** What one probability gives for one row. *)
Definition quantile_at (sort : bool) (x : list Q) (w : option (list Q)) (m : option (list bool)) (p : Q) : result Q :=
  match w with
  | None => np_quantile (sel m x) p
  | Some w => weighted_quantile sort (sel m x) (map (fun a => a / Qsum (sel m w))%Q (sel m w)) p
  end.
Lemma quantile_1d_eq ps sort fill x w m : sel m x <> [] -> quantile_1d ps sort fill x w m = mapM (quantile_at sort x w m) ps.
Proof. intros H. unfold quantile_1d, impl_1d, quantile_at. destruct (sel m x) as [|a l]; [congruence|]. destruct w; reflexivity. Qed.
Lemma quantile_at_bounded sort x w m p lo hi : fits x w m -> sel m x <> [] -> good_weights m w -> (0 <= p)%Q -> (p <= 1)%Q ->
  (forall a, In a (sel m x) -> (lo <= a /\ a <= hi)%Q) -> exists u, quantile_at sort x w m p = Ok u /\ (lo <= u /\ u <= hi)%Q.
Proof.
  intros [Fw Fm] Hx Hw P0 P1 Hb. unfold quantile_at. destruct w as [w|].
  - apply wq_bounded; auto.
    + rewrite map_length. apply sel_len; assumption.
    + destruct Hw as [Hw Hp]. apply norm_nonneg; assumption.
  - apply np_quantile_bounded; assumption.
Qed.
Lemma quantile_at_mono x w m p1 p2 u1 u2 : fits x w m -> sel m x <> [] -> good_weights m w -> (p1 <= p2)%Q ->
  quantile_at true x w m p1 = Ok u1 -> quantile_at true x w m p2 = Ok u2 -> (u1 <= u2)%Q.
Proof.
  intros [Fw Fm] Hx Hw Hp. unfold quantile_at. destruct w as [w|].
  - apply wq_mono; auto.
    + rewrite map_length. apply sel_len; assumption.
    + destruct Hw as [Hw Hs]. apply norm_nonneg; assumption.
  - apply np_quantile_mono; assumption.
Qed.
Lemma sel_bounds (x : list Q) : x <> [] -> exists lo hi, In lo x /\ In hi x /\ forall a, In a x -> (lo <= a /\ a <= hi)%Q.
Proof.
  induction x as [|a x IH]; [congruence|]. intros _. destruct x as [|b x].
  - exists a, a. repeat split; try (left; reflexivity); destruct H as [<-|[]]; lra.
  - destruct IH as (lo & hi & Hlo & Hhi & H); [discriminate|].
    exists (if Qltb a lo then a else lo), (if Qltb hi a then a else hi).
    destruct (Qltb a lo) eqn:E1, (Qltb hi a) eqn:E2; rewrite ?Qltb_lt, ?Qltb_ge in *; repeat split;
      try (left; reflexivity); try (right; assumption); destruct H0 as [<-|H0]; try specialize (H _ H0); lra.
Qed.
Lemma mapM_nth {A B} (f : A -> result B) : forall l bs, mapM f l = Ok bs ->
  length bs = length l /\ forall i a, nth_error l i = Some a -> exists b, nth_error bs i = Some b /\ f a = Ok b.
Proof.
  induction l as [|a l IH]; intros bs H; cbn [mapM] in H.
  - apply Ok_inj in H. subst. split; [reflexivity|]. intros [|i] b; discriminate.
  - destruct (f a) as [b|] eqn:E; [|discriminate]. cbn [bind] in H. destruct (mapM f l) as [bs'|]; [|discriminate]. cbn [bind] in H. apply Ok_inj in H. subst.
    destruct (IH bs' eq_refl) as [L N]. split; [cbn; congruence|]. intros [|i] c Hc; cbn [nth_error] in *; [exists b; split; congruence|auto].
Qed.
Lemma quantile_1d_total ps sort fill x w m : fits x w m -> good_weights m w -> Forall (fun p => 0 <= p /\ p <= 1)%Q ps ->
  exists qs, quantile_1d ps sort fill x w m = Ok qs /\ length qs = length ps.
Proof.
  intros Hf Hw Hp. assert (D : sel m x = [] \/ sel m x <> []) by (destruct (sel m x); [left; reflexivity|right; discriminate]). destruct D as [E|E].
  - unfold quantile_1d, impl_1d. rewrite E. eexists. split; [reflexivity|]. apply map_length.
  - rewrite quantile_1d_eq by assumption. destruct (sel_bounds _ E) as (lo & hi & _ & _ & B).
    destruct (mapM_ex (quantile_at sort x w m) ps) as [qs Hq].
    { intros p Hin. rewrite Forall_forall in Hp. destruct (Hp p Hin). destruct (quantile_at_bounded sort x w m p lo hi) as (u & Hu & _); eauto. }
    exists qs. split; [assumption|]. apply (mapM_nth _ _ _ Hq).
Qed.

(** ** Error bars *)
Lemma spec_probs spec ps : od_get String.eqb ps_map spec = Some ps -> Forall (fun p => 0 <= p /\ p <= 1)%Q ps /\
  (length ps = 2 \/ exists a b c, ps = [a; b; c] /\ (a <= b)%Q /\ (b <= c)%Q).
Proof.
  unfold ps_map. cbn [od_get].
  repeat (match goal with |- context [String.eqb ?k spec] => destruct (String.eqb k spec) | |- context [String.eqb spec ?k] => destruct (String.eqb spec k) end;
          [intros [= <-]; split; [repeat constructor; discriminate|];
           first [left; reflexivity | right; do 3 eexists; split; [reflexivity|]; split; discriminate]|]).
  discriminate.
Qed.

(** Two sorted arrangements of the same samples agree position by position. *)
Lemma asc_perm_nth : forall s t k a b, ascending Qltb s -> ascending Qltb t -> Permutation s t -> nth_error s k = Some a -> nth_error t k = Some b -> (b == a)%Q.
Proof.
  assert (C : forall l l' (P : Q -> bool), Permutation l l' -> length (filter P l) = length (filter P l')).
  { intros l l' P H. induction H; cbn [filter]; try reflexivity.
    - destruct (P x); cbn [length]; congruence.
    - destruct (P x), (P y); reflexivity.
    - congruence. }
  assert (G : forall s k a, ascending Qltb s -> nth_error s k = Some a ->
     k < length (filter (fun x => Qle_bool x a) s) /\ forall b, (b < a)%Q -> length (filter (fun x => Qle_bool x b) s) <= k).
  { induction s as [|x s IH]; intros [|k] a A H; cbn [nth_error] in H; try discriminate.
    - assert (x = a) by congruence. subst. apply asc_cons in A. destruct A as [A1 A2]. cbn [filter].
      assert (E : Qle_bool a a = true) by (apply Qle_bool_iff; lra). rewrite E. cbn [length]. split; [lia|]. intros b Hb.
      assert (E2 : Qle_bool a b = false) by (destruct (Qle_bool a b) eqn:F; [apply Qle_bool_iff in F; lra|reflexivity]). rewrite E2.
      replace (filter (fun x => Qle_bool x b) s) with (@nil Q); [cbn; lia|]. symmetry. clear - A1 Hb.
      induction s as [|y s IH]; [reflexivity|]. cbn [filter]. assert (Hy := A1 y (or_introl eq_refl)). apply Qltb_ge in Hy.
      assert (E2 : Qle_bool y b = false) by (destruct (Qle_bool y b) eqn:F; [apply Qle_bool_iff in F; lra|reflexivity]). rewrite E2. apply IH. intros; apply A1; right; assumption.
    - apply asc_cons in A. destruct A as [A1 A2]. destruct (IH k a A2 H) as [I1 I2]. cbn [filter].
      assert (Hx := A1 a (nth_error_In _ _ H)). apply Qltb_ge in Hx. assert (E : Qle_bool x a = true) by (apply Qle_bool_iff; lra). rewrite E. cbn [length].
      split; [lia|]. intros b Hb. specialize (I2 b Hb). destruct (Qle_bool x b); cbn [length]; lia. }
  intros s t k a b As At P Ha Hb. destruct (G s k a As Ha) as [S1 S2]. destruct (G t k b At Hb) as [T1 T2].
  destruct (Qlt_le_dec a b) as [L|L].
  - specialize (T2 a L). rewrite <- (C s t _ P) in T2. lia.
  - destruct (Qlt_le_dec b a) as [L'|L']; [|lra]. specialize (S2 b L'). rewrite (C s t _ P) in S2. lia.
Qed.
