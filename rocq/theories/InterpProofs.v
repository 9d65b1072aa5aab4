(** Lemmas for C24-C27. *)
From Coq Require Import QArith Qabs Lqa.
From Verif Require Import Base OrderSpec InterpModel.
Local Open Scope list_scope. Local Open Scope nat_scope.

Lemma at_Ok {T} (xs : list T) i x : at_ xs i = Ok x <-> nth_error xs i = Some x.
Proof. unfold at_. destruct (nth_error xs i); split; intros H; inversion H; reflexivity. Qed.
Lemma at_lt {T} (xs : list T) i : i < length xs -> exists x, nth_error xs i = Some x /\ at_ xs i = Ok x.
Proof. intros H. apply nth_error_Some in H. unfold at_. destruct (nth_error xs i) as [x|]; [eauto|congruence]. Qed.

Section Search.
  Context {T : Type} (lt : T -> T -> bool).
  Definition below (xs : list T) (q : T) (i : nat) : Prop := exists x, nth_error xs i = Some x /\ lt q x = false.
  Definition above (xs : list T) (q : T) (i : nat) : Prop := i = length xs \/ exists x, nth_error xs i = Some x /\ lt q x = true.

  Lemma bis_loop_spec xs q : forall fuel l r, l < r -> r <= length xs -> r - l <= S fuel -> below xs q l -> above xs q r ->
    exists i, bis_loop lt fuel xs q l r = Ok i /\ l <= i < r /\ below xs q i /\ above xs q (S i).
  Proof.
    induction fuel as [|fuel IH]; intros l r Hlr Hr Hf Hb Ha.
    - assert (r = S l) by lia. subst r. exists l. cbn [bis_loop]. destruct (Nat.ltb_spec 1 (S l - l)); [lia|]. repeat split; auto; lia.
    - cbn [bis_loop]. destruct (Nat.ltb_spec 1 (r - l)) as [L|L].
      + assert (Hc : l < (l + r) / 2 < r).
        { split; [apply Nat.div_le_lower_bound; lia|apply Nat.div_lt_upper_bound; lia]. }
        destruct (at_lt xs ((l + r) / 2)) as (xc & Hn & ->); [lia|]. cbn [bind].
        destruct (lt q xc) eqn:E.
        * destruct (IH l ((l + r) / 2)) as (i & Hi & Hl & Hb' & Ha'); [lia|lia|lia|assumption|right; eauto|].
          exists i. rewrite Hi. repeat split; auto; lia.
        * destruct (IH ((l + r) / 2) r) as (i & Hi & Hl & Hb' & Ha'); [lia|lia|lia|exists xc; auto|assumption|].
          exists i. rewrite Hi. repeat split; auto; lia.
      + assert (r = S l) by lia. subst r. exists l. repeat split; auto; lia.
  Qed.

  Lemma bisearch_local xs q : xs <> [] ->
    exists i, bisearch lt xs q = Ok i /\ (-1 <= i < Z.of_nat (length xs))%Z /\
      (i = (-1)%Z -> exists x, nth_error xs 0 = Some x /\ lt q x = true) /\
      ((0 <= i)%Z -> below xs q 0 /\ below xs q (Z.to_nat i) /\ above xs q (S (Z.to_nat i))).
  Proof.
    intros Hne. destruct xs as [|x0 xs]; [congruence|]. clear Hne. cbn [bisearch]. destruct (lt q x0) eqn:E.
    - exists (-1)%Z. split; [reflexivity|]. split; [simpl length; lia|]. split; [exists x0; auto|lia].
    - destruct (bis_loop_spec (x0 :: xs) q (length (x0 :: xs)) 0 (length (x0 :: xs))) as (i & Hi & Hl & Hb & Ha);
        [simpl; lia|lia|lia|exists x0; auto|left; reflexivity|].
      rewrite Hi. exists (Z.of_nat i). split; [reflexivity|]. split; [lia|]. split; [lia|]. intros _. rewrite Nat2Z.id.
      split; [exists x0; auto|auto].
  Qed.

  Lemma bisearch_spec xs q : weak_order lt -> ascending lt xs -> xs <> [] ->
    exists i, bisearch lt xs q = Ok i /\ (-1 <= i < Z.of_nat (length xs))%Z /\
      (forall j x, nth_error xs j = Some x -> (Z.of_nat j <= i)%Z -> lt q x = false) /\
      (forall j x, nth_error xs j = Some x -> (i < Z.of_nat j)%Z -> lt q x = true).
  Proof.
    intros Hw Hs Hne. destruct (bisearch_local xs q Hne) as (i & Hi & Hr & H0 & H1). exists i. split; [assumption|]. split; [assumption|].
    assert (Hup : forall j k x y, j <= k -> nth_error xs j = Some x -> nth_error xs k = Some y -> lt q x = true -> lt q y = true).
    { intros j k x y L Hx Hy Hq. destruct (Nat.eq_dec j k) as [->|N]; [congruence|].
      assert (Hyx : lt y x = false) by (eapply (Hs j k); [lia|eassumption|eassumption]).
      destruct (lt q y) eqn:E; [reflexivity|]. rewrite <- Hq. symmetry. eapply (wo_neg lt Hw); eassumption. }
    destruct (Z_lt_le_dec i 0) as [L|L].
    - assert (i = (-1)%Z) by lia. subst i. destruct (H0 eq_refl) as (x0 & Hx0 & Hq). split; [intros; lia|].
      intros j x Hx _. eapply (Hup 0 j); [lia|eassumption|eassumption|assumption].
    - destruct (H1 L) as (_ & (x & Hx & Hq) & Ha). split.
      + intros j y Hy Hj. destruct (lt q y) eqn:E; [|reflexivity]. rewrite <- Hq. symmetry. eapply (Hup j (Z.to_nat i)); [lia|eassumption|eassumption|assumption].
      + intros j y Hy Hj. destruct Ha as [Ha|(z & Hz & Hqz)].
        * assert (j < length xs) by (apply nth_error_Some; congruence). lia.
        * eapply (Hup (S (Z.to_nat i)) j); [lia|eassumption|eassumption|assumption].
  Qed.
End Search.

Lemma bisearch_Z2 xs q i : ascending Qltb xs -> xs <> [] -> qbisearch xs q = Ok i ->
  (-1 <= i < Z.of_nat (length xs))%Z /\ (forall j x, nth_error xs j = Some x -> (Z.of_nat j <= i)%Z -> (x <= q)%Q) /\
  (forall j x, nth_error xs j = Some x -> (i < Z.of_nat j)%Z -> (q < x)%Q).
Proof.
  intros Hs Hne E. destruct (bisearch_spec Qltb xs q Q_weak_order Hs Hne) as (i' & E' & Hr & H1 & H2).
  rewrite E in E'. inversion E'; subst i'. split; [assumption|]. split; intros j x Hx Hj.
  - apply Qltb_ge. eapply H1; eassumption.
  - apply Qltb_lt. eapply H2; eassumption.
Qed.

Lemma nearest_spec xs q : ascending Qltb xs -> xs <> [] -> exists i, bisearch_nearest xs q = Ok i /\
  exists x, nth_error xs i = Some x /\ forall j y, nth_error xs j = Some y -> (Qabs (x - q) <= Qabs (y - q))%Q.
Proof.
  intros Hs Hne. unfold bisearch_nearest.
  destruct (bisearch_local Qltb xs q Hne) as (i & E & _). destruct (bisearch_Z2 _ _ _ Hs Hne E) as (Hr & H1 & H2).
  rewrite E. cbn [bind].
  assert (Hlen : length xs > 0) by (destruct xs; [congruence|simpl; lia]).
  destruct (Z.ltb_spec i 0) as [L|L].
  - exists 0. split; [reflexivity|]. destruct (at_lt xs 0 Hlen) as (x & Hx & _). exists x. split; [assumption|].
    intros j y Hy. assert (Hqx : (q < x)%Q) by (eapply H2; [exact Hx|lia]).
    assert (Hxy : (x <= y)%Q). { destruct j as [|j]; [assert (x = y) by congruence; subst; apply Qle_refl|]. apply Qltb_ge. eapply Hs; [|exact Hx|exact Hy]. lia. }
    rewrite !Qabs_pos by lra. lra.
  - destruct (Z.ltb_spec (Z.of_nat (length xs) - 1) (i + 1)) as [L2|L2].
    + assert (Ei : i = Z.of_nat (length xs - 1)) by lia. exists (length xs - 1). split; [reflexivity|].
      destruct (at_lt xs (length xs - 1)) as (x & Hx & _); [lia|]. exists x. split; [assumption|].
      intros j y Hy. assert (Hj : j < length xs) by (apply nth_error_Some; congruence).
      assert (Hxq : (x <= q)%Q) by (eapply H1; [exact Hx|lia]).
      assert (Hyx : (y <= x)%Q). { destruct (Nat.eq_dec j (length xs - 1)) as [->|N]; [assert (x = y) by congruence; subst; apply Qle_refl|].
        apply Qltb_ge. eapply Hs; [|exact Hy|exact Hx]. lia. }
      rewrite !Qabs_neg by lra. lra.
    + destruct (at_lt xs (Z.to_nat i)) as (xl & Hl & ->); [lia|]. destruct (at_lt xs (Z.to_nat (i + 1))) as (xr & Hrr & ->); [lia|].
      cbn [bind]. assert (Hlq : (xl <= q)%Q) by (eapply H1; [exact Hl|lia]). assert (Hqr : (q < xr)%Q) by (eapply H2; [exact Hrr|lia]).
      assert (Hy : forall j y, nth_error xs j = Some y -> (y <= xl)%Q \/ (xr <= y)%Q).
      { intros j y Hy. destruct (le_lt_dec j (Z.to_nat i)) as [Lj|Lj].
        - left. destruct (Nat.eq_dec j (Z.to_nat i)) as [->|N]; [assert (xl = y) by congruence; subst; apply Qle_refl|].
          apply Qltb_ge. eapply Hs; [|exact Hy|exact Hl]. lia.
        - right. destruct (Nat.eq_dec j (Z.to_nat (i + 1))) as [->|N]; [assert (xr = y) by congruence; subst; apply Qle_refl|].
          apply Qltb_ge. eapply Hs; [|exact Hrr|exact Hy]. lia. }
      destruct (Qltb (q - xl) (xr - q)) eqn:Ec; eexists; (split; [reflexivity|]).
      * exists xl. split; [assumption|]. apply Qltb_lt in Ec. intros j y Hj. rewrite (Qabs_neg (xl - q)) by lra. destruct (Hy _ _ Hj).
        -- rewrite Qabs_neg by lra. lra.
        -- rewrite Qabs_pos by lra. lra.
      * exists xr. split; [assumption|]. apply Qltb_ge in Ec. intros j y Hj. rewrite (Qabs_pos (xr - q)) by lra. destruct (Hy _ _ Hj).
        -- rewrite Qabs_neg by lra. lra.
        -- rewrite Qabs_pos by lra. lra.
Qed.

(** The weights: three regions. *)
Lemma interp_weight_spec xs q : ascending Qltb xs -> xs <> [] ->
  exists l r wl wr, bisearch_interp_weight xs q = Ok (l, r, (wl, wr)) /\ l < length xs /\ r < length xs /\
    (0 <= wl)%Q /\ (0 <= wr)%Q /\ (wl + wr == 1)%Q /\
    ((exists x0, nth_error xs 0 = Some x0 /\ (q < x0)%Q /\ l = 0 /\ r = 0) \/
     (exists xn, nth_error xs (length xs - 1) = Some xn /\ (xn <= q)%Q /\ l = length xs - 1 /\ r = length xs - 1) \/
     (exists xl xr, nth_error xs l = Some xl /\ nth_error xs r = Some xr /\ r = S l /\ (xl <= q)%Q /\ (q < xr)%Q /\
        (xl * wl + xr * wr == q)%Q)).
Proof.
  intros Hs Hne. unfold bisearch_interp_weight.
  destruct (bisearch_local Qltb xs q Hne) as (i & E & _). destruct (bisearch_Z2 _ _ _ Hs Hne E) as (Hr & H1 & H2).
  rewrite E. cbn [bind]. assert (Hlen : length xs > 0) by (destruct xs; [congruence|simpl; lia]).
  destruct (Z.ltb_spec i 0) as [L|L].
  - eexists 0, 0, _, _. split; [reflexivity|]. split; [lia|]. split; [lia|]. split; [lra|]. split; [lra|]. split; [lra|]. left.
    destruct (at_lt xs 0 Hlen) as (x & Hx & _). exists x. split; [assumption|]. split; [eapply H2; [exact Hx|lia]|auto].
  - cbv zeta. destruct (Z.ltb_spec (Z.of_nat (length xs) - 1) (i + 1)) as [L2|L2].
    + eexists _, _, _, _. split; [reflexivity|]. split; [lia|]. split; [lia|]. split; [lra|]. split; [lra|]. split; [lra|]. right. left.
      destruct (at_lt xs (length xs - 1)) as (x & Hx & _); [lia|]. exists x. split; [assumption|]. split; [eapply H1; [exact Hx|lia]|auto].
    + destruct (at_lt xs (Z.to_nat i)) as (xl & Hl & ->); [lia|]. destruct (at_lt xs (Z.to_nat (i + 1))) as (xr & Hrr & ->); [lia|].
      cbn [bind]. assert (Hlq : (xl <= q)%Q) by (eapply H1; [exact Hl|lia]). assert (Hqr : (q < xr)%Q) by (eapply H2; [exact Hrr|lia]).
      unfold linear_interp_weight. cbv zeta.
      assert (Hpos : (0 < (q - xl) + (xr - q))%Q) by lra.
      eexists _, _, _, _. split; [reflexivity|]. split; [lia|]. split; [lia|].
      split; [apply Qle_shift_div_l; lra|]. split; [apply Qle_shift_div_l; lra|]. split; [field; lra|].
      right. right. exists xl, xr. split; [assumption|]. split; [assumption|]. split; [lia|]. split; [assumption|]. split; [assumption|].
      field. lra.
Qed.

(** Interpolated values. *)
Lemma interp_cases xs ys q : ascending Qltb xs -> xs <> [] -> length ys = length xs ->
  exists v, bisearch_interp xs ys q = Ok v /\
    ((exists x0 y0, nth_error xs 0 = Some x0 /\ nth_error ys 0 = Some y0 /\ (q < x0)%Q /\ (v == y0)%Q) \/
     (exists xn yn, nth_error xs (length xs - 1) = Some xn /\ nth_error ys (length xs - 1) = Some yn /\ (xn <= q)%Q /\ (v == yn)%Q) \/
     (exists i xl xr yl yr, nth_error xs i = Some xl /\ nth_error xs (S i) = Some xr /\ nth_error ys i = Some yl /\
        nth_error ys (S i) = Some yr /\ (xl <= q)%Q /\ (q < xr)%Q /\ (v == yl + (yr - yl) * (q - xl) / (xr - xl))%Q)).
Proof.
  intros Hs Hne Hy. destruct (interp_weight_spec xs q Hs Hne) as (l & r & wl & wr & E & Hl & Hr & W1 & W2 & W3 & Hc).
  unfold bisearch_interp. rewrite E. cbn [bind].
  destruct (at_lt ys l) as (yl & Hyl & ->); [lia|]. destruct (at_lt ys r) as (yr & Hyr & ->); [lia|]. cbn [bind].
  eexists. split; [reflexivity|]. destruct Hc as [(x0 & Hx & Hq & -> & ->)|[(xn & Hx & Hq & El & Er)|(xl & xr & Hxl & Hxr & -> & Hq1 & Hq2 & Hw)]].
  - left. exists x0, yl. split; [assumption|]. split; [assumption|]. split; [assumption|].
    assert (yr = yl) by congruence. subst yr. setoid_replace (yl * wl + yl * wr)%Q with (yl * (wl + wr))%Q by ring. rewrite W3. ring.
  - right. left. exists xn, yl. subst l r. split; [assumption|]. split; [assumption|]. split; [assumption|].
    assert (yr = yl) by congruence. subst yr. setoid_replace (yl * wl + yl * wr)%Q with (yl * (wl + wr))%Q by ring. rewrite W3. ring.
  - right. right. exists l, xl, xr, yl, yr. split; [assumption|]. split; [assumption|]. split; [assumption|]. split; [assumption|].
    split; [assumption|]. split; [assumption|].
    assert (Ewr : (wr == (q - xl) / (xr - xl))%Q).
    { assert (A : (wl == 1 - wr)%Q) by lra. rewrite A in Hw. assert (B : (wr * (xr - xl) == q - xl)%Q) by lra. rewrite <- B. field. lra. }
    assert (Ewl : (wl == 1 - (q - xl) / (xr - xl))%Q) by (rewrite <- Ewr; lra). rewrite Ewl, Ewr. field. lra.
Qed.

Lemma frac_bounds a b x : (a <= x)%Q -> (x < b)%Q -> (0 <= (x - a) / (b - a) /\ (x - a) / (b - a) <= 1)%Q.
Proof.
  intros H1 H2. split; [apply Qle_shift_div_l; lra|apply Qle_shift_div_r; lra].
Qed.
Lemma seg_rw yl yr xl xr q : ~ (xr - xl == 0)%Q -> (yl + (yr - yl) * (q - xl) / (xr - xl) == yl + (yr - yl) * ((q - xl) / (xr - xl)))%Q.
Proof. intros H. field. assumption. Qed.

Lemma interp_node xs ys i x y : increasing Qltb xs -> length ys = length xs -> nth_error xs i = Some x -> nth_error ys i = Some y ->
  exists v, bisearch_interp xs ys x = Ok v /\ (v == y)%Q.
Proof.
  intros Hs Hy Hx Hyi. assert (Hi : i < length xs) by (apply nth_error_Some; congruence).
  assert (Hne : xs <> []) by (intros ->; simpl in Hi; lia).
  destruct (interp_cases xs ys x (increasing_ascending _ _ Q_weak_order Hs) Hne Hy) as (v & E & Hc). exists v. split; [assumption|].
  assert (Huniq : forall j z, nth_error xs j = Some z -> (i < j -> (x < z)%Q) /\ (j < i -> (z < x)%Q)).
  { intros j z Hz. split; intros L; apply Qltb_lt; [eapply (Hs i j)|eapply (Hs j i)]; eassumption. }
  destruct Hc as [(x0 & y0 & Hx0 & Hy0 & Hq & Hv)|[(xn & yn & Hxn & Hyn & Hq & Hv)|(j & xl & xr & yl & yr & Hl & Hr & Hyl & Hyr & Q1 & Q2 & Hv)]].
  - exfalso. destruct (Nat.eq_dec i 0) as [->|N]; [assert (x0 = x) by congruence; subst; lra|].
    destruct (Huniq _ _ Hx0) as [_ F]. specialize (F ltac:(lia)). lra.
  - destruct (Nat.eq_dec i (length xs - 1)) as [->|N].
    + assert (yn = y) by congruence. subst. assumption.
    + destruct (Huniq _ _ Hxn) as [F _]. specialize (F ltac:(lia)). lra.
  - assert (j = i).
    { destruct (Nat.lt_trichotomy i j) as [L|[L|L]]; [|congruence|].
      - destruct (Huniq _ _ Hl) as [F _]. specialize (F L). lra.
      - destruct (Nat.eq_dec (S j) i) as [Ei|N]; [rewrite Ei in Hr; assert (xr = x) by congruence; subst; lra|].
        destruct (Huniq _ _ Hr) as [_ F]. specialize (F ltac:(lia)). lra. }
    subst j. assert (xl = x) by congruence. assert (yl = y) by congruence. subst. rewrite Hv. field. lra.
Qed.

Lemma interp_affine xs ys q a b : ascending Qltb xs -> length ys = length xs ->
  (forall i x y, nth_error xs i = Some x -> nth_error ys i = Some y -> (y == a * x + b)%Q) ->
  (exists x0, nth_error xs 0 = Some x0 /\ (x0 <= q)%Q) -> (exists xn, nth_error xs (length xs - 1) = Some xn /\ (q <= xn)%Q) ->
  exists v, bisearch_interp xs ys q = Ok v /\ (v == a * q + b)%Q.
Proof.
  intros Hs Hy Ha (x0 & Hx0 & L0) (xn & Hxn & Ln). assert (Hne : xs <> []) by (intros ->; discriminate).
  destruct (interp_cases xs ys q Hs Hne Hy) as (v & E & Hc). exists v. split; [assumption|].
  destruct Hc as [(x0' & y0 & Hx0' & Hy0 & Hq & Hv)|[(xn' & yn & Hxn' & Hyn & Hq & Hv)|(j & xl & xr & yl & yr & Hl & Hr & Hyl & Hyr & Q1 & Q2 & Hv)]].
  - assert (x0' = x0) by congruence. subst. lra.
  - assert (xn' = xn) by congruence. subst. rewrite Hv, (Ha _ _ _ Hxn Hyn). assert (q == xn)%Q by lra. rewrite H. reflexivity.
  - rewrite Hv, (Ha _ _ _ Hl Hyl), (Ha _ _ _ Hr Hyr). field. lra.
Qed.

Lemma convex_between yl yr t lo hi : (0 <= t)%Q -> (t <= 1)%Q -> (lo <= yl)%Q -> (lo <= yr)%Q -> (yl <= hi)%Q -> (yr <= hi)%Q ->
  (lo <= yl + (yr - yl) * t /\ yl + (yr - yl) * t <= hi)%Q.
Proof. intros. split; nra. Qed.

Lemma interp_bounded xs ys q lo hi : ascending Qltb xs -> xs <> [] -> length ys = length xs ->
  (forall y, In y ys -> (lo <= y /\ y <= hi)%Q) -> exists v, bisearch_interp xs ys q = Ok v /\ (lo <= v /\ v <= hi)%Q.
Proof.
  intros Hs Hne Hy Hb. destruct (interp_cases xs ys q Hs Hne Hy) as (v & E & Hc). exists v. split; [assumption|].
  destruct Hc as [(x0' & y0 & Hx0' & Hy0 & Hq & Hv)|[(xn' & yn & Hxn' & Hyn & Hq & Hv)|(j & xl & xr & yl & yr & Hl & Hr & Hyl & Hyr & Q1 & Q2 & Hv)]].
  - rewrite Hv. apply Hb. eapply nth_error_In; eassumption.
  - rewrite Hv. apply Hb. eapply nth_error_In; eassumption.
  - rewrite Hv, seg_rw by lra. destruct (frac_bounds xl xr q Q1 Q2). apply nth_error_In, Hb in Hyl. apply nth_error_In, Hb in Hyr.
    apply convex_between; tauto.
Qed.
(** bounded by the two neighbouring ordinates *)
Lemma interp_between xs ys q i xl xr yl yr : ascending Qltb xs -> length ys = length xs ->
  nth_error xs i = Some xl -> nth_error xs (S i) = Some xr -> nth_error ys i = Some yl -> nth_error ys (S i) = Some yr ->
  (xl <= q)%Q -> (q < xr)%Q -> exists v, bisearch_interp xs ys q = Ok v /\ (v == yl + (yr - yl) * (q - xl) / (xr - xl))%Q /\
    ((yl <= v /\ v <= yr) \/ (yr <= v /\ v <= yl))%Q.
Proof.
  intros Hs Hy Hl Hr Hyl Hyr Q1 Q2. assert (Hne : xs <> []) by (intros ->; destruct i; discriminate).
  destruct (interp_cases xs ys q Hs Hne Hy) as (v & E & Hc). exists v. split; [assumption|].
  assert (Hmono : forall j k x y, j <= k -> nth_error xs j = Some x -> nth_error xs k = Some y -> (x <= y)%Q).
  { intros j k x y L Hx Hz. destruct (Nat.eq_dec j k) as [->|N]; [assert (x = y) by congruence; subst; apply Qle_refl|].
    apply Qltb_ge. eapply (Hs j k); [lia|eassumption|eassumption]. }
  assert (Hv : (v == yl + (yr - yl) * (q - xl) / (xr - xl))%Q).
  { destruct Hc as [(x0' & y0 & Hx0' & Hy0 & Hq & Hv)|[(xn' & yn & Hxn' & Hyn & Hq & Hv)|(j & xl' & xr' & yl' & yr' & Hl' & Hr' & Hyl' & Hyr' & Q1' & Q2' & Hv)]].
    - exfalso. assert (F := Hmono _ _ _ _ (Nat.le_0_l i) Hx0' Hl). lra.
    - exfalso. assert (S i < length xs) by (apply nth_error_Some; congruence).
      assert (F := Hmono (S i) (length xs - 1) _ _ ltac:(lia) Hr Hxn'). lra.
    - assert (j = i).
      { destruct (Nat.lt_trichotomy i j) as [L|[L|L]]; [|congruence|].
        - assert (F := Hmono _ _ _ _ L Hr Hl'). lra.
        - assert (F := Hmono _ _ _ _ L Hr' Hl). lra. }
      subst j. assert (xl' = xl) by congruence. assert (xr' = xr) by congruence. assert (yl' = yl) by congruence. assert (yr' = yr) by congruence.
      subst. assumption. }
  split; [assumption|]. rewrite Hv, seg_rw by lra. destruct (frac_bounds xl xr q Q1 Q2).
  destruct (Qlt_le_dec yl yr); [left|right]; apply convex_between; lra.
Qed.

Lemma interp_mono xs ys q1 q2 v1 v2 : ascending Qltb xs -> ascending Qltb ys -> xs <> [] -> length ys = length xs -> (q1 <= q2)%Q ->
  bisearch_interp xs ys q1 = Ok v1 -> bisearch_interp xs ys q2 = Ok v2 -> (v1 <= v2)%Q.
Proof.
  intros Hs Hsy Hne Hy Hq E1 E2.
  destruct (interp_cases xs ys q1 Hs Hne Hy) as (v1' & E1' & Hc1). destruct (interp_cases xs ys q2 Hs Hne Hy) as (v2' & E2' & Hc2).
  assert (v1' = v1) by congruence. assert (v2' = v2) by congruence. subst.
  assert (Hmx : forall zs, ascending Qltb zs -> forall j k x y, j <= k -> nth_error zs j = Some x -> nth_error zs k = Some y -> (x <= y)%Q).
  { intros zs Hz j k x y L Hx Hz'. destruct (Nat.eq_dec j k) as [->|N]; [assert (x = y) by congruence; subst; apply Qle_refl|].
    apply Qltb_ge. eapply (Hz j k); [lia|eassumption|eassumption]. }
  assert (Hb1 : exists i yi, nth_error ys i = Some yi /\ (v1 <= yi)%Q /\ (i = 0 \/ (exists xl, nth_error xs (pred i) = Some xl /\ (xl <= q1)%Q))).
  { destruct Hc1 as [(x0 & y0 & A & B & C & D)|[(xn & yn & A & B & C & D)|(j & xl & xr & yl & yr & A & B & C & D & F & G & H)]].
    - exists 0, y0. split; [assumption|]. split; [lra|auto].
    - exists (length xs - 1), yn. split; [assumption|]. split; [lra|]. right. destruct (at_lt xs (pred (length xs - 1))) as (z & Hz & _).
      { assert (length xs - 1 < length xs) by (apply nth_error_Some; congruence). lia. }
      exists z. split; [assumption|]. assert (K := Hmx _ Hs (pred (length xs - 1)) (length xs - 1) _ _ ltac:(lia) Hz A). lra.
    - exists (S j), yr. split; [assumption|]. split; [|right; exists xl; auto].
      rewrite H, seg_rw by lra. destruct (frac_bounds xl xr q1 F G). assert (K := Hmx _ Hsy j (S j) _ _ ltac:(lia) C D). nra. }
  destruct Hc2 as [(x0 & y0 & A & B & C & D)|[(xn & yn & A & B & C & D)|(j & xl & xr & yl & yr & A & B & C & D & F & G & H)]].
  - (* q1 <= q2 < x0 *) destruct Hc1 as [(x0' & y0' & A' & B' & C' & D')|[(xn' & yn' & A' & B' & C' & D')|(j' & xl' & xr' & yl' & yr' & A' & B' & C' & D' & F' & G' & H')]].
    + assert (y0' = y0) by congruence. subst. lra.
    + assert (K := Hmx _ Hs 0 (length xs - 1) _ _ ltac:(lia) A A'). lra.
    + assert (K := Hmx _ Hs 0 j' _ _ ltac:(lia) A A'). lra.
  - destruct Hb1 as (i & yi & Hi & Hv & _). assert (i < length ys) by (apply nth_error_Some; congruence).
    assert (K := Hmx _ Hsy i (length xs - 1) _ _ ltac:(lia) Hi B). lra.
  - assert (Hv2 : (yl <= v2)%Q). { rewrite H, seg_rw by lra. destruct (frac_bounds xl xr q2 F G). assert (K := Hmx _ Hsy j (S j) _ _ ltac:(lia) C D). nra. }
    destruct Hc1 as [(x0' & y0' & A' & B' & C' & D')|[(xn' & yn' & A' & B' & C' & D')|(j' & xl' & xr' & yl' & yr' & A' & B' & C' & D' & F' & G' & H')]].
    + assert (K := Hmx _ Hsy 0 j _ _ ltac:(lia) B' C). lra.
    + exfalso. assert (S j < length xs) by (apply nth_error_Some; congruence). assert (K := Hmx _ Hs (S j) (length xs - 1) _ _ ltac:(lia) B A'). lra.
    + destruct (Nat.lt_trichotomy j' j) as [L|[L|L]].
      * assert (K := Hmx _ Hsy (S j') j _ _ L D' C). assert (K2 := Hmx _ Hsy j' (S j') _ _ ltac:(lia) C' D').
        assert (v1 <= yr')%Q; [|lra]. rewrite H', seg_rw by lra. destruct (frac_bounds xl' xr' q1 F' G'). nra.
      * subst j'. assert (xl' = xl) by congruence. assert (xr' = xr) by congruence. assert (yl' = yl) by congruence. assert (yr' = yr) by congruence. subst.
        assert (K2 := Hmx _ Hsy j (S j) _ _ ltac:(lia) C' D').
        rewrite H, H', !seg_rw by lra. assert (Hle : ((q1 - xl) / (xr - xl) <= (q2 - xl) / (xr - xl))%Q).
        { unfold Qdiv. apply Qmult_le_compat_r; [lra|]. apply Qinv_le_0_compat. lra. }
        nra.
      * exfalso. assert (K := Hmx _ Hs (S j) j' _ _ L B A'). lra.
Qed.

Lemma fix_oob_spec xs ys q yl yr x0 xn : nth_error xs 0 = Some x0 -> nth_error xs (length xs - 1) = Some xn ->
  ((q < x0)%Q -> bisearch_interp_fix_oob xs ys q yl yr = Ok yl) /\
  ((x0 <= q)%Q -> (xn < q)%Q -> bisearch_interp_fix_oob xs ys q yl yr = Ok yr) /\
  ((x0 <= q)%Q -> (q <= xn)%Q -> bisearch_interp_fix_oob xs ys q yl yr = bisearch_interp xs ys q).
Proof.
  intros H0 Hn. unfold bisearch_interp_fix_oob. rewrite (proj2 (at_Ok xs 0 x0) H0). cbn [bind].
  split; [|split]; intros.
  - rewrite (proj2 (Qltb_lt _ _)) by assumption. reflexivity.
  - rewrite (proj2 (Qltb_ge _ _)) by assumption. rewrite (proj2 (at_Ok _ _ _) Hn). cbn [bind]. rewrite (proj2 (Qltb_lt _ _)) by assumption. reflexivity.
  - rewrite (proj2 (Qltb_ge _ _)) by assumption. rewrite (proj2 (at_Ok _ _ _) Hn). cbn [bind]. rewrite (proj2 (Qltb_ge _ _)) by assumption. reflexivity.
Qed.

(** bilinear *)
Lemma interp_2d_bilinear xs1 xs2 y q1 q2 a b c d x01 xn1 x02 xn2 : ascending Qltb xs1 -> ascending Qltb xs2 ->
  nth_error xs1 0 = Some x01 -> nth_error xs1 (length xs1 - 1) = Some xn1 -> (x01 <= q1)%Q -> (q1 <= xn1)%Q ->
  nth_error xs2 0 = Some x02 -> nth_error xs2 (length xs2 - 1) = Some xn2 -> (x02 <= q2)%Q -> (q2 <= xn2)%Q ->
  (forall i x1, nth_error xs1 i = Some x1 -> exists row, nth_error y i = Some row /\
     forall j x2, nth_error xs2 j = Some x2 -> exists v, nth_error row j = Some v /\ (v == a + b * x1 + c * x2 + d * x1 * x2)%Q) ->
  exists v, bisearch_interp_2d xs1 xs2 y q1 q2 = Ok v /\ (v == a + b * q1 + c * q2 + d * q1 * q2)%Q.
Proof.
  intros Hs1 Hs2 H01 Hn1 L01 Ln1 H02 Hn2 L02 Ln2 Hy.
  assert (Ne1 : xs1 <> []) by (intros ->; discriminate). assert (Ne2 : xs2 <> []) by (intros ->; discriminate).
  assert (Hw : forall xs q x0 xn, ascending Qltb xs -> xs <> [] -> nth_error xs 0 = Some x0 -> nth_error xs (length xs - 1) = Some xn -> (x0 <= q)%Q -> (q <= xn)%Q ->
     exists l r wl wr xl xr, bisearch_interp_weight xs q = Ok (l, r, (wl, wr)) /\ nth_error xs l = Some xl /\ nth_error xs r = Some xr /\
       (wl + wr == 1)%Q /\ (xl * wl + xr * wr == q)%Q).
  { intros xs q x0 xn Hs Hne H0 Hn L0 Ln. destruct (interp_weight_spec xs q Hs Hne) as (l & r & wl & wr & E & Hl & Hr & W1 & W2 & W3 & Hc).
    destruct Hc as [(x0' & Hx & Hq & -> & ->)|[(xn' & Hx & Hq & El & Er)|(xl & xr & Hxl & Hxr & -> & Hq1 & Hq2 & Hww)]].
    - assert (x0' = x0) by congruence. subst. lra.
    - assert (xn' = xn) by congruence. subst. exists (length xs - 1), (length xs - 1), wl, wr, xn, xn. repeat split; try assumption.
      setoid_replace (xn * wl + xn * wr)%Q with (xn * (wl + wr))%Q by ring. rewrite W3. lra.
    - exists l, (S l), wl, wr, xl, xr. repeat split; assumption. }
  destruct (Hw _ _ _ _ Hs1 Ne1 H01 Hn1 L01 Ln1) as (l1 & r1 & wl1 & wr1 & xl1 & xr1 & E1 & Xl1 & Xr1 & S1 & M1).
  destruct (Hw _ _ _ _ Hs2 Ne2 H02 Hn2 L02 Ln2) as (l2 & r2 & wl2 & wr2 & xl2 & xr2 & E2 & Xl2 & Xr2 & S2 & M2).
  unfold bisearch_interp_2d. rewrite E1. cbn [bind]. rewrite E2. cbn [bind].
  destruct (Hy _ _ Xl1) as (rl & Rl & Vl). destruct (Hy _ _ Xr1) as (rr & Rr & Vr).
  destruct (Vl _ _ Xl2) as (v1 & N1 & Q1). destruct (Vl _ _ Xr2) as (v2 & N2 & Q2). destruct (Vr _ _ Xl2) as (v3 & N3 & Q3). destruct (Vr _ _ Xr2) as (v4 & N4 & Q4).
  unfold at2. rewrite (proj2 (at_Ok _ _ _) Rl), (proj2 (at_Ok _ _ _) Rr). cbn [bind].
  rewrite (proj2 (at_Ok _ _ _) N1), (proj2 (at_Ok _ _ _) N2), (proj2 (at_Ok _ _ _) N3), (proj2 (at_Ok _ _ _) N4). cbn [bind].
  eexists. split; [reflexivity|]. rewrite Q1, Q2, Q3, Q4.
  setoid_replace ((a + b * xl1 + c * xl2 + d * xl1 * xl2) * (wl1 * wl2) + (a + b * xl1 + c * xr2 + d * xl1 * xr2) * (wl1 * wr2) +
   (a + b * xr1 + c * xl2 + d * xr1 * xl2) * (wr1 * wl2) + (a + b * xr1 + c * xr2 + d * xr1 * xr2) * (wr1 * wr2))%Q with
   (a * (wl1 + wr1) * (wl2 + wr2) + b * (xl1 * wl1 + xr1 * wr1) * (wl2 + wr2) + c * (wl1 + wr1) * (xl2 * wl2 + xr2 * wr2) +
    d * (xl1 * wl1 + xr1 * wr1) * (xl2 * wl2 + xr2 * wr2))%Q by ring.
  rewrite S1, S2, M1, M2. ring.
Qed.

(** Linear *)
Lemma no_equal_spec xs : no_equal_neighbours xs = true <->
  forall i a b, nth_error xs i = Some a -> nth_error xs (S i) = Some b -> ~ (a == b)%Q.
Proof.
  induction xs as [|x [|y xs] IH].
  - split; [intros _ [|] a b H; discriminate|reflexivity].
  - split; [intros _ [|[|]] a b H1 H2; discriminate|reflexivity].
  - cbn [no_equal_neighbours]. rewrite andb_true_iff, negb_true_iff, IH. split.
    + intros [H1 H2] [|i] a b Ha Hb.
      * simpl in Ha, Hb. inversion Ha; inversion Hb; subst. intros E. assert (F : Qeq_bool (b - a) 0 = true) by (apply Qeq_bool_iff; rewrite E; ring). congruence.
      * apply (H2 i); assumption.
    + intros H. split.
      * destruct (Qeq_bool (y - x) 0) eqn:E; [|reflexivity]. apply Qeq_bool_iff in E. exfalso. apply (H 0 x y eq_refl eq_refl). lra.
      * intros i a b Ha Hb. apply (H (S i) a b Ha Hb).
Qed.
Lemma linear_new_spec xs ys s : linear_new xs ys true = Ok s <->
  s = {| x_nodes := xs; y_nodes := ys |} /\ length ys = length xs /\ 2 <= length xs /\
  forall i a b, nth_error xs i = Some a -> nth_error xs (S i) = Some b -> ~ (a == b)%Q.
Proof.
  unfold linear_new. cbn [andb]. rewrite <- no_equal_spec.
  destruct (Nat.eqb_spec (length ys) (length xs)) as [E|E]; cbn [andb negb].
  - destruct (no_equal_neighbours xs); cbn [negb].
    + destruct (Nat.leb_spec 2 (length xs)); split; intros H0; try (inversion H0; auto; fail).
      * destruct H0 as (-> & _). reflexivity.
      * exfalso. lia.
    + split; intros H; [discriminate|]. destruct H as (_ & _ & _ & H). discriminate.
  - split; intros H; [discriminate|]. destruct H as (_ & H & _). contradiction.
Qed.
Lemma increasing_accepted xs ys : increasing Qltb xs -> length ys = length xs -> 2 <= length xs ->
  linear_new xs ys true = Ok {| x_nodes := xs; y_nodes := ys |}.
Proof.
  intros Hs Hy Hl. apply linear_new_spec. split; [reflexivity|]. split; [assumption|]. split; [assumption|].
  intros i a b Ha Hb E. assert (F : Qltb a b = true) by (eapply (Hs i (S i)); [lia|eassumption|eassumption]). apply Qltb_lt in F. lra.
Qed.

Lemma mapM_ex {A B} (f : A -> result B) l : (forall a, In a l -> exists b, f a = Ok b) -> exists bs, mapM f l = Ok bs.
Proof.
  induction l as [|a l IH]; intros H; [exists []; reflexivity|]. destruct (H a (or_introl eq_refl)) as [b Hb].
  destruct IH as [bs Hbs]; [intros; apply H; right; assumption|]. exists (b :: bs). simpl. rewrite Hb. simpl. rewrite Hbs. reflexivity.
Qed.
Lemma Forall2_nth_eq {A B} (P : A -> B -> Prop) l l' i a b : Forall2 P l l' -> nth_error l i = Some a -> nth_error l' i = Some b -> P a b.
Proof.
  intros H. revert i. induction H; intros [|i] Ha Hb; simpl in *; try discriminate; [inversion Ha; inversion Hb; subst; assumption|eauto].
Qed.
Lemma derivative_spec s : 2 <= length (x_nodes s) -> length (y_nodes s) = length (x_nodes s) ->
  exists s', derivative s = Ok s' /\ x_nodes s' = x_nodes s /\ length (y_nodes s') = length (x_nodes s) /\
    forall i d, nth_error (y_nodes s') i = Some d -> exists l r xl xr yl yr,
      (i = 0 /\ l = 0 /\ r = 1 \/ S i = length (x_nodes s) /\ S l = i /\ r = i \/ 0 < i /\ S i < length (x_nodes s) /\ S l = i /\ r = S i) /\
      nth_error (x_nodes s) l = Some xl /\ nth_error (x_nodes s) r = Some xr /\
      nth_error (y_nodes s) l = Some yl /\ nth_error (y_nodes s) r = Some yr /\ (d == (yr - yl) / (xr - xl))%Q.
Proof.
  intros Hn Hy. unfold derivative. set (n := length (x_nodes s)) in *.
  assert (Hidx : forall i, i < n -> exists l r, (if Nat.eqb i 0 then (0, 1) else if Nat.eqb (i + 1) n then (n - 2, n - 1) else (i - 1, i + 1)) = (l, r) /\ l < n /\ r < n /\
       (i = 0 /\ l = 0 /\ r = 1 \/ S i = n /\ S l = i /\ r = i \/ 0 < i /\ S i < n /\ S l = i /\ r = S i)).
  { intros i Hi. destruct (Nat.eqb_spec i 0) as [->|N]; [exists 0, 1; repeat split; lia|].
    destruct (Nat.eqb_spec (i + 1) n) as [E|E]; [exists (n - 2), (n - 1)|exists (i - 1), (i + 1)]; repeat split; lia. }
  destruct (mapM_ex (deriv_at (x_nodes s) (y_nodes s)) (seq 0 n)) as [yds Hyds].
  { intros i Hi. apply in_seq in Hi. destruct (Hidx i ltac:(lia)) as (l & r & E & Hl & Hr & _). unfold deriv_at. fold n. rewrite E.
    destruct (at_lt (x_nodes s) l Hl) as (xl & _ & ->). destruct (at_lt (x_nodes s) r Hr) as (xr & _ & ->).
    destruct (at_lt (y_nodes s) l) as (yl & _ & ->); [lia|]. destruct (at_lt (y_nodes s) r) as (yr & _ & ->); [lia|]. eexists. reflexivity. }
  rewrite Hyds. cbn [bind]. unfold linear_new. cbn [andb]. destruct (Nat.leb_spec 2 (length (x_nodes s))); [|lia].
  apply mapM_Ok in Hyds. assert (Hlen : length yds = n). { apply Forall2_len in Hyds. rewrite seq_length in Hyds. congruence. }
  eexists. split; [reflexivity|]. cbn [x_nodes y_nodes]. split; [reflexivity|]. split; [assumption|].
  intros i d Hd. assert (Hi : i < n) by (rewrite <- Hlen; apply nth_error_Some; congruence).
  assert (Hsi : nth_error (seq 0 n) i = Some i). { rewrite (nth_error_nth' _ 0) by (rewrite seq_length; assumption). rewrite seq_nth by assumption. reflexivity. }
  assert (Hde := Forall2_nth_eq _ _ _ _ _ _ Hyds Hsi Hd). cbv beta in Hde.
  destruct (Hidx i Hi) as (l & r & E & Hl & Hr & Hcase). unfold deriv_at in Hde. fold n in Hde. rewrite E in Hde.
  destruct (at_lt (x_nodes s) l Hl) as (xl & Xl & Al). destruct (at_lt (x_nodes s) r Hr) as (xr & Xr & Ar).
  destruct (at_lt (y_nodes s) l) as (yl & Yl & Bl); [lia|]. destruct (at_lt (y_nodes s) r) as (yr & Yr & Br); [lia|].
  rewrite Al, Ar, Bl, Br in Hde. cbn [bind] in Hde. inversion Hde; subst d.
  exists l, r, xl, xr, yl, yr. repeat split; try assumption.
Qed.
