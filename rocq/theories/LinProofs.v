From Coq Require Import Reals Lra Lia.
From Verif Require Import Base LinModel.
Local Open Scope list_scope. Local Open Scope R_scope.

Lemma lerp_l p q : lerp p q (fst p) = snd p.
Proof. unfold lerp. unfold Rdiv. ring. Qed.
Lemma lerp_r p q : fst p <> fst q -> lerp p q (fst q) = snd q.
Proof. intros H. unfold lerp. field. intros E. apply H. lra. Qed.
Lemma lerp_flip p q x : fst p <> fst q -> lerp q p x = lerp p q x.
Proof. intros H. unfold lerp. field. split; intros E; apply H; lra. Qed.
Lemma lerp_inv p q x : fst p <> fst q -> snd p <> snd q -> lerp (snd p, fst p) (snd q, fst q) (lerp p q x) = x.
Proof. intros H H'. unfold lerp. cbn [fst snd]. field. split; intros E; [apply H'|apply H]; lra. Qed.
(** The linear piece has the sign of its slope. *)
Lemma lerp_sub p q x : fst p <> fst q -> lerp p q x - snd q = (x - fst q) * ((snd q - snd p) / (fst q - fst p)).
Proof. intros H. unfold lerp. field. intros E. apply H. lra. Qed.
Lemma lerp_sub_l p q x : lerp p q x - snd p = (x - fst p) * ((snd q - snd p) / (fst q - fst p)).
Proof. unfold lerp, Rdiv. ring. Qed.

(** [x] belongs to the [i]-th of the pieces between neighbouring points (the outer ones extend to infinity). *)
Definition valid (pts : list (R * R)) (i : nat) (p q : R * R) (x : R) : Prop :=
  nth_error pts i = Some p /\ nth_error pts (S i) = Some q /\ (i = 0%nat \/ fst p <= x) /\ (S (S i) = length pts \/ x <= fst q).
Definition sorted (pts : list (R * R)) : Prop := climbing (map fst pts).
Lemma sorted_nth pts i j p q : sorted pts -> (i < j)%nat -> nth_error pts i = Some p -> nth_error pts j = Some q -> fst p < fst q.
Proof. intros S L Hp Hq. apply (S i j (fst p) (fst q) L); apply map_nth_error; assumption. Qed.
Lemma sorted_tail p pts : sorted (p :: pts) -> sorted pts.
Proof. intros S i j a b L Ha Hb. apply (S (Datatypes.S i) (Datatypes.S j) a b); [lia|exact Ha|exact Hb]. Qed.
Lemma piece_valid : forall rest p i a b x, sorted (p :: rest) -> valid (p :: rest) i a b x -> piece p rest x = lerp a b x.
Proof.
  induction rest as [|q rest IH]; intros p i a b x S (Ha & Hb & HL & HR); [destruct i; discriminate Hb|].
  destruct rest as [|q' rest]; [destruct i as [|i]; [cbn in Ha, Hb; injection Ha as <-; injection Hb as <-; reflexivity|destruct i; discriminate Hb]|].
  assert (ST : sorted (q :: q' :: rest)) by (eapply sorted_tail; exact S).
  change (piece p (q :: q' :: rest) x) with (if Rle_dec x (fst q) then lerp p q x else piece q (q' :: rest) x).
  destruct i as [|i].
  - cbn in Ha, Hb. injection Ha as <-. injection Hb as <-. destruct (Rle_dec x (fst q)) as [L|L]; [reflexivity|]. destruct HR as [HR|HR]; [discriminate HR|contradiction].
  - destruct (Rle_dec x (fst q)) as [L|L].
    + destruct HL as [HL|HL]; [discriminate|]. change (nth_error (q :: q' :: rest) i = Some a) in Ha.
      destruct i as [|i]; [|exfalso; pose proof (sorted_nth _ 0 (Datatypes.S i) q a ST ltac:(lia) eq_refl Ha); lra].
      injection Ha as <-. assert (x = fst q) by lra. subst x. rewrite lerp_l. rewrite lerp_r; [reflexivity|].
      pose proof (sorted_nth _ 0 1 p q S ltac:(lia) eq_refl eq_refl). lra.
    + apply (IH q i); [exact ST|]. split; [exact Ha|]. split; [exact Hb|]. split; [|destruct HR as [HR|HR]; [left; cbn in HR |- *; lia|right; exact HR]].
      destruct HL as [HL|HL]; [discriminate|right; exact HL].
Qed.
Lemma pwl_valid pts i a b x : sorted pts -> valid pts i a b x -> pwl pts x = lerp a b x.
Proof. intros S V. destruct pts as [|p rest]; [destruct V as (H & _); destruct i; discriminate H|]. apply (piece_valid rest p i); assumption. Qed.
Lemma valid_exists : forall pts x, (2 <= length pts)%nat -> exists i p q, valid pts i p q x.
Proof.
  induction pts as [|p pts IH]; intros x L; [cbn in L; lia|]. destruct pts as [|q pts]; [cbn in L; lia|]. destruct pts as [|q' pts].
  - exists 0%nat, p, q. unfold valid. cbn. auto.
  - destruct (Rle_dec x (fst q)) as [H|H].
    + exists 0%nat, p, q. unfold valid. cbn. auto.
    + destruct (IH x ltac:(cbn; lia)) as (i & a & b & Ha & Hb & HL & HR). exists (S i), a, b. split; [exact Ha|]. split; [exact Hb|]. split.
      * right. destruct HL as [->|HL]; [cbn in Ha; injection Ha as <-; lra|exact HL].
      * destruct HR as [HR|HR]; [left; cbn in HR |- *; lia|right; exact HR].
Qed.
Lemma valid_diff pts i p q x : sorted pts -> valid pts i p q x -> fst p < fst q.
Proof. intros S (Hp & Hq & _). apply (sorted_nth pts i (Datatypes.S i)); auto. Qed.
(** At a point the value is the point's. *)
Lemma pwl_node pts i p : sorted pts -> (2 <= length pts)%nat -> nth_error pts i = Some p -> pwl pts (fst p) = snd p.
Proof.
  intros S L Hp. assert (I : (i < length pts)%nat) by (apply nth_error_Some; congruence).
  destruct i as [|i].
  - destruct (nth_error pts 1) as [q|] eqn:Hq; [|apply nth_error_None in Hq; lia]. pose proof (sorted_nth _ _ _ _ _ S (ltac:(lia) : (0 < 1)%nat) Hp Hq).
    rewrite (pwl_valid pts 0 p q); [apply lerp_l|exact S|]. split; [exact Hp|]. split; [exact Hq|]. split; [left; reflexivity|right; lra].
  - destruct (nth_error pts i) as [q|] eqn:Hq; [|apply nth_error_None in Hq; lia]. pose proof (sorted_nth _ _ _ _ _ S (ltac:(lia) : (i < Datatypes.S i)%nat) Hq Hp).
    rewrite (pwl_valid pts i q p); [apply lerp_r; lra|exact S|]. split; [exact Hq|]. split; [exact Hp|]. split; right; lra.
Qed.

(** ** Sorting *)
Lemma sorted_cons p pts : (forall q, In q pts -> fst p < fst q) -> sorted pts -> sorted (p :: pts).
Proof.
  intros H S i j a b L Ha Hb. destruct j as [|j]; [lia|]. destruct i as [|i]; [|apply (S i j); [lia|exact Ha|exact Hb]].
  cbn in Ha. injection Ha as <-. cbn in Hb. apply nth_error_In in Hb. apply in_map_iff in Hb. destruct Hb as (q & <- & Hq). apply H, Hq.
Qed.
Lemma isort_sorted : forall pts, sorted pts -> isort pts = pts.
Proof.
  induction pts as [|p pts IH]; intros S; [reflexivity|]. cbn [isort]. rewrite (IH (sorted_tail _ _ S)). destruct pts as [|q pts]; [reflexivity|]. cbn [ins].
  destruct (Rlt_dec (fst q) (fst p)) as [L|L]; [|reflexivity]. pose proof (sorted_nth _ 0 1 p q S ltac:(lia) eq_refl eq_refl). lra.
Qed.
Lemma ins_last p : forall l, (forall q, In q l -> fst q < fst p) -> ins p l = l ++ [p].
Proof.
  induction l as [|q l IH]; intros H; [reflexivity|]. cbn [ins]. destruct (Rlt_dec (fst q) (fst p)) as [L|L]; [|exfalso; apply L, H; left; reflexivity].
  rewrite IH by (intros; apply H; right; assumption). reflexivity.
Qed.
Lemma isort_falling : forall pts, falling (map fst pts) -> isort pts = rev pts.
Proof.
  induction pts as [|p pts IH]; intros F; [reflexivity|]. cbn [isort rev]. rewrite IH; [apply ins_last|].
  - intros q Hq. apply in_rev in Hq. apply In_nth_error in Hq. destruct Hq as [j Hj]. apply (F 0%nat (S j) (fst p) (fst q)); [lia|reflexivity|]. cbn. apply map_nth_error, Hj.
  - intros i j a b L Ha Hb. apply (F (S i) (S j) a b); [lia|exact Ha|exact Hb].
Qed.
Lemma sorted_distinct : forall pts, sorted pts -> distinct pts = true.
Proof.
  induction pts as [|p pts IH]; intros S; [reflexivity|]. destruct pts as [|q pts]; [reflexivity|]. cbn [distinct].
  destruct (Rlt_dec (fst p) (fst q)) as [L|L]; [apply IH; eapply sorted_tail; exact S|]. exfalso. apply L. exact (sorted_nth _ 0 1 p q S ltac:(lia) eq_refl eq_refl).
Qed.
Lemma nth_rev {A} : forall (l : list A) i, (i < length l)%nat -> nth_error (rev l) i = nth_error l (length l - S i).
Proof.
  induction l as [|a l IH]; intros i H; [cbn in H; lia|]. cbn [rev length] in *. destruct (Nat.eq_dec i (length l)) as [->|N].
  - rewrite nth_error_app2 by (rewrite rev_length; lia). rewrite rev_length. replace (length l - length l)%nat with 0%nat by lia. replace (S (length l) - S (length l))%nat with 0%nat by lia. reflexivity.
  - rewrite nth_error_app1 by (rewrite rev_length; lia). rewrite IH by lia. replace (S (length l) - S i)%nat with (S (length l - S i)) by lia. reflexivity.
Qed.
Lemma rev_sorted pts : falling (map fst pts) -> sorted (rev pts).
Proof.
  intros F i j a b L Ha Hb. rewrite map_rev in Ha, Hb. assert (J : (j < length (map fst pts))%nat) by (rewrite <- (rev_length (map fst pts)); apply nth_error_Some; congruence).
  rewrite nth_rev in Ha, Hb by lia. eapply F; [|exact Hb|exact Ha]. lia.
Qed.
Lemma combine_swap : forall (xs ys : list R), combine ys xs = map (fun p => (snd p, fst p)) (combine xs ys).
Proof. induction xs as [|x xs IH]; intros [|y ys]; try reflexivity. cbn [combine map fst snd]. rewrite IH. reflexivity. Qed.
Lemma combine_fst : forall (xs ys : list R), length xs = length ys -> map fst (combine xs ys) = xs.
Proof. induction xs as [|x xs IH]; intros [|y ys] L; try reflexivity; try discriminate L. cbn. rewrite IH by (cbn in L; lia). reflexivity. Qed.
Lemma combine_snd : forall (xs ys : list R), length xs = length ys -> map snd (combine xs ys) = ys.
Proof. induction xs as [|x xs IH]; intros [|y ys] L; try reflexivity; try discriminate L. cbn. rewrite IH by (cbn in L; lia). reflexivity. Qed.

(** ** Inverse *)
Lemma valid_swap pts i p q x : sorted pts -> climbing (map snd pts) -> valid pts i p q x ->
  valid (map (fun p => (snd p, fst p)) pts) i (snd p, fst p) (snd q, fst q) (lerp p q x).
Proof.
  intros S C V. pose proof (valid_diff _ _ _ _ _ S V) as D. destruct V as (Hp & Hq & HL & HR).
  assert (E : snd p < snd q) by (apply (C i (Datatypes.S i)); [lia|apply map_nth_error, Hp|apply map_nth_error, Hq]).
  assert (K : 0 < (snd q - snd p) / (fst q - fst p)) by (apply Rdiv_lt_0_compat; lra).
  split; [exact (map_nth_error (fun p => (snd p, fst p)) _ _ Hp)|]. split; [exact (map_nth_error (fun p => (snd p, fst p)) _ _ Hq)|]. cbn [fst]. split.
  - destruct HL as [HL|HL]; [left; exact HL|right]. pose proof (lerp_sub_l p q x). assert (0 <= (x - fst p) * ((snd q - snd p) / (fst q - fst p))) by (apply Rmult_le_pos; lra). lra.
  - rewrite map_length. destruct HR as [HR|HR]; [left; exact HR|right]. pose proof (lerp_sub p q x ltac:(lra)). nra.
Qed.
Lemma valid_swap_rev pts i p q x : sorted pts -> falling (map snd pts) -> valid pts i p q x ->
  valid (rev (map (fun p => (snd p, fst p)) pts)) (length pts - 2 - i) (snd q, fst q) (snd p, fst p) (lerp p q x).
Proof.
  intros S C V. pose proof (valid_diff _ _ _ _ _ S V) as D. destruct V as (Hp & Hq & HL & HR).
  assert (E : snd q < snd p) by (apply (C i (Datatypes.S i)); [lia|apply map_nth_error, Hp|apply map_nth_error, Hq]).
  assert (K : 0 < (snd p - snd q) / (fst q - fst p)) by (apply Rdiv_lt_0_compat; lra). assert (K' : (snd q - snd p) / (fst q - fst p) = - ((snd p - snd q) / (fst q - fst p))) by (field; lra).
  assert (I : (Datatypes.S i < length pts)%nat) by (apply nth_error_Some; congruence).
  split; [rewrite nth_rev by (rewrite map_length; lia); rewrite map_length; replace (length pts - Datatypes.S (length pts - 2 - i))%nat with (Datatypes.S i) by lia; exact (map_nth_error (fun p => (snd p, fst p)) _ _ Hq)|].
  split; [rewrite nth_rev by (rewrite map_length; lia); rewrite map_length; replace (length pts - Datatypes.S (Datatypes.S (length pts - 2 - i)))%nat with i by lia; exact (map_nth_error (fun p => (snd p, fst p)) _ _ Hp)|].
  cbn [fst]. split.
  - destruct HR as [HR|HR]; [left; lia|right]. pose proof (lerp_sub p q x ltac:(lra)). rewrite K' in *. nra.
  - rewrite rev_length, map_length. destruct HL as [HL|HL]; [left; lia|right]. pose proof (lerp_sub_l p q x). rewrite K' in *. nra.
Qed.
Lemma map_fst_swap (pts : list (R * R)) : map fst (map (fun p => (snd p, fst p)) pts) = map snd pts.
Proof. rewrite map_map. reflexivity. Qed.
Lemma pwl_inverse pts x : (2 <= length pts)%nat -> sorted pts -> climbing (map snd pts) -> pwl (map (fun p => (snd p, fst p)) pts) (pwl pts x) = x.
Proof.
  intros L S C. destruct (valid_exists pts x L) as (i & p & q & V). rewrite (pwl_valid pts i p q x S V). assert (S' : sorted (map (fun p => (snd p, fst p)) pts)) by (unfold sorted; rewrite map_fst_swap; exact C).
  rewrite (pwl_valid _ i (snd p, fst p) (snd q, fst q) _ S'); [|apply valid_swap; assumption]. pose proof (valid_diff _ _ _ _ _ S V). destruct V as (Hp & Hq & _).
  assert (snd p < snd q) by (apply (C i (Datatypes.S i)); [lia|apply map_nth_error, Hp|apply map_nth_error, Hq]). apply lerp_inv; lra.
Qed.
Lemma pwl_inverse_rev pts x : (2 <= length pts)%nat -> sorted pts -> falling (map snd pts) -> pwl (rev (map (fun p => (snd p, fst p)) pts)) (pwl pts x) = x.
Proof.
  intros L S C. destruct (valid_exists pts x L) as (i & p & q & V). rewrite (pwl_valid pts i p q x S V). assert (S' : sorted (rev (map (fun p => (snd p, fst p)) pts))) by (apply rev_sorted; rewrite map_fst_swap; exact C).
  rewrite (pwl_valid _ _ (snd q, fst q) (snd p, fst p) _ S' (valid_swap_rev _ _ _ _ _ S C V)). pose proof (valid_diff _ _ _ _ _ S V). destruct V as (Hp & Hq & _).
  assert (snd q < snd p) by (apply (C i (Datatypes.S i)); [lia|apply map_nth_error, Hp|apply map_nth_error, Hq]). rewrite lerp_flip by (cbn; lra). apply lerp_inv; lra.
Qed.
Lemma interp1d_sorted xs ys ex : length xs = length ys -> (2 <= length xs)%nat -> climbing xs -> interp1d xs ys ex =
  Ok (fun x => if (ex : bool) then Ok (pwl (combine xs ys) x) else if Rlt_dec x (fst (hd (0, 0) (combine xs ys))) then Err ValueError else if Rlt_dec (fst (last (combine xs ys) (0, 0))) x then Err ValueError else Ok (pwl (combine xs ys) x)).
Proof.
  intros E L C. unfold interp1d. rewrite E, Nat.eqb_refl. cbn [negb]. assert (S : sorted (combine xs ys)) by (unfold sorted; rewrite combine_fst; assumption).
  rewrite isort_sorted by exact S. rewrite combine_length, E, Nat.min_id. destruct (Nat.ltb_spec (length ys) 2); [lia|]. rewrite sorted_distinct by exact S. reflexivity.
Qed.
Lemma interp1d_rev xs ys : length xs = length ys -> (2 <= length xs)%nat -> falling xs -> interp1d xs ys true = Ok (fun x => Ok (pwl (rev (combine xs ys)) x)).
Proof.
  intros E L C. unfold interp1d. rewrite E, Nat.eqb_refl. cbn [negb]. assert (F : falling (map fst (combine xs ys))) by (rewrite combine_fst; assumption).
  rewrite isort_falling by exact F. rewrite rev_length, combine_length, E, Nat.min_id. destruct (Nat.ltb_spec (length ys) 2); [lia|]. rewrite sorted_distinct by (apply rev_sorted, F). reflexivity.
Qed.
(** Strictly increasing data: the interpolant is strictly increasing and stays inside the interval of its neighbours. *)
Lemma pwl_lt_right pts i p x : (2 <= length pts)%nat -> sorted pts -> climbing (map snd pts) -> nth_error pts i = Some p -> (x < fst p -> pwl pts x < snd p) /\ (fst p < x -> snd p < pwl pts x).
Proof.
  intros L S C Hp. destruct (valid_exists pts x L) as (j & a & b & V). rewrite (pwl_valid _ _ _ _ _ S V). pose proof (valid_diff _ _ _ _ _ S V) as D. destruct V as (Ha & Hb & HL & HR).
  assert (E : snd a < snd b) by (apply (C j (Datatypes.S j)); [lia|apply map_nth_error, Ha|apply map_nth_error, Hb]). assert (K : 0 < (snd b - snd a) / (fst b - fst a)) by (apply Rdiv_lt_0_compat; lra).
  pose proof (lerp_sub_l a b x) as A1. pose proof (lerp_sub a b x ltac:(lra)) as A2.
  assert (MON : forall u v pu pv, nth_error pts u = Some pu -> nth_error pts v = Some pv -> (u <= v)%nat -> fst pu <= fst pv /\ snd pu <= snd pv).
  { intros u v pu pv Hu Hv Luv. destruct (Nat.eq_dec u v) as [->|N]; [assert (pu = pv) by congruence; subst; lra|]. split; left; [eapply sorted_nth; [exact S| |exact Hu|exact Hv]; lia|apply (C u v); [lia|apply map_nth_error, Hu|apply map_nth_error, Hv]]. }
  split; intros H.
  - destruct (Nat.le_gt_cases i j) as [Q|Q].
    + destruct (MON _ _ _ _ Hp Ha Q) as [M1 M2]. destruct HL as [->|HL]; [|exfalso; lra]. assert (i = 0%nat) by lia. subst i. assert (a = p) by congruence. subst a. nra.
    + destruct (MON _ _ _ _ Hb Hp ltac:(lia)) as [M1 M2]. destruct (Nat.eq_dec i (Datatypes.S j)) as [->|N]; [assert (b = p) by congruence; subst b; nra|].
      destruct HR as [HR|HR]; [exfalso; assert (i < length pts)%nat by (apply nth_error_Some; congruence); lia|]. assert (snd b < snd p) by (apply (C (Datatypes.S j) i); [lia|apply map_nth_error, Hb|apply map_nth_error, Hp]). nra.
  - destruct (Nat.le_gt_cases i j) as [Q|Q].
    + destruct (MON _ _ _ _ Hp Ha Q) as [M1 M2]. destruct (Nat.eq_dec i j) as [->|N]; [assert (a = p) by congruence; subst a; nra|].
      destruct HL as [->|HL]; [lia|]. assert (snd p < snd a) by (apply (C i j); [lia|apply map_nth_error, Hp|apply map_nth_error, Ha]). nra.
    + destruct (MON _ _ _ _ Hb Hp ltac:(lia)) as [M1 M2]. destruct HR as [HR|HR]; [|exfalso; lra]. assert (i = Datatypes.S j) by (assert (i < length pts)%nat by (apply nth_error_Some; congruence); lia). subst i. assert (b = p) by congruence. subst b. nra.
Qed.
