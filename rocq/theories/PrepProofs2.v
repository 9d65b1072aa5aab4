From Coq Require Import QArith Permutation Reals Lqa.
From Verif Require Import Base OrderSpec BinModel BinProofs InterpModel InterpProofs ReduModel ReduProofs3 PrepModel PrepProofs.
Local Open Scope list_scope. Local Open Scope nat_scope.

Section I1d.
  Variables (xs ys : list Q) (x0 xn y0 yn : Q).
  Hypothesis (Hx : increasing Qltb xs) (Hy : increasing Qltb ys) (Hl : length ys = length xs)
    (X0 : nth_error xs 0 = Some x0) (Xn : nth_error xs (length xs - 1) = Some xn)
    (Y0 : nth_error ys 0 = Some y0) (Yn : nth_error ys (length ys - 1) = Some yn).
  Lemma i1d_out q : ((q < x0)%Q \/ (xn < q)%Q) -> interp1d xs ys q = Err ValueError.
  Proof. intros H. unfold interp1d. rewrite X0, Xn. destruct H as [H|H]; apply Qltb_lt in H; rewrite H; [reflexivity|rewrite orb_true_r; reflexivity]. Qed.
  Lemma i1d_in q : (x0 <= q)%Q -> (q <= xn)%Q -> interp1d xs ys q = bisearch_interp xs ys q.
  Proof. intros H H'. unfold interp1d. rewrite X0, Xn. apply Qltb_ge in H, H'. rewrite H, H'. reflexivity. Qed.
  Lemma i1d_inv q v : interp1d xs ys q = Ok v -> (x0 <= q)%Q /\ (q <= xn)%Q /\ bisearch_interp xs ys q = Ok v.
  Proof.
    unfold interp1d. rewrite X0, Xn. destruct (Qltb q x0) eqn:A; [discriminate|]. destruct (Qltb xn q) eqn:B; [discriminate|]. intros H.
    apply Qltb_ge in A, B. cbn [orb] in H. auto.
  Qed.
  Lemma i1d_defined q : (x0 <= q)%Q -> (q <= xn)%Q -> exists v, interp1d xs ys q = Ok v /\ (y0 <= v)%Q /\ (v <= yn)%Q.
  Proof.
    intros H H'. rewrite i1d_in by assumption. assert (Nx : xs <> []) by (intros E; rewrite E in X0; discriminate).
    destruct (interp_cases xs ys q (increasing_ascending _ _ Q_weak_order Hx) Nx Hl) as (v & E & _). exists v. split; [assumption|].
    destruct (interp_inverse xs ys q v x0 xn y0 yn Hx Hy Hl X0 Xn Y0 Yn H H' E) as (A & B & _). auto.
  Qed.
  Lemma i1d_mono q1 q2 v1 v2 : (q1 <= q2)%Q -> interp1d xs ys q1 = Ok v1 -> interp1d xs ys q2 = Ok v2 -> (v1 <= v2)%Q.
  Proof.
    intros L E1 E2. apply i1d_inv in E1, E2. assert (Nx : xs <> []) by (intros E; rewrite E in X0; discriminate).
    eapply (interp_mono xs ys q1 q2); try apply increasing_ascending; try apply Q_weak_order; try eassumption; [apply E1|apply E2].
  Qed.
End I1d.
Lemma i1d_inverse xs ys x0 xn y0 yn q v : increasing Qltb xs -> increasing Qltb ys -> length ys = length xs ->
  nth_error xs 0 = Some x0 -> nth_error xs (length xs - 1) = Some xn -> nth_error ys 0 = Some y0 -> nth_error ys (length ys - 1) = Some yn ->
  interp1d xs ys q = Ok v -> exists u, interp1d ys xs v = Ok u /\ (u == q)%Q.
Proof.
  intros Hx Hy Hl X0 Xn Y0 Yn E. apply (i1d_inv xs ys x0 xn) in E; [|assumption|assumption]. destruct E as (A & B & E).
  destruct (interp_inverse xs ys q v x0 xn y0 yn Hx Hy Hl X0 Xn Y0 Yn A B E) as (C & D & u & Eu & Hu). exists u. split; [|assumption].
  rewrite (i1d_in ys xs y0 yn); assumption.
Qed.
Lemma i1d_strict xs ys x0 xn y0 yn q1 q2 v1 v2 : increasing Qltb xs -> increasing Qltb ys -> length ys = length xs ->
  nth_error xs 0 = Some x0 -> nth_error xs (length xs - 1) = Some xn -> nth_error ys 0 = Some y0 -> nth_error ys (length ys - 1) = Some yn ->
  (q1 < q2)%Q -> interp1d xs ys q1 = Ok v1 -> interp1d xs ys q2 = Ok v2 -> (v1 < v2)%Q.
Proof.
  intros Hx Hy Hl X0 Xn Y0 Yn L E1 E2. apply Qnot_le_lt. intros C.
  destruct (i1d_inverse xs ys x0 xn y0 yn q1 v1) as (u1 & F1 & G1); try assumption.
  destruct (i1d_inverse xs ys x0 xn y0 yn q2 v2) as (u2 & F2 & G2); try assumption.
  assert (K : (u2 <= u1)%Q). { apply (i1d_mono ys xs y0 yn) with (q1 := v2) (q2 := v1); try assumption. congruence. }
  lra.
Qed.

(** ** Sorted arrangements *)
Lemma increasing_unique s t : increasing Qltb s -> increasing Qltb t -> Permutation s t -> s = t.
Proof.
  intros Hs Ht Hp. apply list_ext; [apply Permutation_length; assumption|]. intros i a b Ha Hb.
  pose proof (asc_perm_nth s t i a b (increasing_ascending _ _ Q_weak_order Hs) (increasing_ascending _ _ Q_weak_order Ht) Hp Ha Hb) as E.
  assert (In b s) by (eapply Permutation_in; [apply Permutation_sym; exact Hp|]; eapply nth_error_In; eassumption).
  destruct (In_nth_error _ _ H) as (j & Hj). destruct (Nat.lt_trichotomy i j) as [L|[L|L]]; [|congruence|].
  - assert (X := Hs i j a b L Ha Hj). apply Qltb_lt in X. lra.
  - assert (X := Hs j i b a L Hj Ha). apply Qltb_lt in X. lra.
Qed.
(** Distinct values: no two entries with the same reduced fraction. *)
Lemma inc_distinct s : increasing Qltb s -> NoDup (map Qred s).
Proof.
  intros H. apply NoDup_nth_error. rewrite map_length. intros i j Hi E. rewrite !nth_error_map in E.
  destruct (nth_error s i) as [a|] eqn:Ea; [|apply nth_error_None in Ea; lia]. destruct (nth_error s j) as [b|] eqn:Eb; cbn [option_map] in E; [|discriminate].
  assert (E' : Qred a = Qred b) by congruence. assert (a == b)%Q by (rewrite <- (Qred_correct a), <- (Qred_correct b), E'; reflexivity).
  destruct (Nat.lt_trichotomy i j) as [L|[L|L]]; [|assumption|]; exfalso.
  - assert (X := H i j a b L Ea Eb). apply Qltb_lt in X. lra.
  - assert (X := H j i b a L Eb Ea). apply Qltb_lt in X. lra.
Qed.
Lemma asc_distinct_inc s : ascending Qltb s -> NoDup (map Qred s) -> increasing Qltb s.
Proof.
  intros H D i j a b L Ha Hb. apply Qltb_lt. assert (X := H i j a b L Ha Hb). apply Qltb_ge in X.
  destruct (Qlt_le_dec a b) as [|C]; [assumption|]. exfalso. assert (E : (a == b)%Q) by lra. apply Qred_complete in E.
  rewrite NoDup_nth_error in D. assert (i = j); [|lia]. apply D; [rewrite map_length; apply nth_error_Some; congruence|].
  rewrite !nth_error_map, Ha, Hb. cbn [option_map]. congruence.
Qed.
Lemma ptrans_cases xs : (length xs <= 1 /\ ptrans_init xs = Err ValueError) \/
  (2 <= length xs /\ ~ NoDup (map Qred xs) /\ ptrans_init xs = Err AssertionError) \/
  (2 <= length xs /\ NoDup (map Qred xs) /\ increasing Qltb (np_sort Qltb xs) /\ ptrans_init xs = Ok {| p_xs := np_sort Qltb xs; p_cum := fracs (length xs) |}).
Proof.
  unfold ptrans_init. pose proof (sort_perm Qltb xs) as P. pose proof (Permutation_length P) as PL. pose proof (sort_asc Qltb xs Q_weak_order) as SA.
  pose proof (diffs_nil (np_sort Qltb xs)) as DN. pose proof (diffs_increasing (np_sort Qltb xs)) as DI. pose proof (increasing_diffs (np_sort Qltb xs)) as ID.
  destruct (diffs (np_sort Qltb xs)) as [|d ds] eqn:E.
  - left. split; [|reflexivity]. rewrite <- PL. apply DN. reflexivity.
  - right. assert (L : 2 <= length xs). { destruct (le_lt_dec 2 (length xs)); [assumption|]. assert (d :: ds = []) by (apply DN; lia). discriminate. }
    destruct (forallb (fun d => Qltb 0 d) (d :: ds)) eqn:F.
    + right. split; [assumption|]. assert (I := DI eq_refl). split; [|split; [assumption|reflexivity]].
      eapply Permutation_NoDup; [apply Permutation_map; exact P|]. apply inc_distinct. assumption.
    + left. split; [assumption|]. split; [|reflexivity]. intros N. assert (C : false = true); [|discriminate]. apply ID.
      apply asc_distinct_inc; [assumption|]. eapply Permutation_NoDup; [apply Permutation_map, Permutation_sym; exact P|]. assumption.
Qed.
Lemma ptrans_perm xs xs' : Permutation xs xs' -> ptrans_init xs = ptrans_init xs'.
Proof.
  intros P. pose proof (Permutation_length P) as PL. pose proof (ptrans_cases xs) as A. pose proof (ptrans_cases xs') as B.
  assert (N : NoDup (map Qred xs) <-> NoDup (map Qred xs')) by (split; apply Permutation_NoDup, Permutation_map; [assumption|apply Permutation_sym; assumption]).
  destruct A as [(A1 & A2)|[(A1 & A2 & A3)|(A1 & A2 & A3 & A4)]], B as [(B1 & B2)|[(B1 & B2 & B3)|(B1 & B2 & B3 & B4)]]; try lia; try tauto; try congruence.
  rewrite A4, B4, PL. do 2 f_equal. apply increasing_unique; try assumption. rewrite !sort_perm. assumption.
Qed.
(** What a built transform is made of. *)
Lemma ptrans_ok xs t : ptrans_init xs = Ok t -> exists x0 xn, 2 <= length xs /\ p_xs t = np_sort Qltb xs /\ p_cum t = fracs (length xs) /\
  increasing Qltb (p_xs t) /\ increasing Qltb (p_cum t) /\ length (p_xs t) = length xs /\ length (p_cum t) = length xs /\
  nth_error (p_xs t) 0 = Some x0 /\ nth_error (p_xs t) (length (p_xs t) - 1) = Some xn /\ In x0 xs /\ In xn xs /\ (forall a, In a xs -> (x0 <= a)%Q /\ (a <= xn)%Q) /\
  exists y0 yn, nth_error (p_cum t) 0 = Some y0 /\ nth_error (p_cum t) (length (p_cum t) - 1) = Some yn /\ (y0 == 0)%Q /\ (yn == 1)%Q.
Proof.
  intros H. destruct (ptrans_cases xs) as [(A1 & A2)|[(A1 & A2 & A3)|(A1 & A2 & A3 & A4)]]; try congruence. assert (t = {| p_xs := np_sort Qltb xs; p_cum := fracs (length xs) |}) by congruence. subst t. clear H. cbn [p_xs p_cum].
  pose proof (Permutation_length (sort_perm Qltb xs)) as PL. pose proof (sort_perm Qltb xs) as P.
  destruct (nth_error (np_sort Qltb xs) 0) as [x0|] eqn:E0; [|apply nth_error_None in E0; lia].
  destruct (nth_error (np_sort Qltb xs) (length (np_sort Qltb xs) - 1)) as [xn|] eqn:En; [|apply nth_error_None in En; lia].
  exists x0, xn. split; [assumption|]. split; [reflexivity|]. split; [reflexivity|]. split; [assumption|]. split; [apply fracs_inc; lia|]. split; [assumption|]. split; [apply fracs_len|].
  split; [reflexivity|]. split; [reflexivity|]. split; [eapply Permutation_in; [exact P|]; eapply nth_error_In; eassumption|]. split; [eapply Permutation_in; [exact P|]; eapply nth_error_In; eassumption|].
  split.
  - intros a Ha. apply Permutation_sym in P. pose proof (Permutation_in _ P Ha) as Ha'. destruct (In_nth_error _ _ Ha') as (k & Hk). assert (k < length (np_sort Qltb xs)) by (apply nth_error_Some; congruence). split.
    + destruct k as [|k]; [assert (a = x0) by congruence; subst; lra|]. assert (X := A3 0 (S k) x0 a ltac:(lia) E0 Hk). apply Qltb_lt in X. lra.
    + destruct (Nat.eq_dec k (length (np_sort Qltb xs) - 1)) as [->|Nk]; [assert (a = xn) by congruence; subst; lra|]. assert (X := A3 k (length (np_sort Qltb xs) - 1) a xn ltac:(lia) Hk En). apply Qltb_lt in X. lra.
  - rewrite fracs_len. assert (Z1 : (0 < zq (length xs - 1))%Q) by (unfold zq; change 0%Q with (inject_Z 0); rewrite <- Zlt_Qlt; lia).
    exists (zq 0 / zq (length xs - 1))%Q, (zq (length xs - 1) / zq (length xs - 1))%Q. rewrite !fracs_nth by lia. split; [reflexivity|]. split; [reflexivity|]. split; [|field; lra].
    change (zq 0) with 0%Q. field. lra.
Qed.
