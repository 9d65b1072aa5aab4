(** C49, continued: what the weighted quantile is. *)
From Coq Require Import QArith Qround Qabs Permutation Lqa.
From Verif Require Import Base OrderSpec BinSpec BinModel BinProofs InterpModel InterpProofs ReduSpec ReduModel ReduProofs ReduProofs2 ReduProofs3.
Local Open Scope list_scope. Local Open Scope nat_scope.

(** The weight of the samples that satisfy [f]. *)
Definition weight_of (f : Q -> bool) (x w : list Q) : Q := Qsum (map snd (filter (fun p => f (fst p)) (combine x w))).

Lemma Qsum_perm l l' : Permutation l l' -> (Qsum l == Qsum l')%Q.
Proof. induction 1; cbn; lra. Qed.
Lemma perm_filter {A} (f : A -> bool) l l' : Permutation l l' -> Permutation (filter f l) (filter f l').
Proof.
  induction 1 as [|a l l' P IH|a b l|l l' l'' P IH P' IH']; cbn; [constructor|destruct (f a); [now constructor|assumption]| |econstructor; eassumption].
  destruct (f a), (f b); try constructor; apply Permutation_refl.
Qed.
Lemma Qsum_app a b : (Qsum (a ++ b) == Qsum a + Qsum b)%Q.
Proof. induction a as [|x a IH]; cbn; [lra|]. rewrite IH. lra. Qed.
Lemma Qsum_scale (c : Q) l : (Qsum (map (fun a => a / c) l) == Qsum l / c)%Q.
Proof. induction l as [|a l IH]; cbn; [unfold Qdiv; lra|]. rewrite IH. unfold Qdiv. ring. Qed.
Lemma cumsum_nth : forall l acc k, k < length l -> exists c, nth_error (cumsum acc l) k = Some c /\ (c == acc + Qsum (firstn (S k) l))%Q.
Proof.
  induction l as [|a l IH]; intros acc k H; [cbn in H; lia|]. destruct k as [|k].
  - exists (acc + a)%Q. split; [reflexivity|]. cbn. lra.
  - cbn [cumsum nth_error]. destruct (IH (acc + a)%Q k) as (c & E & Q); [cbn in H; lia|]. exists c. split; [exact E|]. rewrite Q. cbn [firstn Qsum]. cbn. lra.
Qed.
Lemma asc_tl {T} (lt : T -> T -> bool) a l : ascending lt (a :: l) -> ascending lt l.
Proof. intros H i j u v L E1 E2. apply (H (S i) (S j) u v); [lia|exact E1|exact E2]. Qed.
(** A sorted list is its samples up to [v], then the others. *)
Lemma asc_split v : forall s : list (Q * Q), ascending fst_lt s ->
  s = filter (fun p => Qle_bool (fst p) v) s ++ filter (fun p => negb (Qle_bool (fst p) v)) s.
Proof.
  induction s as [|a s IH]; intros H; [reflexivity|]. cbn [filter]. destruct (Qle_bool (fst a) v) eqn:E; cbn [negb app].
  - f_equal. apply IH. exact (asc_tl _ _ _ H).
  - assert (G : forall b, In b s -> Qle_bool (fst b) v = false).
    { intros b Hb. apply In_nth_error in Hb. destruct Hb as (j & Hb). pose proof (H 0 (S j) a b ltac:(lia) eq_refl Hb) as L. unfold fst_lt, Qltb in L. apply Bool.negb_false_iff in L. apply Qle_bool_iff in L.
      destruct (Qle_bool (fst b) v) eqn:E'; [|reflexivity]. apply Qle_bool_iff in E'. assert (Qle_bool (fst a) v = true) by (apply Qle_bool_iff; lra). congruence. }
    assert (F1 : filter (fun p => Qle_bool (fst p) v) s = []). { clear -G. induction s as [|b s IH]; [reflexivity|]. cbn. rewrite (G b (or_introl eq_refl)). apply IH. intros c Hc. apply G. right. exact Hc. }
    assert (F2 : filter (fun p => negb (Qle_bool (fst p) v)) s = s). { clear -G. induction s as [|b s IH]; [reflexivity|]. cbn. rewrite (G b (or_introl eq_refl)). cbn. f_equal. apply IH. intros c Hc. apply G. right. exact Hc. }
    rewrite F1, F2. reflexivity.
Qed.
Lemma filter_map_snd (f : Q -> bool) (g : Q -> Q) (x w : list Q) : map snd (filter (fun p => f (fst p)) (combine x (map g w))) = map g (map snd (filter (fun p => f (fst p)) (combine x w))).
Proof. revert w. induction x as [|a x IH]; intros [|b w]; try reflexivity. cbn [combine map filter fst]. destruct (f a); cbn [map snd]; rewrite IH; reflexivity. Qed.
Lemma Qsum_pos l : l <> [] -> (forall a, In a l -> (0 < a)%Q) -> (0 < Qsum l)%Q.
Proof.
  intros N H. destruct l as [|a l]; [congruence|]. cbn. assert (0 <= Qsum l)%Q by (apply Qsum_nonneg; intros b Hb; apply Qlt_le_weak, H; right; exact Hb). pose proof (H a (or_introl eq_refl)). lra.
Qed.
Section Q.
Variables (x w : list Q) (v : Q).
Hypotheses (L : length w = length x) (Pw : forall a, In a w -> (0 < a)%Q) (Iv : In v x).
Let S := Qsum w.
Let s := wpairs true x (map (fun a => a / Qsum w)%Q w).
Let lo := filter (fun p : Q * Q => Qle_bool (fst p) v) s.
Let hi := filter (fun p : Q * Q => negb (Qle_bool (fst p) v)) s.
Lemma x_ne : x <> []. Proof. destruct x; [destruct Iv|discriminate]. Qed.
Lemma S_pos : (0 < S)%Q. Proof. apply Qsum_pos; [|exact Pw]. intros E. apply x_ne. rewrite E in L. destruct x; [reflexivity|discriminate]. Qed.
Lemma nw_pos a : In a (map (fun a => a / Qsum w)%Q w) -> (0 < a)%Q.
Proof. intros H. apply in_map_iff in H. destruct H as (b & <- & H). pose proof S_pos. apply Qlt_shift_div_l; [exact H0|]. pose proof (Pw b H). lra. Qed.
Lemma nw_len : length (map (fun a => a / Qsum w)%Q w) = length x. Proof. rewrite map_length. exact L. Qed.
Lemma s_perm : Permutation s (combine x (map (fun a => a / Qsum w)%Q w)). Proof. apply wpairs_perm. Qed.
Lemma s_asc : ascending fst_lt s. Proof. unfold s, wpairs. apply sort_asc, fst_weak_order. Qed.
Lemma s_split : s = lo ++ hi. Proof. apply asc_split, s_asc. Qed.
Lemma s_snd p : In p s -> (0 < snd p)%Q.
Proof. intros H. apply (Permutation_in _ s_perm) in H. apply nw_pos. destruct p as [a b]. apply in_combine_r in H. exact H. Qed.
Lemma v_in : exists b, In (v, b) lo.
Proof.
  assert (H : In v (map fst s)). { eapply Permutation_in; [apply Permutation_map, Permutation_sym, s_perm|]. destruct (combine_map x (map (fun a => a / Qsum w)%Q w) nw_len) as [E _]. rewrite E. exact Iv. }
  apply in_map_iff in H. destruct H as ([a b] & E & H). cbn in E. subst a. exists b. apply filter_In. split; [exact H|]. cbn. apply Qle_bool_iff. lra.
Qed.
Lemma lo_sum : (Qsum (map snd lo) == weight_of (fun a => Qle_bool a v) x w / S)%Q.
Proof.
  unfold weight_of. rewrite <- Qsum_scale. rewrite <- (filter_map_snd (fun a => Qle_bool a v) (fun a => a / S)%Q x w). apply Qsum_perm, Permutation_map. apply perm_filter, s_perm.
Qed.
Lemma lo_last : exists k b, length lo = Datatypes.S k /\ nth_error s k = Some b /\ (fst b == v)%Q.
Proof.
  destruct v_in as (b & Hb). apply In_nth_error in Hb. destruct Hb as (j & Hj). assert (Lj : j < length lo) by (apply nth_error_Some; congruence).
  destruct (length lo) as [|k] eqn:El; [lia|]. destruct (nth_error lo k) as [c|] eqn:Ec; [|apply nth_error_None in Ec; lia].
  assert (Sj : nth_error s j = Some (v, b)) by (rewrite s_split, nth_error_app1 by lia; exact Hj). assert (Sk : nth_error s k = Some c) by (rewrite s_split, nth_error_app1 by lia; exact Ec).
  exists k, c. split; [reflexivity|]. split; [exact Sk|]. apply nth_error_In in Ec. apply filter_In in Ec. destruct Ec as [_ Ec]. apply Qle_bool_iff in Ec.
  destruct (Nat.eq_dec j k) as [->|N]; [assert (c = (v, b)) by congruence; subst c; cbn; lra|].
  pose proof (s_asc j k _ _ ltac:(lia) Sj Sk) as A. unfold fst_lt, Qltb in A. apply Bool.negb_false_iff, Qle_bool_iff in A. cbn in A. lra.
Qed.
(** Between the last sample up to [v] and the next one, the quantile is linear in the weight. *)
Lemma wq_general p : (weight_of (fun a => Qle_bool a v) x w / S <= p)%Q ->
  match hi with
  | [] => exists u, weighted_quantile true x (map (fun a => a / Qsum w)%Q w) p = Ok u /\ (u == v)%Q
  | (a, b) :: _ => (p < weight_of (fun a => Qle_bool a v) x w / S + b)%Q ->
      exists u, weighted_quantile true x (map (fun a => a / Qsum w)%Q w) p = Ok u /\ (u == v + (a - v) * (p - weight_of (fun a => Qle_bool a v) x w / S) / b)%Q
  end.
Proof.
  intros Hp. rewrite weighted_quantile_eq. fold s. destruct lo_last as (k & c & El & Ek & Ec).
  assert (P0 : forall a, In a (map (fun a => a / Qsum w)%Q w) -> (0 <= a)%Q) by (intros a Ha; apply Qlt_le_weak, nw_pos, Ha).
  destruct (wpairs_ok true x (map (fun a => a / Qsum w)%Q w) nw_len x_ne P0) as (A & N & E & _ & _). fold s in A, N, E.
  assert (Lk : k < length (map snd s)) by (rewrite map_length; apply nth_error_Some; congruence).
  destruct (cumsum_nth (map snd s) 0 k Lk) as (ck & Ck & Qk).
  assert (Fk : firstn (Datatypes.S k) (map snd s) = map snd lo). { rewrite s_split, map_app. rewrite <- El, <- (map_length snd lo). rewrite firstn_app, Nat.sub_diag, firstn_all. cbn. apply app_nil_r. }
  rewrite Fk, lo_sum in Qk. assert (Yk : nth_error (map fst s) k = Some (fst c)) by (rewrite nth_error_map, Ek; reflexivity).
  destruct hi as [|[a b] hi'] eqn:Eh.
  - assert (Ls : length s = Datatypes.S k) by (rewrite s_split, Eh, app_nil_r; exact El).
    destruct (interp_weight_spec _ p A N) as (l & r & wl & wr & Eq & Ll & Lr & W1 & W2 & W3 & R). unfold bisearch_interp. rewrite Eq. cbn [bind].
    assert (R' : l = k /\ r = k \/ False). { rewrite cumsum_len, map_length, Ls in *. destruct R as [(x0 & X0 & Lt & -> & ->)|[(xn & Xn & Le & -> & ->)|(xl & xr & Xl & Xr & -> & Le & Lt & _)]].
      - left. destruct k as [|k]; [lia|]. exfalso. pose proof (A 0 (Datatypes.S k) x0 ck ltac:(lia) X0 Ck) as M. unfold Qltb in M. apply Bool.negb_false_iff, Qle_bool_iff in M. lra.
      - left. lia.
      - right. destruct (Nat.eq_dec (Datatypes.S l) k) as [E1|D]; [rewrite E1 in Xr; assert (xr = ck) by congruence; subst xr; lra|].
        pose proof (A (Datatypes.S l) k xr ck ltac:(lia) Xr Ck) as M. unfold Qltb in M. apply Bool.negb_false_iff, Qle_bool_iff in M. lra. }
    destruct R' as [[-> ->]|[]]. unfold at_. rewrite Yk. cbn [bind]. eexists. split; [reflexivity|]. rewrite Ec. setoid_replace (v * wl + v * wr)%Q with (v * (wl + wr))%Q by ring. rewrite W3. ring.
  - intros Hlt. assert (Sk1 : nth_error s (Datatypes.S k) = Some (a, b)) by (rewrite s_split, nth_error_app2 by lia; rewrite El, Nat.sub_diag, Eh; reflexivity).
    assert (Lk1 : Datatypes.S k < length (map snd s)) by (rewrite map_length; apply nth_error_Some; congruence).
    destruct (cumsum_nth (map snd s) 0 (Datatypes.S k) Lk1) as (ck1 & Ck1 & Qk1).
    assert (Fk1 : firstn (Datatypes.S (Datatypes.S k)) (map snd s) = map snd lo ++ [b]). { rewrite s_split, map_app, Eh. cbn [map snd]. rewrite <- El, <- (map_length snd lo). rewrite firstn_app. replace (Datatypes.S (length (map snd lo)) - length (map snd lo)) with 1 by lia. rewrite firstn_all2 by lia. reflexivity. }
    rewrite Fk1, Qsum_app, lo_sum in Qk1. cbn [Qsum] in Qk1. assert (Pb : (0 < b)%Q) by (apply (s_snd (a, b)); apply nth_error_In in Sk1; exact Sk1).
    assert (B1 : (ck1 == ck + b)%Q) by (cbn in Qk1; lra).
    destruct (interp_between _ (map fst s) p k ck ck1 (fst c) a A E Ck Ck1 Yk ltac:(rewrite nth_error_map, Sk1; reflexivity)) as (u & Eu & Qu & _); [lra|lra|].
    exists u. split; [exact Eu|]. rewrite Qu, B1, Qk, Ec. setoid_replace (0 + weight_of (fun a0 => Qle_bool a0 v) x w / S + b - (0 + weight_of (fun a0 => Qle_bool a0 v) x w / S))%Q with b by ring.
    setoid_replace (p - (0 + weight_of (fun a0 => Qle_bool a0 v) x w / S))%Q with (p - weight_of (fun a0 => Qle_bool a0 v) x w / S)%Q by ring. reflexivity.
Qed.
End Q.
Lemma quantile_one p fill x w : length w = length x -> x <> [] ->
  quantile [p] true fill (A1 x) (Some (A1 w)) None = match weighted_quantile true x (map (fun a => a / Qsum w)%Q w) p with Ok u => Ok (S0 [u]) | Err e => Err e end.
Proof.
  intros L N. change (Some (A1 w)) with (option_map (@A1 Q) (Some w)). change (@None (arr bool)) with (option_map (@A1 bool) None).
  unfold quantile. rewrite by_rows_1d by (split; [exact L|exact I]). rewrite quantile_1d_eq by exact N. cbn [mapM quantile_at sel]. destruct (weighted_quantile true x _ p); reflexivity.
Qed.
(** With positive weights, the quantile at the fraction of the weight in the samples not above a sample [v] is [v]. *)
Theorem C49_weighted_at_sample fill x w v p : length w = length x -> (forall a, In a w -> (0 < a)%Q) -> In v x ->
  (p * Qsum w == weight_of (fun a => Qle_bool a v) x w)%Q ->
  exists q, quantile [p] true fill (A1 x) (Some (A1 w)) None = Ok (S0 [q]) /\ (q == v)%Q.
Proof.
  intros L Pw Iv Hp. pose proof (S_pos x w v L Pw Iv) as PS. assert (Ep : (p == weight_of (fun a => Qle_bool a v) x w / Qsum w)%Q) by (rewrite <- Hp; field; lra).
  rewrite quantile_one by (assumption || (intros ->; destruct Iv)). pose proof (wq_general x w v L Pw Iv p ltac:(lra)) as G. 
  destruct (filter (fun p0 : Q * Q => negb (Qle_bool (fst p0) v)) (wpairs true x (map (fun a => a / Qsum w)%Q w))) as [|[a b] hi'] eqn:Eh.
  - destruct G as (u & -> & E). exists u. auto.
  - assert (Pb : (0 < b)%Q). { apply (s_snd x w v L Pw Iv (a, b)). assert (H : In (a, b) ((a, b) :: hi')) by (left; reflexivity). rewrite <- Eh in H. apply filter_In in H. apply H. }
    destruct (G ltac:(lra)) as (u & -> & E). exists u. split; [reflexivity|]. rewrite E, Ep. field. lra.
Qed.
Print Assumptions C49_weighted_at_sample.
(** Between two neighbouring values [v] < [v'], the larger taken by one sample only, of weight [w'], it is linear. *)
Theorem C49_weighted_between fill x w v v' w' t : length w = length x -> (forall a, In a w -> (0 < a)%Q) -> In v x -> (v < v')%Q ->
  filter (fun p => Qeq_bool (fst p) v') (combine x w) = [(v', w')] -> (forall a, In a x -> (a <= v)%Q \/ (v' <= a)%Q) -> (0 <= t)%Q -> (t < 1)%Q ->
  exists q, quantile [(weight_of (fun a => Qle_bool a v) x w + t * w') / Qsum w]%Q true fill (A1 x) (Some (A1 w)) None = Ok (S0 [q]) /\ (q == v + t * (v' - v))%Q.
Proof.
  intros L Pw Iv Hv F G T0 T1. pose proof (S_pos x w v L Pw Iv) as PS. set (S := Qsum w) in *. set (U := weight_of (fun a => Qle_bool a v) x w).
  assert (I' : In (v', w') (combine x w)). { assert (H : In (v', w') [(v', w')]) by (left; reflexivity). rewrite <- F in H. apply filter_In in H. apply H. }
  assert (Pw' : (0 < w')%Q) by (apply Pw; apply in_combine_r in I'; exact I').
  set (p := ((U + t * w') / S)%Q). assert (Ep : (p == U / S + t * (w' / S))%Q) by (unfold p; field; lra). assert (Pn : (0 < w' / S)%Q) by (apply Qlt_shift_div_l; [exact PS|lra]).
  assert (T2 : (0 <= t * (w' / S) /\ t * (w' / S) < w' / S)%Q) by (split; nra).
  rewrite quantile_one by (assumption || (intros ->; destruct Iv)). fold S. pose proof (wq_general x w v L Pw Iv p) as W. fold S in W. fold U in W. specialize (W ltac:(lra)).
  pose proof (s_perm x w) as SP. fold S in SP. pose proof (s_asc x w) as SA. fold S in SA.
  set (s := wpairs true x (map (fun a => a / S)%Q w)) in *. pose proof (asc_split v s SA) as SS.
  assert (Fs : filter (fun p => Qeq_bool (fst p) v') (combine x (map (fun a => a / S)%Q w)) = [(v', (w' / S)%Q)]).
  { clearbody S. clear -F. revert w F. induction x as [|a x IH]; intros [|b w] F; try discriminate. cbn [combine map filter fst] in *. destruct (Qeq_bool a v').
    - injection F as -> -> F. f_equal. clear -F. revert w F. induction x as [|a x IH]; intros [|b w] F; try reflexivity. cbn [combine map filter fst] in *. destruct (Qeq_bool a v'); [discriminate|apply IH, F].
    - apply IH. exact F. }
  pose proof (perm_filter (fun p => Qeq_bool (fst p) v') _ _ SP) as PF. rewrite Fs in PF. apply Permutation_sym, Permutation_length_1_inv in PF.
  assert (Is : In (v', (w' / S)%Q) s). { assert (H : In (v', (w' / S)%Q) [(v', (w' / S)%Q)]) by (left; reflexivity). rewrite <- PF in H. apply filter_In in H. apply H. }
  assert (Nv' : Qle_bool v' v = false) by (destruct (Qle_bool v' v) eqn:Z; [apply Qle_bool_iff in Z; lra|reflexivity]).
  destruct (filter (fun p0 : Q * Q => negb (Qle_bool (fst p0) v)) s) as [|[a b] hi'] eqn:Eh.
  - exfalso. assert (H : In (v', (w' / S)%Q) []); [|destruct H]. rewrite <- Eh. apply filter_In. split; [exact Is|]. cbn. rewrite Nv'. reflexivity.
  - assert (Hab : (a, b) = (v', (w' / S)%Q)).
    { assert (Ia : In (a, b) s /\ negb (Qle_bool a v) = true). { assert (H : In (a, b) ((a, b) :: hi')) by (left; reflexivity). rewrite <- Eh in H. apply filter_In in H. exact H. }
      destruct Ia as [Ia Na]. apply Bool.negb_true_iff in Na.
      assert (Ge : (v' <= a)%Q). { assert (Ix : In a x) by (apply (Permutation_in _ SP) in Ia; apply in_combine_l in Ia; exact Ia). destruct (G a Ix) as [Z|Z]; [|exact Z]. apply Qle_bool_iff in Z. congruence. }
      assert (Le : (a <= v')%Q).
      { assert (H : In (v', (w' / S)%Q) ((a, b) :: hi')) by (rewrite <- Eh; apply filter_In; split; [exact Is|cbn; rewrite Nv'; reflexivity]). destruct H as [H|H]; [injection H as -> _; lra|].
        apply In_nth_error in H. destruct H as (j & Hj). set (lo := filter (fun p0 : Q * Q => Qle_bool (fst p0) v) s) in *.
        pose proof (SA (length lo) (length lo + Datatypes.S j) (a, b) (v', (w' / S)%Q) ltac:(lia)) as Z. unfold fst_lt, Qltb in Z. cbn [fst] in Z.
        rewrite SS in Z. rewrite nth_error_app2, Nat.sub_diag in Z by lia. rewrite nth_error_app2 in Z by lia. replace (length lo + Datatypes.S j - length lo) with (Datatypes.S j) in Z by lia.
        specialize (Z eq_refl Hj). apply Bool.negb_false_iff, Qle_bool_iff in Z. exact Z. }
      assert (Iab : In (a, b) (filter (fun p => Qeq_bool (fst p) v') s)) by (apply filter_In; split; [exact Ia|cbn; apply Qeq_bool_iff; lra]). rewrite PF in Iab. destruct Iab as [Iab|[]]. symmetry. exact Iab. }
    injection Hab as -> ->. destruct (W ltac:(lra)) as (u & Eu & Qu). fold S in Eu. rewrite Eu. exists u. split; [reflexivity|]. rewrite Qu, Ep. field. lra.
Qed.
Print Assumptions C49_weighted_between.
Lemma Qltb_proper a b c d : (a == b)%Q -> (c == d)%Q -> Qltb a c = Qltb b d.
Proof. intros H K. unfold Qltb. f_equal. rewrite H, K. reflexivity. Qed.
Lemma F2_nth l l' i a : Forall2 Qeq l l' -> nth_error l i = Some a -> exists b, nth_error l' i = Some b /\ (a == b)%Q.
Proof. intros F. revert i. induction F as [|u v l l' H F IH]; intros [|i] E; try discriminate; [injection E as <-; exists v; auto|apply IH, E]. Qed.
Lemma F2_len (l l' : list Q) : Forall2 Qeq l l' -> length l = length l'.
Proof. induction 1; cbn; congruence. Qed.
Lemma bis_proper xs xs' q : Forall2 Qeq xs xs' -> forall f l r, bis_loop Qltb f xs q l r = bis_loop Qltb f xs' q l r.
Proof.
  intros F. induction f as [|f IH]; intros l r; cbn [bis_loop]; [reflexivity|]. destruct (Nat.ltb 1 (r - l)); [|reflexivity]. unfold at_.
  destruct (nth_error xs ((l + r) / 2)) as [a|] eqn:E.
  - destruct (F2_nth _ _ _ _ F E) as (b & -> & Q). cbn [bind]. rewrite (Qltb_proper q q a b (Qeq_refl q) Q). destruct (Qltb q b); apply IH.
  - apply nth_error_None in E. rewrite (F2_len _ _ F) in E. apply nth_error_None in E. rewrite E. reflexivity.
Qed.
Lemma interp_proper xs xs' ys q u : Forall2 Qeq xs xs' -> bisearch_interp xs ys q = Ok u -> exists u', bisearch_interp xs' ys q = Ok u' /\ (u == u')%Q.
Proof.
  intros F. unfold bisearch_interp, bisearch_interp_weight. assert (B : qbisearch xs q = qbisearch xs' q).
  { unfold bisearch. rewrite <- (F2_len _ _ F). rewrite (bis_proper _ _ q F). destruct F as [|a b l l' H F]; [reflexivity|]. rewrite (Qltb_proper q q a b (Qeq_refl q) H). reflexivity. }
  rewrite <- B, <- (F2_len _ _ F). destruct (qbisearch xs q) as [l|e]; [|discriminate]. cbn [bind]. destruct (l <? 0)%Z; [intros E; exists u; split; [exact E|lra]|].
  destruct (_ <? l + 1)%Z; [intros E; exists u; split; [exact E|lra]|]. unfold at_. destruct (nth_error xs (Z.to_nat l)) as [a|] eqn:Ea; [|discriminate]. destruct (nth_error xs (Z.to_nat (l + 1))) as [b|] eqn:Eb; [|discriminate].
  destruct (F2_nth _ _ _ _ F Ea) as (a' & -> & Qa). destruct (F2_nth _ _ _ _ F Eb) as (b' & -> & Qb). cbn [bind]. unfold linear_interp_weight. destruct (nth_error ys (Z.to_nat l)) as [y|]; [|discriminate].
  cbn [bind]. destruct (nth_error ys (Z.to_nat (l + 1))) as [z|]; [|discriminate]. cbn [bind]. intros E. injection E as <-. eexists. split; [reflexivity|]. rewrite Qa, Qb. reflexivity.
Qed.
Lemma cumsum_proper : forall l l' a a', (a == a')%Q -> Forall2 Qeq l l' -> Forall2 Qeq (cumsum a l) (cumsum a' l').
Proof. intros l l' a a' H F. revert a a' H. induction F as [|u v l l' E F IH]; intros a a' H; cbn [cumsum]; constructor; [rewrite H, E; reflexivity|]. apply IH. rewrite H, E. reflexivity. Qed.
Definition eqw (p p' : Q * Q) : Prop := fst p = fst p' /\ (snd p == snd p')%Q.
Lemma ins_eqw p p' l l' : eqw p p' -> Forall2 eqw l l' -> Forall2 eqw (ins fst_lt p l) (ins fst_lt p' l').
Proof.
  intros E F. induction F as [|u v l l' H F IH]; cbn [ins]; [constructor; [exact E|constructor]|]. replace (fst_lt v p') with (fst_lt u p) by (unfold fst_lt; rewrite (proj1 E), (proj1 H); reflexivity).
  destruct (fst_lt u p); constructor; [exact H|exact IH|exact E|constructor; assumption].
Qed.
Lemma wq_proper sort x w w' p u : Forall2 Qeq w w' -> weighted_quantile sort x w p = Ok u -> exists u', weighted_quantile sort x w' p = Ok u' /\ (u == u')%Q.
Proof.
  intros F. assert (C : Forall2 eqw (combine x w) (combine x w')) by (revert x; induction F as [|a b l l' H F IH]; intros [|y x]; cbn [combine]; constructor; [split; [reflexivity|exact H]|apply IH]).
  assert (K : Forall2 eqw (wpairs sort x w) (wpairs sort x w')). { unfold wpairs. destruct sort; [|exact C]. unfold np_sort. induction C as [|a b l l' H C IH]; cbn [fold_right]; [constructor|]. apply ins_eqw; assumption. }
  rewrite !weighted_quantile_eq. replace (map fst (wpairs sort x w')) with (map fst (wpairs sort x w)).
  - apply interp_proper. apply cumsum_proper; [reflexivity|]. clear -K. induction K as [|a b l l' H K IH]; cbn; constructor; [apply H|exact IH].
  - clear -K. induction K as [|a b l l' H K IH]; cbn; [reflexivity|]. rewrite IH, (proj1 H). reflexivity.
Qed.
(** The weighted median is the weighted quantile at 1/2. *)
Theorem C49_weighted_median sort fill fill' x w m : fits x (Some w) m -> good_weights m (Some w) -> sel m x <> [] ->
  exists u v, median sort fill (A1 x) (Some (A1 w)) (option_map A1 m) = Ok (S0 u) /\ quantile [1 # 2] sort fill' (A1 x) (Some (A1 w)) (option_map A1 m) = Ok (S0 [v]) /\ (u == v)%Q.
Proof.
  intros Hf Hw N. change (Some (A1 w)) with (option_map (@A1 Q) (Some w)). unfold median, quantile. rewrite !by_rows_1d by exact Hf. unfold median_1d, quantile_1d, impl_1d.
  destruct (sel m x) as [|a l] eqn:Ex; [congruence|]. rewrite <- Ex. clear N. cbn [sel]. set (ws := sel m w) in *. set (n := map (fun a => a / Qsum ws)%Q ws).
  destruct Hf as [Hl Hm]. destruct Hw as [Hp Hs]. fold ws in Hp, Hs.
  assert (Ln : length n = length (sel m x)) by (unfold n; rewrite map_length; apply sel_len; [exact Hl|exact Hm]).
  assert (Sn : (Qsum n == 1)%Q) by (unfold n; rewrite Qsum_scale; field; lra).
  assert (P0 : forall b, In b n -> (0 <= b)%Q) by (apply norm_nonneg; assumption).
  destruct (sel_bounds (sel m x)) as (lo & hi & _ & _ & Hb); [rewrite Ex; discriminate|].
  assert (F : Forall2 Qeq n (map (fun b => b / Qsum n)%Q n)). { assert (G : forall l, Forall2 Qeq l (map (fun b => b / Qsum n)%Q l)) by (induction l0 as [|b l0 IH]; constructor; [rewrite Sn; field|exact IH]). apply G. }
  destruct (wq_bounded sort (sel m x) n (1 # 2) lo hi Ln ltac:(rewrite Ex; discriminate) P0 Hb) as (v & Ev & _).
  destruct (wq_proper sort (sel m x) n _ (1 # 2) v F Ev) as (u & Eu & Q).
  exists u, v. cbn [mapM]. rewrite Eu, Ev. cbn [bind rmap nth]. rewrite Ex. cbn [bind]. split; [reflexivity|]. split; [reflexivity|lra].
Qed.
Print Assumptions C49_weighted_median.
(** Finding: with tied samples the quantile depends on the order in which they are given (numpy's argsort keeps no order). *)
Theorem C49_ties_refuted : exists q q', quantile [1 # 2] true 0 (A1 [0; 1; 1]%Q) (Some (A1 [1; 1; 2]%Q)) None = Ok (S0 [q]) /\
  quantile [1 # 2] true 0 (A1 [0; 1; 1]%Q) (Some (A1 [1; 2; 1]%Q)) None = Ok (S0 [q']) /\ ~ (q == q')%Q.
Proof. do 2 eexists. split; [vm_compute; reflexivity|]. split; [vm_compute; reflexivity|]. intro H. vm_compute in H. discriminate. Qed.
Print Assumptions C49_ties_refuted.
(** Three samples of weights 1, 2, 1: a quarter of the way from 1 to 2, and exactly at 2. *)
Example C49_weighted_case : (exists q, quantile [3 # 4] true 0 (A1 [3; 1; 2]%Q) (Some (A1 [1; 2; 1]%Q)) None = Ok (S0 [q]) /\ q == 2)%Q /\
  (exists q, quantile [((2 + (1 # 4) * 1) / 4)%Q] true 0 (A1 [3; 1; 2]%Q) (Some (A1 [1; 2; 1]%Q)) None = Ok (S0 [q]) /\ q == 1 + (1 # 4) * (2 - 1))%Q.
Proof.
  split.
  - apply C49_weighted_at_sample; [reflexivity| |right; right; left; reflexivity|vm_compute; reflexivity]. intros a [<-|[<-|[<-|[]]]]; reflexivity.
  - assert (Pw : forall a, In a [1; 2; 1]%Q -> (0 < a)%Q) by (intros a [<-|[<-|[<-|[]]]]; reflexivity).
    destruct (C49_weighted_between 0 [3; 1; 2]%Q [1; 2; 1]%Q 1 2 1 (1 # 4) eq_refl Pw ltac:(right; left; reflexivity) ltac:(reflexivity) ltac:(reflexivity)
      ltac:(intros a [<-|[<-|[<-|[]]]]; [right|left|right]; discriminate) ltac:(discriminate) ltac:(reflexivity)) as (q & E & K).
    exists q. split; [|exact K]. rewrite <- E. vm_compute. reflexivity.
Qed.
