(** Proofs for C100: the estimates. *)
From Coq Require Import ZArith Reals Lra Lia List Bool.
Require Import Flocq.Core.Core Flocq.IEEE754.BinarySingleNaN.
From Verif Require Import Base ProcFloat InterpFloatProofs MeshFloatModel MeshFloatProofs FredModel FredSpec FredProofs FredProofs2 NfltProofs FknnModel FknnSpec FknnProofs FknnProofs3 FdenModel FdenSpec FdenProofs FdenProofs2.
Import ListNotations. Local Open Scope list_scope. Local Open Scope R_scope.

Lemma close_bool n x X b : close n x X -> 0 <= X -> close n (mul64 x (of_bool64 b)) (if b then X else 0).
Proof.
  intros (F & f & V & G) P. pose proof (fac_pos _ _ G) as Q. destruct (times_bool x b) as [[F' _] V']; [split; [exact F|rewrite V; apply Rmult_le_pos; lra]|]. split; [exact F'|]. exists f. split; [rewrite V'; destruct b; [exact V|ring]|exact G].
Qed.
Lemma medium_if k X (b : bool) : medium k X -> medium k (if b then X else 0).
Proof. destruct b; [auto|left; reflexivity]. Qed.
Lemma sum_if {A} (c : A -> bool) (X : A -> R) l : Rsum (map (fun p => if c p then X p else 0) l) = Rsum (map X (filter c l)).
Proof. unfold Rsum. induction l as [|p l IH]; [reflexivity|]. cbn [map filter fold_right]. rewrite IH. destruct (c p); cbn [map fold_right]; ring. Qed.
Lemma times_map {A} (f g : A -> b64) l : times (map f l) (map g l) = map (fun p => mul64 (f p) (g p)) l.
Proof. unfold times. induction l as [|p l IH]; [reflexivity|]. cbn [map combine]. f_equal. exact IH. Qed.
Definition is_near (m : option b64) (p : b64 * nat) : bool := match m with None => true | Some m => Bltb (fst p) m end.
Lemma filter_all {A} (l : list A) : filter (fun _ => true) l = l.
Proof. induction l as [|a l IH]; cbn [filter]; congruence. Qed.
Lemma near_filter m nb : near m nb = filter (is_near m) nb.
Proof. destruct m; cbn [near is_near]; [reflexivity|]. symmetry. apply filter_all. Qed.

Section Query.
Context (n_dims n : nat) (w : option (list b64)) (nb : neighbours).
Hypothesis W : weights_fit n w.
Hypothesis I : within n nb.
Hypothesis L : (Z.of_nat (length nb) <= 2 ^ 53)%Z.

Lemma pick_close p : In p nb -> close (np_depth n + 1) (nth (snd p) (fit64 n w) zero64) (share n w (snd p)) /\ medium 253 (share n w (snd p)).
Proof. intros H. unfold within in I. rewrite Forall_forall in I. destruct (fit_close n w (snd p) W (I p H)) as (_ & C & M & _). auto. Qed.
Lemma n_depth : (np_depth n <= 79)%nat.
Proof. apply depth_le. apply W. Qed.
(** The boosted shares; [c] is the mask. *)
Lemma boosted (K : option (b64 -> b64)) (c : b64 * nat -> bool) f : (forall k, K = Some k -> kernel_fit k nb /\ (filter c nb = [] \/ 0 < Rsum (map (fun q => val (k (fst q))) (filter c nb))) /\
    (forall p, f p = mul64 (nth (snd p) (fit64 n w) zero64) (mul64 (k (fst p)) (div64 (of_Z64 (Z.of_nat (length (filter c nb)))) (if length (filter c nb) =? 0 then floor64 else np_sum (map (fun p => mul64 (k (fst p)) (of_bool64 (c p))) nb)))))) ->
  (K = None -> forall p, f p = nth (snd p) (fit64 n w) zero64) ->
  forall p, In p nb -> exists X, close (np_depth n + np_depth (length nb) + 4) (f p) X /\ medium 559 X /\ (filter c nb <> [] -> X = share n w (snd p) * boost K (filter c nb) p).
Proof.
  intros HK HN p Hp. destruct (pick_close p Hp) as [Cw Mw]. pose proof n_depth as Dn. pose proof (depth_le _ L) as Dk. destruct K as [k|].
  - clear HN. destruct (HK k eq_refl) as (F & S0 & Ef). rewrite Ef. clear HK Ef. unfold kernel_fit in F. rewrite Forall_forall in F.
    destruct (sum_close (fun p => mul64 (k (fst p)) (of_bool64 (c p))) (fun p => if c p then val (k (fst p)) else 0) 0 100 nb ltac:(lia) L ltac:(lia)) as [Cs Ms].
    { intros q Hq. destruct (F q Hq) as [Fq Mq]. split; [apply close_bool; [apply close_exact, Fq|apply (medium_pos _ _ Mq)]|apply medium_if, Mq]. }
    rewrite (sum_if c (fun p => val (k (fst p)))) in Cs, Ms. change (100 + 53)%Z with 153%Z in Ms. cbn [Nat.add] in Cs. destruct (F p Hp) as [Fp Mp]. set (SK := Rsum (map (fun q : b64 * nat => val (k (fst q))) (filter c nb))) in *.
    assert (Lf : (length (filter c nb) <= length nb)%nat) by apply filter_le. assert (Em : filter c nb = [] \/ filter c nb <> []) by (destruct (filter c nb); [left; reflexivity|right; discriminate]). destruct Em as [E|N].
    + rewrite E in *. cbn [length Nat.eqb]. exists 0. destruct floor64_facts as [Ff Vf]. destruct (of_Z64_exact 0 ltac:(lia)) as [V0 F0].
      assert (C0 : close 0 (of_Z64 (Z.of_nat 0)) 0) by (apply (close_eq 0 _ _ _ V0), close_exact, F0).
      assert (Z0 : medium 0 (0 / val floor64)) by (left; field; lra). pose proof (close_div 0 0 0 _ _ _ _ C0 (close_exact _ Ff) ltac:(lra) Z0 ltac:(lia) ltac:(lia)) as C1. replace (0 / val floor64) with 0 in C1 by (field; lra). cbn [Nat.add] in C1.
      pose proof (close_mul 0 0 1 _ _ _ _ (close_exact _ Fp) C1 (or_introl (Rmult_0_r _)) ltac:(lia) ltac:(lia)) as C2. rewrite Rmult_0_r in C2. cbn [Nat.add] in C2.
      pose proof (close_mul 0 _ 2 _ _ _ _ Cw C2 (or_introl (Rmult_0_r _)) ltac:(lia) ltac:(lia)) as C3. rewrite Rmult_0_r in C3. split; [|split; [left; reflexivity|congruence]]. eapply close_more; [|exact C3]. lia.
    + assert (N0 : length (filter c nb) <> 0%nat) by (intros Z; apply length_zero_iff_nil in Z; contradiction). destruct (Nat.eqb_spec (length (filter c nb)) 0) as [Z|_]; [congruence|].
      assert (Sp : 0 < SK) by (destruct S0 as [S0|S0]; [congruence|exact S0]). destruct (nat_close (length (filter c nb)) ltac:(lia)) as [Cn Mn]. specialize (Mn N0).
      pose proof (medium_div _ _ _ _ Mn Ms ltac:(lra)) as M1. pose proof (close_div _ _ _ _ _ _ _ Cn Cs ltac:(lra) M1 ltac:(lia) ltac:(lia)) as C1. pose proof (medium_mul _ _ _ _ Mp M1) as M2. pose proof (close_mul _ _ _ _ _ _ _ (close_exact _ Fp) C1 M2 ltac:(lia) ltac:(lia)) as C2.
      pose proof (medium_mul _ _ _ _ Mw M2) as M3. pose proof (close_mul _ _ _ _ _ _ _ Cw C2 M3 ltac:(lia) ltac:(lia)) as C3.
      exists (share n w (snd p) * boost (Some k) (filter c nb) p). cbn [boost]. fold SK. split; [eapply close_more; [|exact C3]; lia|]. split; [eapply medium_more; [|exact M3]; lia|reflexivity].
  - rewrite (HN eq_refl). exists (share n w (snd p)). split; [eapply close_more; [|exact Cw]; lia|]. split; [eapply medium_more; [|exact Mw]; lia|]. intros _. cbn [boost]. ring.
Qed.
(** Sum over the mask, over the volume. *)
Lemma estimate (K : option (b64 -> b64)) (c : b64 * nat -> bool) f g r d : radius_fit n_dims r -> (d <= 200)%nat ->
  (forall p, In p nb -> exists X, close d (f p) X /\ medium 559 X /\ (filter c nb <> [] -> X = share n w (snd p) * boost K (filter c nb) p)) ->
  (forall p, In p nb -> g p = mul64 (f p) (of_bool64 (c p)) \/ (g p = f p /\ c p = true)) ->
  close (d + np_depth (length nb) + 3 * n_dims + 1) (div64 (np_sum (map g nb)) (ball64 n_dims r)) (density n_dims n w K (val r) (filter c nb)).
Proof.
  intros R D F G. destruct (ball_close n_dims r R) as [Cv Mv]. pose proof (depth_le _ L) as Dk.
  assert (Rp : 0 < val r) by (destruct R as (k & _ & _ & _ & R & _); pose proof (bpow_gt_0 radix2 (- k)); lra). pose proof (volume_pos n_dims _ Rp) as Vp.
  assert (N : (Z.of_nat n_dims * 3 <= 350)%Z) by (destruct R as (k & ? & ? & _); nia).
  set (X := fun p => if c p then share n w (snd p) * boost K (filter c nb) p else 0).
  destruct (sum_close g X d 559 nb ltac:(lia) L ltac:(lia)) as [Cs Ms].
  { intros p Hp. destruct (F p Hp) as (Y & C & M & E). pose proof (medium_pos _ _ M) as PY. assert (EX : X p = if c p then Y else 0).
    { unfold X. destruct (c p) eqn:Ec; [|reflexivity]. symmetry. apply E. intros E0. assert (I0 : In p (filter c nb)) by (apply filter_In; auto). rewrite E0 in I0. exact I0. }
    rewrite EX. split; [|apply medium_if, M]. destruct (G p Hp) as [->|[-> ->]]; [apply close_bool; assumption|exact C]. }
  unfold X in Cs, Ms. rewrite (sum_if c (fun p => share n w (snd p) * boost K (filter c nb) p)) in Cs, Ms. unfold density. change (559 + 53)%Z with 612%Z in Ms.
  pose proof (medium_div _ _ _ _ Ms Mv ltac:(lra)) as Md. pose proof (close_div _ _ _ _ _ _ _ Cs Cv ltac:(lra) Md ltac:(lia) ltac:(lia)) as C. exact C.
Qed.
End Query.
