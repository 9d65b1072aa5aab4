(** Proofs for C92: np.linspace and from_data_range. *)
From Coq Require Import ZArith Reals Lra Lia List Bool.
Require Import Flocq.Core.Core Flocq.IEEE754.BinarySingleNaN.
From Verif Require Import Base ProcFloat InterpFloatProofs MeshFloatModel MeshFloatProofs BinFloatModel BinFloatSpec BinFloatProofs FredModel FredSpec FredProofs FredProofs2 FredProofs3 FredProofs4 FquaModel FquaSpec FquaProofs FquaProofs2 GfltModel GfltSpec GfltProofs GfltProofs2 GfltProofs3 GfltProofs4 BinFloatProps FquaProps.
Import ListNotations. Local Open Scope list_scope. Local Open Scope R_scope.

Lemma lin_nth lo hi n k v : nth_error (f_linspace lo hi n) k = Some v <-> (k < n)%nat /\ v = (if Nat.leb 2 n && Nat.eqb k (n - 1) then hi else f_lin_at lo hi n k).
Proof.
  unfold f_linspace. rewrite nth_error_map. destruct (Nat.lt_ge_cases k n) as [L|L].
  - rewrite (nth_error_nth' _ 0%nat) by (rewrite seq_length; exact L). rewrite seq_nth by exact L. cbn [option_map]. rewrite Nat.add_0_l. split; [intros [= <-]; auto|intros [_ ->]; reflexivity].
  - replace (nth_error (seq 0 n) k) with (@None nat) by (symmetry; apply nth_error_None; rewrite seq_length; exact L). split; [discriminate|intros [? _]; lia].
Qed.
Lemma lin_len lo hi n : length (f_linspace lo hi n) = n.
Proof. unfold f_linspace. rewrite map_length, seq_length. reflexivity. Qed.
Definition as_bins (lo hi : b64) (n : nat) : fbins := {| fb_b := lo; fb_e := hi; fb_n := Z.of_nat n - 1 |}.
Lemma Beqb_0 x : fin x = true -> Beqb x (of_Z64 0) = Req_bool (val x) 0.
Proof. intros F. destruct (of_Z64_exact 0 ltac:(lia)) as [V0 F0]. pose proof (Beqb_correct 53 1024 x (of_Z64 0) F F0) as H. change (B2R (of_Z64 0)) with (val (of_Z64 0)) in H. rewrite V0 in H. exact H. Qed.
Lemma lin_edges lo hi n : (2 <= n)%nat -> fits (as_bins lo hi n) -> f_linspace lo hi n = f_edges (as_bins lo hi n).
Proof.
  intros H F. unfold f_linspace, f_edges. cbn [fb_n as_bins]. replace (Z.to_nat (Z.of_nat n - 1) + 1)%nat with n by lia. apply map_ext_in. intros k I. apply in_seq in I.
  unfold f_edge. cbn [fb_n fb_e fb_b as_bins]. replace (Nat.leb 2 n) with true by (symmetry; apply Nat.leb_le; exact H). cbn [andb].
  destruct (Nat.eqb_spec k (n - 1)) as [E|E].
  - replace (Z.of_nat k =? Z.of_nat n - 1)%Z with true by (symmetry; apply Z.eqb_eq; lia). reflexivity.
  - replace (Z.of_nat k =? Z.of_nat n - 1)%Z with false by (symmetry; apply Z.eqb_neq; lia). unfold f_lin_at. replace (Nat.leb n 1) with false by (symmetry; apply Nat.leb_gt; lia).
    pose proof (step_pos _ F) as P. destruct (step_facts _ F) as (_ & _ & _ & _ & FS & _).
    change (div64 (sub64 hi lo) (of_Z64 (Z.of_nat n - 1))) with (f_step (as_bins lo hi n)). rewrite (Beqb_0 _ FS), Req_bool_false by lra. reflexivity.
Qed.
Lemma lin_finite lo hi n k : fin lo = true -> fin hi = true -> Rabs (val lo) <= B 900 -> Rabs (val hi) <= B 900 -> (k < n)%nat -> (Z.of_nat n <= 2 ^ 53)%Z -> fin (f_lin_at lo hi n k) = true /\ (k = 0%nat -> val (f_lin_at lo hi n k) = val lo) /\
  (val lo = val hi -> val (f_lin_at lo hi n k) = val lo).
Proof.
  intros Fl Fh Hl Hh Hk Hn. unfold f_lin_at. destruct (of_nat64 k ltac:(lia)) as [VK FK]. pose proof (INR_small k ltac:(lia)) as [K0 K1].
  assert (W : Rabs (val hi - val lo) <= B 901). { unfold Rminus. eapply Rle_trans; [apply Rabs_triang|]. rewrite Rabs_Ropp, (E901 900 901 eq_refl). lra. }
  destruct (sub64_b hi lo Fh Fl) as [FD VD]; [eapply Rle_trans; [exact W|]; apply bpow_le; lia|]. assert (WR := rnd64_bound _ 901 ltac:(lia) W).
  assert (ADD : forall m, fin m = true -> Rabs (val m) <= B 955 -> fin (add64 m lo) = true /\ val (add64 m lo) = rnd64 (val m + val lo)).
  { intros m Fm Hm. apply add64_b; [exact Fm|exact Fl|]. eapply Rle_trans; [apply Rabs_triang|]. pose proof (bpow_le radix2 900 955 ltac:(lia)). pose proof (bpow_le radix2 956 1023 ltac:(lia)). pose proof (E901 955 956 eq_refl). lra. }
  assert (FIN : forall m, fin m = true -> Rabs (val m) <= B 955 -> (k = 0%nat -> val m = 0) -> (val lo = val hi -> val m = 0) ->
    fin (add64 m lo) = true /\ (k = 0%nat -> val (add64 m lo) = val lo) /\ (val lo = val hi -> val (add64 m lo) = val lo)).
  { intros m Fm Hm Z1 Z2. destruct (ADD m Fm Hm) as [FA VA]. split; [exact FA|]. split; intros E; rewrite VA; [rewrite (Z1 E)|rewrite (Z2 E)]; rewrite Rplus_0_l; apply rnd64_val. }
  assert (D0 : val lo = val hi -> rnd64 (val hi - val lo) = 0) by (intros ->; rewrite Rminus_diag_eq by reflexivity; apply rnd64_0).
  destruct (Nat.leb_spec n 1) as [L|L].
  - assert (k = 0)%nat by lia. subst k. assert (M0 : Rabs (val (of_Z64 (Z.of_nat 0)) * val (sub64 hi lo)) <= B 1023) by (rewrite VK; cbn [INR]; rewrite Rmult_0_l, Rabs_R0; apply bpow_ge_0).
    destruct (mul64_b _ _ FK FD M0) as [FM VM]. rewrite VK in VM. cbn [INR] in VM. rewrite Rmult_0_l, rnd64_0 in VM. apply FIN; [exact FM|rewrite VM, Rabs_R0; apply bpow_ge_0|intros _; exact VM|intros _; exact VM].
  - destruct (slice_step lo hi n) as (FT & VT & AT & _); try assumption; try lia. destruct (of_pred64 n ltac:(lia) Hn) as [VN FN]. assert (N1 : 1 <= INR (n - 1)) by (apply (le_INR 1); lia).
    destruct (Beqb (div64 (sub64 hi lo) (of_Z64 (Z.of_nat n - 1))) (of_Z64 0)).
    + assert (Q : 0 <= INR k / INR (n - 1) <= 1).
      { split; [apply div_nonneg; lra|]. apply Rmult_le_reg_r with (INR (n - 1)); [lra|]. unfold Rdiv. rewrite Rmult_assoc, Rinv_l, Rmult_1_r, Rmult_1_l by lra. apply le_INR. lia. }
      destruct (div64_b (of_Z64 (Z.of_nat k)) (of_Z64 (Z.of_nat n - 1)) FK) as [FQ VQ]; [rewrite VN; lra| |].
      { rewrite VK, VN, Rabs_right by lra. apply Rle_trans with (B 0); [change (B 0) with 1; lra|apply bpow_le; lia]. }
      rewrite VK, VN in VQ. assert (QB : Rabs (rnd64 (INR k / INR (n - 1))) <= B 0) by (apply rnd64_bound; [lia|rewrite Rabs_right by lra; change (B 0) with 1; lra]).
      assert (MB : Rabs (rnd64 (INR k / INR (n - 1)) * rnd64 (val hi - val lo)) <= B 901).
      { rewrite Rabs_mult. change 901%Z with (0 + 901)%Z. rewrite bpow_plus. apply Rmult_le_compat; try apply Rabs_pos; assumption. }
      destruct (mul64_b _ (sub64 hi lo) FQ FD) as [FM VM]; [rewrite VQ, VD; eapply Rle_trans; [exact MB|]; apply bpow_le; lia|]. rewrite VQ, VD in VM. apply FIN; [exact FM| | |].
      * rewrite VM. eapply Rle_trans; [apply (rnd64_bound _ 901 ltac:(lia) MB)|]. apply bpow_le. lia.
      * intros ->. rewrite VM. cbn [INR]. unfold Rdiv. rewrite Rmult_0_l, rnd64_0, Rmult_0_l. apply rnd64_0.
      * intros E. rewrite VM, (D0 E), Rmult_0_r. apply rnd64_0.
    + assert (P : Rabs (INR k * val (div64 (sub64 hi lo) (of_Z64 (Z.of_nat n - 1)))) <= B 955).
      { rewrite Rabs_mult, (Rabs_right (INR k)) by lra. change 955%Z with (53 + 902)%Z. rewrite bpow_plus. apply Rmult_le_compat; [lra|apply Rabs_pos|lra|exact AT]. }
      destruct (mul64_b (of_Z64 (Z.of_nat k)) _ FK FT) as [FM VM]; [rewrite VK; eapply Rle_trans; [exact P|]; apply bpow_le; lia|]. rewrite VK in VM. apply FIN; [exact FM| | |].
      * rewrite VM. apply rnd64_bound; [lia|exact P].
      * intros ->. rewrite VM. cbn [INR]. rewrite Rmult_0_l. apply rnd64_0.
      * intros E. rewrite VM, VT, (D0 E). unfold Rdiv. rewrite Rmult_0_l, rnd64_0, Rmult_0_r. apply rnd64_0.
Qed.
Lemma lin_all_finite lo hi n : fin lo = true -> fin hi = true -> Rabs (val lo) <= B 900 -> Rabs (val hi) <= B 900 -> (Z.of_nat n <= 2 ^ 53)%Z -> Forall (fun v => fin v = true) (f_linspace lo hi n).
Proof.
  intros Fl Fh Hl Hh Hn. apply Forall_forall. intros v I. apply In_nth_error in I. destruct I as [k I]. apply lin_nth in I. destruct I as [K ->].
  destruct (Nat.leb 2 n && Nat.eqb k (n - 1)); [exact Fh|]. apply lin_finite; assumption.
Qed.
Lemma lin_first lo hi n : fin lo = true -> fin hi = true -> Rabs (val lo) <= B 900 -> Rabs (val hi) <= B 900 -> (1 <= n)%nat -> (Z.of_nat n <= 2 ^ 53)%Z -> exists v, nth_error (f_linspace lo hi n) 0 = Some v /\ val v = val lo.
Proof.
  intros Fl Fh Hl Hh H1 Hn. exists (f_lin_at lo hi n 0). split; [|destruct (lin_finite lo hi n 0 Fl Fh Hl Hh ltac:(lia) Hn) as (_ & Z & _); apply Z; reflexivity].
  apply lin_nth. split; [lia|]. destruct (Nat.leb_spec 2 n) as [L|L]; cbn [andb]; [|reflexivity]. replace (Nat.eqb 0 (n - 1)) with false by (symmetry; apply Nat.eqb_neq; lia). reflexivity.
Qed.
Lemma lin_last lo hi n : (2 <= n)%nat -> nth_error (f_linspace lo hi n) (n - 1) = Some hi.
Proof. intros H. apply lin_nth. split; [lia|]. rewrite Nat.eqb_refl. replace (Nat.leb 2 n) with true by (symmetry; apply Nat.leb_le; exact H). reflexivity. Qed.
Lemma lin_ascending lo hi n : fin lo = true -> fin hi = true -> Rabs (val lo) <= B 900 -> Rabs (val hi) <= B 900 -> (1 <= n)%nat -> (Z.of_nat n <= 2 ^ 49)%Z ->
  val lo = val hi \/ B (-900) <= val hi - val lo -> ascending (f_linspace lo hi n) /\ Forall (fun v => val lo <= val v <= val hi) (f_linspace lo hi n).
Proof.
  intros Fl Fh Hl Hh H1 Hn W. assert (AF := lin_all_finite lo hi n Fl Fh Hl Hh ltac:(lia)). pose proof (u_pos (-900)).
  assert (A : ascending (f_linspace lo hi n)).
  { destruct (Nat.eq_dec n 1) as [->|N].
    - split; [exact AF|]. intros i j a b L I J. apply lin_nth in I, J. destruct I as [I ->], J as [J ->]. assert (i = 0 /\ j = 0)%nat as [-> ->] by lia. lra.
    - destruct W as [W|W].
      + split; [exact AF|]. assert (C : forall k v, nth_error (f_linspace lo hi n) k = Some v -> val v = val lo).
        { intros k v I. apply lin_nth in I. destruct I as [K ->]. destruct (Nat.leb 2 n && Nat.eqb k (n - 1)); [symmetry; exact W|]. apply lin_finite; try assumption. lia. }
        intros i j a b L I J. rewrite (C _ _ I), (C _ _ J). lra.
      + assert (FT : fits (as_bins lo hi n)) by (unfold fits, as_bins; cbn [fb_b fb_e fb_n]; repeat split; try assumption; lia).
        rewrite (lin_edges lo hi n ltac:(lia) FT) in *. destruct (C84_edges _ FT) as (_ & _ & M & _). split; [exact AF|exact M]. }
  split; [exact A|]. apply Forall_forall. intros v I. apply In_nth_error in I. destruct I as [k I]. assert (K : (k < n)%nat) by (apply lin_nth in I; apply I).
  destruct (lin_first lo hi n Fl Fh Hl Hh H1 ltac:(lia)) as (v0 & I0 & V0). destruct A as [_ A]. split.
  - rewrite <- V0. apply (A 0%nat k); [lia|assumption..].
  - destruct (Nat.eq_dec n 1) as [->|N].
    + assert (k = 0)%nat by lia. subst k. assert (v = v0) by congruence. subst v. rewrite V0. lra.
    + apply (A k (n - 1)%nat); [lia|exact I|apply lin_last; lia].
Qed.
Lemma lin_down lo hi n : fin lo = true -> fin hi = true -> Rabs (val lo) <= B 900 -> Rabs (val hi) <= B 900 -> (2 <= n)%nat -> (Z.of_nat n <= 2 ^ 53)%Z -> val hi < val lo -> ~ ascending (f_linspace lo hi n).
Proof.
  intros Fl Fh Hl Hh H1 Hn L [_ A]. destruct (lin_first lo hi n Fl Fh Hl Hh ltac:(lia) Hn) as (v0 & I0 & V0).
  pose proof (A 0%nat (n - 1)%nat v0 hi ltac:(lia) I0 (lin_last lo hi n H1)). lra.
Qed.
(** *** Lists of axes *)
Lemma mapM_length {A C} (f : A -> result C) l : forall r, mapM f l = Ok r -> length r = length l.
Proof. induction l as [|x l IH]; cbn [mapM]; intros r H; [inversion H; reflexivity|]. destruct (f x); cbn [bind] in H; [|discriminate]. destruct (mapM f l); cbn [bind] in H; [|discriminate]. inversion H. cbn [length]. f_equal. apply IH. reflexivity. Qed.
Lemma mapM_ok {A C} (f : A -> result C) (g : A -> C) l : (forall x, In x l -> f x = Ok (g x)) -> mapM f l = Ok (map g l).
Proof. induction l as [|x l IH]; intros H; [reflexivity|]. cbn [mapM map]. rewrite (H x) by (left; reflexivity). cbn [bind]. rewrite IH by (intros y I; apply H; right; exact I). reflexivity. Qed.
