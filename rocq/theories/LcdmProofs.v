(** Lemmas for C75. *)
From Coq Require Import Reals Lra Lia Psatz.
From Coquelicot Require Import Coquelicot.
From Verif Require Import Base CosmModel LcdmModel.
Local Open Scope string_scope. Local Open Scope list_scope. Local Open Scope R_scope.

Lemma mpc_pos : 0 < mpc_to_m cc. Proof. cbn. lra. Qed.
Lemma gyr_pos : 0 < gyr_to_s cc. Proof. cbn. lra. Qed.
Lemma msun_pos : 0 < msun_to_kg cc. Proof. cbn. lra. Qed.
Lemma G_pos : 0 < c_gravity cc. Proof. cbn. lra. Qed.
Lemma c_pos : 0 < c_light cc. Proof. cbn. lra. Qed.
Lemma H0_pos p : 0 < a_h p -> 0 < a_H0 p.
Proof. intros H. unfold a_H0. pose proof mpc_pos. apply Rmult_lt_0_compat; [lra|]. apply Rdiv_lt_0_compat; lra. Qed.
Lemma crit0_pos p : 0 < a_h p -> 0 < a_crit0 p.
Proof. intros H. pose proof (H0_pos p H). pose proof PI_RGT_0. pose proof G_pos. unfold a_crit0. apply Rdiv_lt_0_compat; [assert (0 < a_H0 p ^ 2) by (apply pow_lt; lra); lra|]. apply Rmult_lt_0_compat; lra. Qed.

Section E.
  Variable p : apy.
  Hypothesis S : sane p.
  Let om := a_om0 p. Let orr := a_or0 p. Let ol := a_ode0 p.
  Lemma E2_pos z : -1 < z -> 0 < a_E2 p z.
  Proof.
    intros H. destruct S as (Hh & Ho & _ & Hr & Hs). unfold a_E2, a_ode0. assert (0 < (1 + z) ^ 3) by (apply pow_lt; lra). assert (0 < (1 + z) ^ 4) by (apply pow_lt; lra).
    assert (0 < a_om0 p * (1 + z) ^ 3) by (apply Rmult_lt_0_compat; assumption). assert (0 <= a_or0 p * (1 + z) ^ 4) by (apply Rmult_le_pos; lra). lra.
  Qed.
  Lemma E2_incr z z' : -1 < z -> z < z' -> a_E2 p z < a_E2 p z'.
  Proof.
    intros H L. destruct S as (Hh & Ho & _ & Hr & Hs). unfold a_E2.
    assert (P : forall n, (1 + z) ^ n <= (1 + z') ^ n) by (intros n; apply pow_incr; lra).
    assert ((1 + z) ^ 3 < (1 + z') ^ 3).
    { assert (Q : (1 + z') ^ 3 - (1 + z) ^ 3 = (z' - z) * ((1 + z') ^ 2 + (1 + z') * (1 + z) + (1 + z) ^ 2)) by ring.
      assert (0 < (z' - z) * ((1 + z') ^ 2 + (1 + z') * (1 + z) + (1 + z) ^ 2)); [|lra].
      apply Rmult_lt_0_compat; [lra|]. assert (0 < (1 + z') * (1 + z)) by (apply Rmult_lt_0_compat; lra). pose proof (pow2_ge_0 (1 + z')). pose proof (pow2_ge_0 (1 + z)). lra. }
    assert (a_om0 p * (1 + z) ^ 3 < a_om0 p * (1 + z') ^ 3) by (apply Rmult_lt_compat_l; lra).
    assert (a_or0 p * (1 + z) ^ 4 <= a_or0 p * (1 + z') ^ 4) by (apply Rmult_le_compat_l; [lra|apply P]). lra.
  Qed.
  Lemma E2_0 : a_E2 p 0 = 1.
  Proof. unfold a_E2, a_ode0. ring. Qed.
  Lemma E_pos z : -1 < z -> 0 < a_E p z.
  Proof. intros H. apply sqrt_lt_R0, E2_pos, H. Qed.
  Lemma E_0 : a_E p 0 = 1.
  Proof. unfold a_E. rewrite E2_0. apply sqrt_1. Qed.
  Lemma E_incr z z' : -1 < z -> z < z' -> a_E p z < a_E p z'.
  Proof. intros H L. apply sqrt_lt_1; [left; apply E2_pos, H|left; apply E2_pos; lra|apply E2_incr; assumption]. Qed.
  Lemma E_ge1 z : 0 <= z -> 1 <= a_E p z.
  Proof. intros [H|<-]; [left; rewrite <- E_0; apply E_incr; lra|rewrite E_0; lra]. Qed.
  Lemma E_cont (z : R) : -1 < z -> continuous (a_E p) z.
  Proof.
    intros H. unfold a_E. apply (continuous_comp (a_E2 p) sqrt).
    - apply (ex_derive_continuous (a_E2 p)). unfold a_E2. auto_derive. exact I.
    - apply continuity_pt_filterlim, continuity_pt_sqrt. left. apply E2_pos, H.
  Qed.
  Lemma Einv_cont (z : R) : -1 < z -> continuous (fun t => / a_E p t) z.
  Proof. intros H. apply (continuous_comp (a_E p) Rinv); [apply E_cont, H|]. apply continuity_pt_filterlim, continuity_pt_inv; [apply continuity_pt_id|]. pose proof (E_pos z H). lra. Qed.
  Lemma Rmin_gt a b c : a < b -> a < c -> a < Rmin b c.
  Proof. intros. apply Rmin_glb_lt; assumption. Qed.
  Lemma ex_Einv a b : -1 < a -> -1 < b -> ex_RInt (fun t => / a_E p t) a b.
  Proof. intros A B. apply (ex_RInt_continuous (V := R_CompleteNormedModule)). intros t T. apply Einv_cont. pose proof (Rmin_gt (-1) a b A B). lra. Qed.
  Definition chi (z : R) : R := RInt (fun t => / a_E p t) 0 z.
  Lemma chi_0 : chi 0 = 0.
  Proof. unfold chi. rewrite RInt_point. reflexivity. Qed.
  Lemma chi_split a b : -1 < a -> -1 < b -> chi b = chi a + RInt (fun t => / a_E p t) a b.
  Proof. intros A B. unfold chi. symmetry. apply (RInt_Chasles (fun t => / a_E p t)); apply ex_Einv; lra. Qed.
  Lemma chi_bounds a b : -1 < a -> a < b -> (b - a) / a_E p b <= RInt (fun t => / a_E p t) a b <= (b - a) / a_E p a.
  Proof.
    intros A L. assert (B : -1 < b) by lra.
    assert (C : forall v, RInt (fun _ => v) a b = (b - a) * v) by (intros v; rewrite RInt_const; reflexivity).
    split; unfold Rdiv; rewrite <- C; apply RInt_le; try lra; try apply ex_RInt_const; try (apply ex_Einv; lra); intros t T.
    - apply Rinv_le_contravar; [apply E_pos; lra|]. left. apply E_incr; lra.
    - apply Rinv_le_contravar; [apply E_pos; lra|]. left. apply E_incr; lra.
  Qed.
  Lemma chi_incr a b : -1 < a -> a < b -> chi a < chi b.
  Proof. intros A L. rewrite (chi_split a b) by lra. destruct (chi_bounds a b A L) as [B _]. assert (0 < (b - a) / a_E p b) by (apply Rdiv_lt_0_compat; [lra|apply E_pos; lra]). lra. Qed.
  Lemma chi_derive (z : R) : -1 < z -> is_derive chi z (/ a_E p z).
  Proof.
    intros H. apply (is_derive_RInt (fun t => / a_E p t) chi 0 z).
    - assert (P : 0 < (1 + z) / 2) by lra. exists (mkposreal _ P). intros y Y. unfold chi. apply (RInt_correct (V := R_CompleteNormedModule)), ex_Einv; [lra|].
      unfold ball in Y; cbn in Y; unfold AbsRing_ball, abs, minus, plus, opp in Y; cbn in Y. apply Rabs_lt_between in Y. lra.
    - apply Einv_cont, H.
  Qed.
  Lemma chi_cont (z : R) : -1 < z -> continuity_pt chi z.
  Proof. intros H. apply continuity_pt_filterlim. apply (ex_derive_continuous chi). eexists. apply chi_derive, H. Qed.

  (** ** Ages *)
  Definition dage (t : R) : R := / ((1 + t) * a_E p t).
  Lemma dage_cont (t : R) : -1 < t -> continuous dage t.
  Proof.
    intros H. unfold dage. apply (continuous_comp (fun t => (1 + t) * a_E p t) Rinv).
    - apply (continuous_mult (fun t : R => 1 + t) (a_E p)); [|apply E_cont, H]. apply (continuous_plus (fun _ : R => 1) (fun t : R => t)); [apply continuous_const|apply continuous_id].
    - apply continuity_pt_filterlim, continuity_pt_inv; [apply continuity_pt_id|]. pose proof (E_pos t H). assert (0 < (1 + t) * a_E p t) by (apply Rmult_lt_0_compat; lra). lra.
  Qed.
  Lemma ex_dage a b : -1 < a -> -1 < b -> ex_RInt dage a b.
  Proof. intros A B. apply (ex_RInt_continuous (V := R_CompleteNormedModule)). intros t T. apply dage_cont. pose proof (Rmin_gt (-1) a b A B). lra. Qed.
  Definition radicand (a : R) : R := a_om0 p * a + a_or0 p + a_ode0 p * a ^ 4.
  Lemma radicand_pos a : 0 < a -> 0 < radicand a.
  Proof.
    intros H. destruct S as (Hh & Ho & _ & Hr & Hs). unfold radicand, a_ode0. assert (0 < a_om0 p * a) by (apply Rmult_lt_0_compat; assumption).
    assert (0 <= (1 - a_om0 p - a_or0 p) * a ^ 4) by (apply Rmult_le_pos; [lra|apply pow_le; lra]). lra.
  Qed.
  Lemma radicand_E z : -1 < z -> radicand (1 / (1 + z)) = a_E2 p z * (1 / (1 + z)) ^ 4.
  Proof. intros H. unfold radicand, a_E2. field. lra. Qed.
  Lemma age_at z : -1 < z -> age_integrand p (1 / (1 + z)) = (1 + z) / a_E p z.
  Proof.
    intros H. unfold age_integrand. fold (radicand (1 / (1 + z))). rewrite radicand_E by exact H. rewrite sqrt_mult_alt by (left; apply E2_pos, H). fold (a_E p z).
    replace ((1 / (1 + z)) ^ 4) with (((1 / (1 + z)) ^ 2) ^ 2) by ring. rewrite sqrt_pow2 by apply pow2_ge_0. pose proof (E_pos z H). field. split; lra.
  Qed.
  Lemma age_cont_pos (a : R) : 0 < a -> continuous (age_integrand p) a.
  Proof.
    intros H. unfold age_integrand. apply (continuous_mult (fun a : R => a) (fun a => / sqrt (radicand a))); [apply continuous_id|].
    apply (continuous_comp (fun a => sqrt (radicand a)) Rinv).
    - apply (continuous_comp radicand sqrt); [apply (ex_derive_continuous radicand); unfold radicand; auto_derive; exact I|].
      apply continuity_pt_filterlim, continuity_pt_sqrt. left. apply radicand_pos, H.
    - apply continuity_pt_filterlim, continuity_pt_inv; [apply continuity_pt_id|]. pose proof (sqrt_lt_R0 _ (radicand_pos a H)). lra.
  Qed.
  Lemma age_nonneg a : 0 < a -> 0 < age_integrand p a.
  Proof. intros H. apply Rdiv_lt_0_compat; [exact H|]. apply sqrt_lt_R0, (radicand_pos a H). Qed.
  (** Near 0 the integrand is below sqrt(a / om). *)
  Lemma age_small a : 0 < a -> age_integrand p a <= sqrt (a / a_om0 p).
  Proof.
    intros H. destruct S as (Hh & Ho & _ & Hr & Hs). unfold age_integrand. fold (radicand a). pose proof (radicand_pos a H) as P.
    replace a with (sqrt (a ^ 2)) at 1 by (apply sqrt_pow2; lra). rewrite <- sqrt_div_alt by exact P. apply sqrt_le_1_alt.
    assert (O : 0 < a_om0 p * a) by (apply Rmult_lt_0_compat; assumption).
    replace (a / a_om0 p) with (a ^ 2 / (a_om0 p * a)) by (field; split; lra). apply Rmult_le_compat_l; [apply pow2_ge_0|]. apply Rinv_le_contravar; [exact O|].
    unfold radicand. assert (0 <= a_ode0 p * a ^ 4) by (apply Rmult_le_pos; [unfold a_ode0; lra|apply pow_le; lra]). lra.
  Qed.
  (** The integrand continued by 0 to the left is continuous at 0. *)
  Definition age_ext (a : R) : R := if Rle_dec a 0 then 0 else age_integrand p a.
  Lemma age_ext_cont (a : R) : continuous age_ext a.
  Proof.
    destruct (total_order_T a 0) as [[N|Z]|P].
    - apply (continuous_ext_loc age_ext (fun _ : R => 0) a); [|apply continuous_const]. assert (Q : 0 < - a) by lra. exists (mkposreal _ Q). intros y Y.
      unfold ball in Y; cbn in Y; unfold AbsRing_ball, abs, minus, plus, opp in Y; cbn in Y. apply Rabs_lt_between in Y. unfold age_ext. destruct (Rle_dec y 0); [reflexivity|lra].
    - subst a. destruct S as (Hh & Ho & _ & Hr & Hs). apply continuity_pt_filterlim. intros eps Heps. exists (a_om0 p * eps ^ 2). assert (E2 : 0 < eps ^ 2) by (apply pow_lt; exact Heps).
      split; [apply Rmult_lt_0_compat; assumption|]. intros x [_ X]. unfold dist in *. cbn in *. unfold R_dist in *. rewrite Rminus_0_r in X.
      unfold age_ext at 2. destruct (Rle_dec 0 0) as [_|C]; [|lra]. rewrite Rminus_0_r. unfold age_ext. destruct (Rle_dec x 0) as [_|N]; [rewrite Rabs_R0; exact Heps|].
      assert (P : 0 < x) by lra. rewrite Rabs_right in X by lra. rewrite Rabs_right by (left; apply age_nonneg, P). apply Rle_lt_trans with (1 := age_small x P).
      replace eps with (sqrt (eps ^ 2)) by (apply sqrt_pow2; lra). apply sqrt_lt_1_alt. split; [left; apply Rdiv_lt_0_compat; assumption|]. apply (Rmult_lt_reg_l (a_om0 p)); [exact Ho|]. replace (a_om0 p * (x / a_om0 p)) with x by (field; lra). replace (eps ^ 2) with (eps * (eps * 1)) by ring. exact X.
    - apply (continuous_ext_loc age_ext (age_integrand p) a); [|apply age_cont_pos, P]. exists (mkposreal _ P). intros y Y.
      unfold ball in Y; cbn in Y; unfold AbsRing_ball, abs, minus, plus, opp in Y; cbn in Y. apply Rabs_lt_between in Y. unfold age_ext. destruct (Rle_dec y 0); [lra|reflexivity].
  Qed.
  Lemma age_zero : age_integrand p 0 = 0.
  Proof. unfold age_integrand, Rdiv. apply Rmult_0_l. Qed.
  Lemma age_ext_eq a : 0 <= a -> age_ext a = age_integrand p a.
  Proof. intros [H|<-]; unfold age_ext; [destruct (Rle_dec a 0); [lra|reflexivity]|]. destruct (Rle_dec 0 0); [symmetry; apply age_zero|reflexivity]. Qed.
  Lemma ex_age a b : 0 <= a -> 0 <= b -> ex_RInt (age_integrand p) a b.
  Proof.
    intros A B. apply (ex_RInt_ext age_ext); [|apply (ex_RInt_continuous (V := R_CompleteNormedModule)); intros; apply age_ext_cont].
    intros x X. apply age_ext_eq. assert (0 <= Rmin a b) by (apply Rmin_glb; assumption). lra.
  Qed.
  Lemma age_split z : -1 < z -> RInt (age_integrand p) 0 (1 / (1 + z)) + RInt dage 0 z = RInt (age_integrand p) 0 1.
  Proof.
    intros H. assert (A : 0 < 1 / (1 + z)) by (apply Rdiv_lt_0_compat; lra).
    rewrite <- (RInt_Chasles (age_integrand p) 0 (1 / (1 + z)) 1) by (apply ex_age; lra). apply (f_equal (fun t => RInt (age_integrand p) 0 (1 / (1 + z)) + t)).
    assert (C : RInt (fun y => scal (- / (1 + y) ^ 2) (age_integrand p (1 / (1 + y)))) z 0 = RInt (age_integrand p) (1 / (1 + z)) (1 / (1 + 0))).
    { assert (M : forall x, Rmin z 0 <= x -> -1 < x) by (intros x X; pose proof (Rmin_gt (-1) z 0 H ltac:(lra)); lra).
      apply (RInt_comp (age_integrand p) (fun y => 1 / (1 + y)) (fun y => - / (1 + y) ^ 2)).
      - intros x [X1 X2]. apply M in X1. apply age_cont_pos. apply Rdiv_lt_0_compat; lra.
      - intros x [X1 X2]. apply M in X1. split; [auto_derive; [lra|field; lra]|].
        apply (ex_derive_continuous (fun y => - / (1 + y) ^ 2)). auto_derive. repeat split; try exact I. apply Rgt_not_eq. assert (0 < (1 + x) ^ 2) by (apply pow_lt; lra). cbn in *. lra. }
    replace (1 / (1 + 0)) with 1 in C by field. etransitivity; [|exact C].
    rewrite <- (opp_RInt_swap (V := R_CompleteNormedModule) dage z 0) by (apply ex_dage; lra). rewrite <- (RInt_opp (V := R_CompleteNormedModule) dage) by (apply ex_dage; lra). apply RInt_ext.
    intros x [X1 X2]. assert (X : -1 < x) by (pose proof (Rmin_gt (-1) z 0 H ltac:(lra)); lra). unfold scal, opp; cbn; unfold mult; cbn. rewrite age_at by exact X. unfold dage. pose proof (E_pos x X). field. split; lra.
  Qed.
End E.
