(** C46, continued: the shape correction is the Fourier transform of the cloud that the mass assignment deposits. *)
From Coq Require Import Reals Lra Lia ZArith.
From Coquelicot Require Import Coquelicot.
From Verif Require Import Base GravModel GravProofs2.
Local Open Scope R_scope.

Lemma cloud_integral a : a <> 0 -> is_RInt (fun u => 2 * (1 - u) * cos (2 * a * u)) 0 1 (sin a / a * (sin a / a)).
Proof.
  intros Ha. set (F u := (1 - u) * sin (2 * a * u) / a - cos (2 * a * u) / (2 * a ^ 2)).
  replace (sin a / a * (sin a / a)) with (minus (F 1) (F 0)).
  - apply (is_RInt_derive (V := R_CompleteNormedModule) F).
    + intros u _. unfold F. auto_derive; [exact I|]. field. exact Ha.
    + intros u _. apply (ex_derive_continuous (V := R_NormedModule)). auto_derive. exact I.
  - unfold F, minus, plus, opp; cbn -[pow]. rewrite !Rmult_0_r, sin_0, cos_0, Rmult_1_r.
    replace (cos (2 * a)) with (1 - 2 * sin a * sin a) by (rewrite (cos_2a_sin a); ring). field. exact Ha.
Qed.
(** For every wave number k the factor divided out along one axis is the Fourier integral at k of the triangular cloud
    1 - |u| (u in cells, both halves): the transform of what C42 says one particle deposits. *)
Theorem C46_shape_is_cloud n (k : Z) : (0 < n)%nat ->
  is_RInt (fun u => 2 * (1 - u) * cos (2 * PI * IZR k / INR n * u)) 0 1 (shape_at_ki n (IZR k)).
Proof.
  intros Hn. assert (Pn : 0 < INR n) by now apply lt_0_INR. unfold shape_at_ki.
  destruct (Z.eq_dec k 0) as [->|D].
  - rewrite Rabs_R0. destruct (Rlt_dec 0 (/ 1000000)) as [_|N]; [|exfalso; apply N; lra].
    apply (is_RInt_ext (V := R_NormedModule) (fun u => 2 * (1 - u))).
    { intros u _. replace (2 * PI * 0 / INR n * u) with 0 by (unfold Rdiv; ring). rewrite cos_0. symmetry. apply Rmult_1_r. }
    assert (K : is_RInt (V := R_NormedModule) (fun u => 2 * (1 - u)) 0 1 (minus ((fun u => 2 * u - u ^ 2) 1) ((fun u => 2 * u - u ^ 2) 0))).
    { apply (is_RInt_derive (V := R_CompleteNormedModule) (fun u => 2 * u - u ^ 2)).
      - intros u _. auto_derive; [exact I|]. ring.
      - intros u _. apply (ex_derive_continuous (V := R_NormedModule)). auto_derive. exact I. }
    refine (eq_ind _ (fun v => is_RInt (V := R_NormedModule) (fun u => 2 * (1 - u)) 0 1 v) K _ _). unfold minus, plus, opp; cbn; lra.
  - assert (L : 1 <= Rabs (IZR k)). { rewrite <- abs_IZR. apply IZR_le. lia. }
    destruct (Rlt_dec (Rabs (IZR k)) (/ 1000000)) as [S|_]; [exfalso; lra|]. cbn zeta.
    set (a := PI * IZR k / INR n). assert (Ha : a <> 0).
    { unfold a. intros E. apply (not_0_IZR k D). apply Rmult_integral in E. destruct E as [E|E]; [|exfalso; revert E; apply Rinv_neq_0_compat; lra].
      apply Rmult_integral in E. destruct E as [E|E]; [exfalso; pose proof PI_RGT_0; lra|exact E]. }
    apply (is_RInt_ext (V := R_NormedModule) (fun u => 2 * (1 - u) * cos (2 * a * u))).
    { intros u _. f_equal. f_equal. unfold a, Rdiv. ring. }
    now apply cloud_integral.
Qed.
Print Assumptions C46_shape_is_cloud.
(** The whole three-dimensional factor is the product of the three axes; without the correction it is 1. *)
Theorem C46_shape_product n a b c : shape_nd true n (a, b, c) = shape_at_ki n a * shape_at_ki n b * shape_at_ki n c /\
  shape_nd false n (a, b, c) = 1.
Proof. unfold shape_nd. split; ring. Qed.
Print Assumptions C46_shape_product.
Example ex_shape : shape_at_ki 8 4 = (2 / PI) * (2 / PI).
Proof.
  unfold shape_at_ki. rewrite Rabs_right by lra. destruct (Rlt_dec 4 (/ 1000000)) as [H|_]; [exfalso; lra|]. cbn zeta.
  replace (PI * 4 / INR 8) with (PI / 2) by (simpl; field). rewrite sin_PI2. field. apply PI_neq0.
Qed.
