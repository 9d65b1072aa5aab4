(** EqualSpaceBins with any monotone rounding (binary64 itself is in BinFloatModel.v): binning.py:174-211. *)
From Coq Require Import QArith Qround Lqa.
From Verif Require Import Base OrderSpec BinSpec BinModel BinProofs.
Local Open Scope list_scope. Local Open Scope nat_scope.

(** Any rounding: [rnd] is a function on rationals. *)
Definition res_locate (rnd : Q -> Q) (b e : Q) (n : Z) (x : Q) : Z :=
  let step := rnd (rnd (e - b)%Q / inject_Z n)%Q in
  zclip (-1) n (int64_cast (Qfloor (rnd (rnd (x - b)%Q / step)%Q))).
Definition rounding (rnd : Q -> Q) : Prop := (forall p q, p <= q -> rnd p <= rnd q)%Q /\ (rnd 0 == 0)%Q.

Lemma zclip_mono lo hi a b : (a <= b)%Z -> (zclip lo hi a <= zclip lo hi b)%Z.
Proof. unfold zclip. lia. Qed.
Lemma Qfloor_mono p q : (p <= q)%Q -> (Qfloor p <= Qfloor q)%Z.
Proof. apply Qfloor_resp_le. Qed.
Lemma Qdiv_mono p q s : (0 < s)%Q -> (p <= q)%Q -> (p / s <= q / s)%Q.
Proof. intros H L. apply Qmult_le_compat_r; [assumption|]. apply Qlt_le_weak. apply Qinv_lt_0_compat. assumption. Qed.
Lemma res_mono rnd b e n x y : rounding rnd -> (0 < rnd (rnd (e - b) / inject_Z n))%Q -> (x <= y)%Q ->
  (- 2 ^ 63 <= Qfloor (rnd (rnd (x - b) / rnd (rnd (e - b) / inject_Z n)))%Q)%Z ->
  (Qfloor (rnd (rnd (y - b) / rnd (rnd (e - b) / inject_Z n)))%Q < 2 ^ 63)%Z ->
  (res_locate rnd b e n x <= res_locate rnd b e n y)%Z.
Proof.
  intros [M _] Sp L Lo Hi. unfold res_locate. set (st := rnd (rnd (e - b) / inject_Z n)%Q) in *.
  assert (F : (Qfloor (rnd (rnd (x - b) / st))%Q <= Qfloor (rnd (rnd (y - b) / st))%Q)%Z).
  { apply Qfloor_mono. apply M. apply Qdiv_mono; [assumption|]. apply M. lra. }
  set (fx := Qfloor (rnd (rnd (x - b) / st))%Q) in *. set (fy := Qfloor (rnd (rnd (y - b) / st))%Q) in *.
  apply zclip_mono. unfold int64_cast.
  destruct (Z.leb_spec (- 2 ^ 63) fx), (Z.ltb_spec fx (2 ^ 63)), (Z.leb_spec (- 2 ^ 63) fy), (Z.ltb_spec fy (2 ^ 63)); cbn [andb]; lia.
Qed.
Lemma res_sign rnd b e n x : rounding rnd -> (0 < n)%Z -> (0 < rnd (rnd (e - b) / inject_Z n))%Q -> (b <= x)%Q ->
  (Qfloor (rnd (rnd (x - b) / rnd (rnd (e - b) / inject_Z n)))%Q < 2 ^ 63)%Z -> (0 <= res_locate rnd b e n x)%Z.
Proof.
  intros [M Z0] Hn Sp L Hi. unfold res_locate. set (st := rnd (rnd (e - b) / inject_Z n)%Q) in *.
  assert (A : (0 <= rnd (x - b))%Q) by (rewrite <- Z0; apply M; lra).
  assert (B : (0 <= rnd (x - b) / st)%Q) by (apply Qle_shift_div_l; [assumption|]; lra).
  assert (C : (0 <= rnd (rnd (x - b) / st))%Q) by (rewrite <- Z0 at 1; apply M; assumption).
  assert (F : (0 <= Qfloor (rnd (rnd (x - b) / st))%Q)%Z) by (change 0%Z with (Qfloor 0); apply Qfloor_mono; assumption).
  set (fx := Qfloor (rnd (rnd (x - b) / st))%Q) in *. unfold zclip, int64_cast.
  destruct (Z.leb_spec (- 2 ^ 63) fx), (Z.ltb_spec fx (2 ^ 63)); cbn [andb]; lia.
Qed.
