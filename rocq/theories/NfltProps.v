(** Property theorems C94: bound, safe_div, norm and normalize in double precision.  Vocabulary: NfltSpec.v, FredSpec.v ([adds]: a way of adding, with D n additions at most on
    each of n numbers; numpy's is one, C89_numpy). *)
From Coq Require Import ZArith Reals Lra Lia List Permutation.
Require Import Flocq.Core.Core Flocq.IEEE754.BinarySingleNaN.
From Verif Require Import Base ProcFloat InterpFloatProofs MeshFloatProofs BinFloatProofs FredModel FredSpec FredProofs FredProofs2 FredProps FquaProofs FquaProps NfltModel NfltSpec NfltProofs NfltProofs2 NfltProofs3.
Import ListNotations. Local Open Scope list_scope. Local Open Scope R_scope.

Lemma lt_le_trans64 (x l h : b64) : Bltb x l = true -> Bleb l h = true -> Bleb x h = true.
Proof.
  destruct (fin x) eqn:Fx; [destruct (fin l) eqn:Fl; [destruct (fin h) eqn:Fh|]|].
  - rewrite lt_bool, !Bleb_val by assumption. repeat (case Rlt_bool_spec || case Rle_bool_spec); intros; try reflexivity; try discriminate; lra.
  - destruct h as [|[]| |]; try discriminate Fh; destruct x as [[]|[]| |[] ? ? ?]; destruct l as [[]|[]| |[] ? ? ?]; cbn; intros; try reflexivity; try discriminate.
  - destruct l as [|[]| |]; try discriminate Fl; destruct x as [[]|[]| |[] ? ? ?]; destruct h as [[]|[]| |[] ? ? ?]; cbn; intros; try reflexivity; try discriminate.
  - destruct x as [|[]| |]; try discriminate Fx; destruct l as [[]|[]| |[] ? ? ?]; destruct h as [[]|[]| |[] ? ? ?]; cbn; intros; try reflexivity; try discriminate.
Qed.
(** bound: NaN passes through; everything else comes out between the bounds (infinities included), unchanged if it was there, else as the bound; a missing bound does
    nothing. *)
Theorem C94_bound : forall l h x : b64, ~ isnan l -> ~ isnan h -> le64 l h ->
  (isnan x -> f_bound (Some l) (Some h) x = x /\ f_bound (Some l) None x = x /\ f_bound None (Some h) x = x) /\ f_bound None None x = x /\
  (~ isnan x ->
    (let r := f_bound (Some l) (Some h) x in le64 l r /\ le64 r h /\ (le64 l x -> le64 x h -> r = x) /\ (~ le64 l x -> r = l) /\ (~ le64 x h -> r = h)) /\
    (let r := f_bound (Some l) None x in le64 l r /\ (le64 l x -> r = x) /\ (~ le64 l x -> r = l)) /\
    (let r := f_bound None (Some h) x in le64 r h /\ (le64 x h -> r = x) /\ (~ le64 x h -> r = h))).
Proof.
  intros l h x Nl Nh LH. unfold isnan, le64 in *. apply Bool.not_true_is_false in Nl, Nh. split; [|split; [reflexivity|]].
  - intros Nx. destruct (nan_lt x l Nx) as [A1 A2]. destruct (nan_lt x h Nx) as [B1 B2]. unfold f_bound. rewrite A1, B2. repeat split; rewrite ?B2; reflexivity.
  - intros Nx. apply Bool.not_true_is_false in Nx. unfold f_bound.
    pose proof (lt_not_le x l Nx Nl) as E1. pose proof (lt_not_le h x Nh Nx) as E2. pose proof (lt_not_le h l Nh Nl) as E3. pose proof (le_refl64 l Nl) as R1. pose proof (le_refl64 h Nh) as R2. rewrite E1.
    split; [|split].
    + destruct (Bleb l x) eqn:L; cbn [negb]; [rewrite E2; destruct (Bleb x h) eqn:H; cbn [negb]; repeat split; try assumption; try congruence|].
      rewrite E3, LH. cbn [negb]. repeat split; try assumption; try congruence. intros Q. exfalso. apply Q. clear Q.
      apply (lt_le_trans64 x l h); [rewrite E1; reflexivity|exact LH].
    + destruct (Bleb l x) eqn:L; cbn [negb]; repeat split; try assumption; try congruence.
    + rewrite E2. destruct (Bleb x h) eqn:H; cbn [negb]; repeat split; try assumption; try congruence.
Qed.
Print Assumptions C94_bound.

(** safe_div: with a finite positive lo, a denominator from lo on is used as it is, a smaller one (negative ones included) is replaced by lo, bit for bit; if |x| <= 2^1000 lo the
    quotient is finite, correctly rounded, and not above |x| / lo in magnitude by more than the rounding. *)
Theorem C94_safe_div : forall lo x y : b64, fin lo = true -> fin x = true -> fin y = true -> 0 < val lo ->
  (val lo <= val y -> f_safe_div lo x y = div64 x y) /\ (val y < val lo -> f_safe_div lo x y = div64 x lo) /\
  (Rabs (val x) <= bpow radix2 1000 * val lo -> let q := val x / Rmax (val y) (val lo) in
     fin (f_safe_div lo x y) = true /\ Rabs (val (f_safe_div lo x y) - q) <= bpow radix2 (-53) * Rabs q + bpow radix2 (-1075) /\ Rabs q <= Rabs (val x) / val lo).
Proof.
  intros lo x y Fl Fx Fy L. unfold f_safe_div, f_bound. rewrite lt_bool by assumption. split; [intros H; rewrite Rlt_bool_false by exact H; reflexivity|]. split; [intros H; rewrite Rlt_bool_true by exact H; reflexivity|].
  intros H. cbv zeta. set (q := val x / Rmax (val y) (val lo)). pose proof (Rmax_r (val y) (val lo)) as M. set (n := Rmax (val y) (val lo)) in *.
  assert (En : exists z, (if Rlt_bool (val y) (val lo) then lo else y) = z /\ val z = n).
  { exists (if Rlt_bool (val y) (val lo) then lo else y). split; [reflexivity|]. unfold n. case Rlt_bool_spec; intros Q; [rewrite Rmax_right by lra|rewrite Rmax_left by lra]; reflexivity. }
  destruct En as (z & -> & Vz). assert (Qb : Rabs q <= Rabs (val x) / val lo).
  { unfold q, Rdiv. rewrite Rabs_mult, (Rabs_right (/ n)) by (left; apply Rinv_0_lt_compat; lra). apply Rmult_le_compat_l; [apply Rabs_pos|]. apply Rinv_le_contravar; lra. }
  assert (Qc : Rabs (val x) / val lo <= B 1000). { apply (Rmult_le_reg_r (val lo)); [exact L|]. unfold Rdiv. rewrite Rmult_assoc, Rinv_l by lra. lra. }
  destruct (div64_b x z Fx) as [Fd Vd]; [lra|rewrite Vz; fold q; apply Rle_trans with (1 := Qb); apply Rle_trans with (1 := Qc); apply bpow_le; lia|].
  split; [exact Fd|]. split; [|exact Qb]. rewrite Vd, Vz. fold q. destruct (err64 q) as (t & e & T & E & _ & R). rewrite R. replace (q * (1 + t) + e - q) with (t * q + e) by ring. apply Rle_trans with (1 := Rabs_triang _ _).
  rewrite Rabs_mult. apply Rplus_le_compat; [apply Rmult_le_compat_r; [apply Rabs_pos|exact T]|exact E].
Qed.
Print Assumptions C94_safe_div.

(** norm: relative error at most (D(n) + 3) 2^-52 unless the squares leave the range of the doubles (sum of squares between 2^-900 and 2^1020)... *)
Theorem C94_norm total D x : adds total D -> finite x -> (Z.of_nat (length x) <= 2 ^ 53)%Z -> INR (D (length x)) * eps <= / 8 ->
  bpow radix2 (-900) <= sq_sum x <= bpow radix2 1020 ->
  fin (f_norm total x) = true /\ Rabs (val (f_norm total x) - sqrt (sq_sum x)) <= (INR (D (length x)) + 3) * eps * sqrt (sq_sum x).
Proof. intros A F Hn Hd [L H]. exact (norm_close total D x A F Hn Hd H L). Qed.
Print Assumptions C94_norm.
(** ... and a finite norm is at least the magnitude of every component from 2^-510 on, and exactly that magnitude if the other components are zero. *)
Theorem C94_norm_dominates total D x : adds total D -> finite x -> fin (f_norm total x) = true -> 0 <= val (f_norm total x) /\
  (forall v, In v x -> bpow radix2 (-510) <= Rabs (val v) -> Rabs (val v) <= val (f_norm total x)) /\
  (forall a v b, x = a ++ v :: b -> (forall w, In w (a ++ b) -> val w = 0) -> bpow radix2 (-510) <= Rabs (val v) <= bpow radix2 510 -> val (f_norm total x) = Rabs (val v)).
Proof.
  intros A F Fn. destruct (norm_ge total D x A F) as [Q|(_ & P & G)]; [rewrite Q in Fn; discriminate Fn|]. split; [exact P|]. split; [exact G|].
  intros a v b -> Z R. apply (axis_norm total D a v b A F Z R).
Qed.
Print Assumptions C94_norm_dominates.

(** normalize, each component: the exact quotient by max(norm, lo), within (2 D(n) + 8) 2^-52 of its magnitude (and 2^-1075). *)
Theorem C94_normalize total D lo x : adds total D -> finite x -> (Z.of_nat (length x) <= 2 ^ 53)%Z -> INR (D (length x)) * eps <= / 8 -> sq_sum x <= bpow radix2 1020 ->
  fin lo = true -> bpow radix2 (-400) <= val lo <= bpow radix2 900 -> let n := Rmax (sqrt (sq_sum x)) (val lo) in
  Forall2 (fun v r => fin r = true /\ Rabs (val r - val v / n) <= (2 * INR (D (length x)) + 8) * eps * (Rabs (val v) / n) + bpow radix2 (-1075)) x (f_normalize total lo x).
Proof.
  intros A F Hn Hd Hs Fl Hl n. pose proof (component total D x A F Hn Hd Hs lo Fl Hl) as C. fold n in C. rewrite normalize_map. set (z := divisor total x lo) in *. clearbody z n. set (k := (2 * INR (D (length x)) + 8) * eps) in *. clearbody k. clear -C.
  induction x as [|v x IH]; constructor; [apply C; left; reflexivity|]. apply IH. intros w I. apply C. right. exact I.
Qed.
Print Assumptions C94_normalize.
(** A vector at least lo long comes out with length one: the exact sum of the squares of the result is within (5 D(n) + 20) 2^-52 of 1. *)
Theorem C94_normalize_length total D lo x : adds total D -> finite x -> (Z.of_nat (length x) <= 2 ^ 53)%Z -> INR (D (length x)) * eps <= / 8 -> sq_sum x <= bpow radix2 1020 ->
  fin lo = true -> bpow radix2 (-400) <= val lo <= bpow radix2 900 -> val lo <= sqrt (sq_sum x) ->
  Rabs (sq_sum (f_normalize total lo x) - 1) <= (5 * INR (D (length x)) + 20) * eps.
Proof. exact (normalize_length total D lo x). Qed.
Print Assumptions C94_normalize_length.
(** Whatever finite numbers come in (overflow of the squares included) and however they are added, no component of the result exceeds 1 in magnitude, none is NaN or infinite and
    none has changed its sign. *)
Theorem C94_normalize_range total D lo x : adds total D -> finite x -> fin lo = true -> bpow radix2 (-510) <= val lo ->
  Forall2 (fun v r => fin r = true /\ Rabs (val r) <= 1 /\ 0 <= val v * val r) x (f_normalize total lo x).
Proof. exact (normalize_range total D lo x). Qed.
Print Assumptions C94_normalize_range.
(** A vector along one axis (at least lo long, its square in range) becomes exactly the unit vector of that axis. *)
Theorem C94_normalize_axis total D lo a v b : adds total D -> finite (a ++ v :: b) -> (forall w, In w (a ++ b) -> val w = 0) -> bpow radix2 (-510) <= Rabs (val v) <= bpow radix2 510 ->
  fin lo = true -> 0 < val lo <= Rabs (val v) ->
  Forall2 (fun w r => fin r = true /\ val r = if Rlt_bool 0 (val w) then 1 else if Rlt_bool (val w) 0 then -1 else 0) (a ++ v :: b) (f_normalize total lo (a ++ v :: b)).
Proof. exact (axis_normalize total D lo a v b). Qed.
Print Assumptions C94_normalize_axis.

(** Findings.  A vector whose squares overflow (2^600 in both components) is normalized to the zero vector; a safe division can overflow: 10^300 / 0 is infinite. *)
Theorem C94_large_vector_refuted : let x := [@B754_finite 53 1024 false (2 ^ 52) 548 eq_refl; @B754_finite 53 1024 false (2 ^ 52) 548 eq_refl] in
  finite x /\ Forall (fun v => val v = bpow radix2 600) x /\ Forall (fun r => fin r = true /\ val r = 0) (f_normalize np_sum lo_default64 x).
Proof.
  intros x. split; [repeat constructor|]. split.
  - assert (V : val (@B754_finite 53 1024 false (2 ^ 52) 548 eq_refl) = B 600). { unfold val, B2R, F2R. cbn [Fnum Fexp cond_Zopp]. change (IZR (Z.pos (2 ^ 52))) with (B 52). rewrite <- bpow_plus. reflexivity. }
    repeat constructor; exact V.
  - assert (Z : forall r : b64, B2SF r = SpecFloat.S754_zero false -> fin r = true /\ val r = 0) by (intros [[]|[]| |[] m e h] E; try discriminate E; split; reflexivity).
    unfold x. cbv [f_normalize map]. repeat constructor; apply Z; vm_compute; reflexivity.
Qed.
Print Assumptions C94_large_vector_refuted.
Theorem C94_safe_div_refuted : exists x y, fin x = true /\ fin y = true /\ fin (f_safe_div lo_default64 x y) = false.
Proof. exists (@B754_finite 53 1024 false (2 ^ 52) 948 eq_refl), (of_Z64 0). repeat split; vm_compute; reflexivity. Qed.
Print Assumptions C94_safe_div_refuted.

(** Non-vacuity: (3, -4) has norm 5 and normalizes to doubles next to (0.6, -0.8). *)
Example C94_case : let x := [of_Z64 3; of_Z64 (-4)] in
  (Beqb (f_norm np_sum x) (of_Z64 5) && (match f_normalize np_sum lo_default64 x with [p; q] => Beqb p (div64 (of_Z64 3) (of_Z64 5)) && Beqb q (div64 (of_Z64 (-4)) (of_Z64 5)) | _ => false end))%bool = true.
Proof. vm_compute. reflexivity. Qed.
Example C94_lo : fin lo_default64 = true /\ bpow radix2 (-400) <= val lo_default64 <= bpow radix2 900 /\ INR (np_depth 3) * eps <= / 8.
Proof.
  split; [reflexivity|]. split.
  - unfold lo_default64, val, B2R, F2R. cbn [Fnum Fexp cond_Zopp]. split.
    + apply Rle_trans with (1 * B (-86)); [rewrite Rmult_1_l; apply bpow_le; lia|]. apply Rmult_le_compat_r; [apply bpow_ge_0|]. apply IZR_le. lia.
    + apply Rle_trans with (B 53 * B (-86)); [apply Rmult_le_compat_r; [apply bpow_ge_0|]; change (B 53) with (IZR (2 ^ 53)); apply IZR_le; lia|]. rewrite <- bpow_plus. apply bpow_le. lia.
  - change (np_depth 3) with 26%nat. replace (INR 26) with 26 by (cbn; lra). pose proof eps_facts as [_ E]. assert (eps <= / 512) by exact E. assert (B (-52) <= B (-10)) by (apply bpow_le; lia). unfold eps. change (B (-10)) with (/ 1024) in *. lra.
Qed.
