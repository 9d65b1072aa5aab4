(** Proofs for C94: length of normalized vectors, vectors along one axis, bounds and safe division. *)
From Coq Require Import ZArith Reals Lra Lia List Permutation.
Require Import Flocq.Core.Core Flocq.IEEE754.BinarySingleNaN.
From Verif Require Import Base ProcFloat InterpFloatProofs MeshFloatProofs BinFloatProofs FredModel FredSpec FredProofs FredProofs2 FredProofs3 FredProofs4 FquaProofs NfltModel NfltSpec NfltProofs NfltProofs2.
Import ListNotations. Local Open Scope list_scope. Local Open Scope R_scope.

Lemma normalize_map total lo x : f_normalize total lo x = map (fun v => div64 v (divisor total x lo)) x.
Proof. reflexivity. Qed.
Lemma square_step t r k h : 0 <= k <= 1 -> 0 <= h <= / 100 -> Rabs t <= 1 -> Rabs (r - t) <= k * Rabs t + h -> Rabs (r * r - t * t) <= (2 * k + k * k) * (t * t) + 5 * h.
Proof.
  intros K H T E. replace (r * r - t * t) with ((r - t) * (2 * t + (r - t))) by ring. rewrite Rabs_mult. pose proof (Rabs_pos t) as T0. set (a := Rabs t) in *.
  assert (E2 : Rabs (2 * t + (r - t)) <= 2 * a + (k * a + h)). { apply Rle_trans with (1 := Rabs_triang _ _). rewrite Rabs_mult, (Rabs_right 2) by lra. fold a. lra. }
  assert (Q : t * t = a * a) by (unfold a; rewrite <- Rabs_mult, Rabs_right; [reflexivity|apply Rle_ge, Rle_0_sqr]). rewrite Q.
  apply Rle_trans with ((k * a + h) * (2 * a + (k * a + h))); [apply Rmult_le_compat; try apply Rabs_pos; assumption|].
  assert (ka : 0 <= k * a <= 1) by (split; [apply Rmult_le_pos; lra|apply Rle_trans with (1 * 1); [apply Rmult_le_compat; lra|lra]]).
  assert (h1 : h * a <= h) by (apply Rle_trans with (h * 1); [apply Rmult_le_compat_l; lra|lra]). assert (h2 : h * (k * a) <= h) by (apply Rle_trans with (h * 1); [apply Rmult_le_compat_l; lra|lra]). assert (h3 : h * h <= h) by (apply Rle_trans with (h * 1); [apply Rmult_le_compat_l; lra|lra]).
  replace ((k * a + h) * (2 * a + (k * a + h))) with ((2 * k + k * k) * (a * a) + 2 * (h * a) + 2 * (h * (k * a)) + h * h) by ring. lra.
Qed.
Lemma normalize_length total D lo x : adds total D -> finite x -> (Z.of_nat (length x) <= 2 ^ 53)%Z -> INR (D (length x)) * eps <= / 8 -> sq_sum x <= B 1020 -> fin lo = true -> B (-400) <= val lo <= B 900 ->
  val lo <= sqrt (sq_sum x) -> Rabs (sq_sum (f_normalize total lo x) - 1) <= (5 * INR (D (length x)) + 20) * eps.
Proof.
  intros A F Hn Hd Hs Fl Hl L. pose proof (component total D x A F Hn Hd Hs lo Fl Hl) as C. set (S := sq_sum x) in *. rewrite Rmax_left in C by exact L. assert (B4 : 0 < B (-400)) by apply bpow_gt_0.
  set (N := sqrt S) in *. assert (N0 : 0 < N) by lra. pose proof eps_facts as [E0 E1]. pose proof (pos_INR (D (length x))) as D0. set (d := INR (D (length x))) in *.
  set (k := (2 * d + 8) * eps). assert (K : 0 <= k <= / 2). { unfold k. split; [apply Rmult_le_pos; lra|]. lra. }
  set (h := B (-1075)). assert (Hh : 0 <= h <= / 100). { unfold h. split; [apply bpow_ge_0|]. apply Rle_trans with (B (-7)); [apply bpow_le; lia|]. change (B (-7)) with (/ 128). lra. }
  assert (S0 : S = N * N) by (unfold N; rewrite sqrt_sqrt; [reflexivity|apply sq_sum_ge0]).
  assert (G : forall l, (forall v, In v l -> In v x) -> Rabs (sq_sum (map (fun v => div64 v (divisor total x lo)) l) - sq_sum l / (N * N)) <= (2 * k + k * k) * (sq_sum l / (N * N)) + INR (length l) * (5 * h)).
  { induction l as [|v l IH]; intros I.
    - unfold sq_sum, Rsum. cbn. unfold Rdiv. rewrite !Rmult_0_l, Rminus_0_r, Rabs_R0. lra.
    - specialize (IH (fun w Hw => I w (or_intror Hw))). destruct (C v (I v (or_introl eq_refl))) as [_ Cv].
      assert (St : Rabs (val (div64 v (divisor total x lo)) * val (div64 v (divisor total x lo)) - val v / N * (val v / N)) <= (2 * k + k * k) * (val v / N * (val v / N)) + 5 * h).
      { apply square_step; [lra|exact Hh| |].
        - unfold Rdiv. rewrite Rabs_mult, (Rabs_right (/ N)) by (left; apply Rinv_0_lt_compat; lra). apply (Rmult_le_reg_r N); [lra|]. rewrite Rmult_assoc, Rinv_l, Rmult_1_r, Rmult_1_l by lra.
          unfold N. rewrite <- (sqrt_Rsqr_abs (val v)). apply sqrt_le_1_alt. unfold Rsqr, S, sq_sum. specialize (I v (or_introl eq_refl)). clear -I. induction x as [|w l IH]; [destruct I|].
          cbn [map]. unfold Rsum in *. cbn [fold_right]. pose proof (sq_sum_ge0 l) as P. unfold sq_sum, Rsum in P. pose proof (Rle_0_sqr (val w)) as P2. unfold Rsqr in P2. destruct I as [->|I]; [lra|]. specialize (IH I). lra.
        - apply Rle_trans with (1 := Cv). fold k h. apply Rplus_le_compat_r. apply Rmult_le_compat_l; [lra|]. unfold Rdiv. rewrite Rabs_mult, (Rabs_right (/ N)) by (left; apply Rinv_0_lt_compat; lra). apply Rle_refl. }
      unfold sq_sum in *. cbn [map length]. rewrite S_INR. set (r := val (div64 v (divisor total x lo))) in *. unfold Rsum in *. cbn [fold_right].
      set (X := fold_right Rplus 0 (map (fun v0 => val v0 * val v0) (map (fun v0 => div64 v0 (divisor total x lo)) l))) in *. set (Y := fold_right Rplus 0 (map (fun v0 => val v0 * val v0) l)) in *.
      replace ((val v * val v + Y) / (N * N)) with (val v / N * (val v / N) + Y / (N * N)) by (field; lra). set (T := val v / N * (val v / N)) in *. set (Z := Y / (N * N)) in *.
      replace (r * r + X - (T + Z)) with ((r * r - T) + (X - Z)) by ring. apply Rle_trans with (1 := Rabs_triang _ _). lra. }
  specialize (G x (fun v I => I)). rewrite <- normalize_map in G. fold S in G. rewrite S0 in G. replace (N * N / (N * N)) with 1 in G by (field; lra). apply Rle_trans with (1 := G).
  assert (Sm : INR (length x) * (5 * h) <= / 100 * k).
  { apply Rle_trans with (B 53 * (B 3 * h)).
    - apply Rmult_le_compat; [apply pos_INR|lra| |]. { rewrite INR_IZR_INZ. change (B 53) with (IZR (2 ^ 53)). apply IZR_le, Hn. } apply Rmult_le_compat_r; [lra|]. change (B 3) with 8. lra.
    - unfold h. rewrite <- !bpow_plus. apply Rle_trans with (B (-7) * eps); [unfold eps; rewrite <- bpow_plus; apply bpow_le; lia|]. change (B (-7)) with (/ 128). unfold k. assert (0 <= d * eps) by (apply Rmult_le_pos; lra). lra. }
  assert (k * k <= / 2 * k) by (apply Rmult_le_compat_r; lra). assert (k * k <= (2 / 5) * k).
  { apply Rmult_le_compat_r; [lra|]. unfold k. replace ((2 * d + 8) * eps) with (2 * (d * eps) + 8 * eps) by ring. lra. }
  replace ((5 * d + 20) * eps) with (5 / 2 * k) by (unfold k; field). lra.
Qed.

Lemma zero_square w : fin w = true -> val w = 0 -> fin (mul64 w w) = true /\ val (mul64 w w) = 0.
Proof.
  intros F Z. destruct (nneg_square w F) as [_ [Q|[Fm Vm]]]; [|split; [exact Fm|rewrite Vm, Z, Rmult_0_l; apply rnd64_0]].
  destruct (mul64_b w w F F) as [Fm _]; [rewrite Z, Rmult_0_l, Rabs_R0; apply bpow_ge_0|]. rewrite Q in Fm. discriminate Fm.
Qed.
(** A vector along one axis: the norm is exactly the magnitude of that component. *)
Lemma axis_norm total D a v b : adds total D -> finite (a ++ v :: b) -> (forall w, In w (a ++ b) -> val w = 0) -> B (-510) <= Rabs (val v) <= B 510 ->
  fin (f_norm total (a ++ v :: b)) = true /\ val (f_norm total (a ++ v :: b)) = Rabs (val v).
Proof.
  intros A F Zs R. assert (B0 : 0 < B (-510)) by apply bpow_gt_0.
  assert (Fw : forall w, In w (a ++ v :: b) -> fin w = true) by (unfold finite in F; rewrite Forall_forall in F; exact F).
  assert (Fv : fin v = true) by (apply Fw, in_or_app; right; left; reflexivity).
  assert (Vv : val v * val v = Rabs (val v) * Rabs (val v)) by (rewrite <- Rabs_mult, Rabs_right; [reflexivity|apply Rle_ge, Rle_0_sqr]).
  assert (Hi : Rabs (val v) * Rabs (val v) <= B 1020) by (replace (B 1020) with (B 510 * B 510) by (rewrite <- bpow_plus; reflexivity); apply Rmult_le_compat; lra).
  assert (Lo : B (-1020) <= Rabs (val v) * Rabs (val v)) by (replace (B (-1020)) with (B (-510) * B (-510)) by (rewrite <- bpow_plus; reflexivity); apply Rmult_le_compat; lra).
  destruct (mul64_b v v Fv Fv) as [Fm Vm]; [rewrite Vv, Rabs_right by (apply Rle_ge, Rmult_le_pos; apply Rabs_pos); apply Rle_trans with (1 := Hi); apply bpow_le; lia|]. rewrite Vv in Vm.
  set (y := val (mul64 v v)) in *.
  assert (Y : B (-1020) <= y <= B 1020) by (rewrite Vm; split; [rewrite <- (format_pow (-1020)) by lia|rewrite <- (format_pow 1020) by lia]; apply rnd64_le; assumption).
  destruct (decompose y) as (m & e & E & M & He); [unfold y; rewrite <- fexp_FLT; apply format64|apply Rle_trans with (2 := proj1 Y); apply bpow_le; lia|].
  assert (Be : 0 < B e) by apply bpow_gt_0. assert (B1 : 0 < B (-1020)) by apply bpow_gt_0.
  assert (E9 : (52 + e <= 1020)%Z).
  { apply (le_bpow radix2). apply Rle_trans with y; [|apply Y]. rewrite E, bpow_plus. apply Rmult_le_compat_r; [lra|]. change (B 52) with (IZR (2 ^ 52)). apply IZR_le. lia. }
  set (z := fun t : b64 => if Req_bool (val t) 0 then 0%Z else m).
  assert (Ym : y <> 0) by lra.
  assert (Zv : z (mul64 v v) = m) by (unfold z; fold y; rewrite Req_bool_false by exact Ym; reflexivity).
  assert (Zz : forall w, In w (a ++ b) -> fin (mul64 w w) = true /\ val (mul64 w w) = 0 /\ z (mul64 w w) = 0%Z).
  { intros w I. destruct (zero_square w) as [F1 V1]; [apply Fw; apply in_app_or in I; apply in_or_app; destruct I; [left|right; right]; assumption|apply Zs, I|]. split; [exact F1|]. split; [exact V1|]. unfold z. rewrite Req_bool_true by exact V1. reflexivity. }
  assert (Sz : forall f : b64 -> Z, (forall w, In w (a ++ b) -> f (mul64 w w) = 0%Z) -> fold_right Z.add 0%Z (map f (map (fun w => mul64 w w) (a ++ v :: b))) = f (mul64 v v)).
  { intros f Hf. clear -Hf. assert (Nil : forall l, (forall w, In w l -> f (mul64 w w) = 0%Z) -> fold_right Z.add 0%Z (map f (map (fun w => mul64 w w) l)) = 0%Z).
    { induction l as [|w l IH]; intros H; [reflexivity|]. cbn [map fold_right]. rewrite (H w) by (left; reflexivity). rewrite IH; [reflexivity|]. intros t I. apply H. right. exact I. }
    induction a as [|w a IH]; cbn [app map fold_right].
    - rewrite Nil; [lia|exact Hf].
    - rewrite (Hf w) by (left; reflexivity). apply IH. intros t I. apply Hf. right. exact I. }
  destruct (sums_multiples _ _ _ e z (A (times (a ++ v :: b) (a ++ v :: b)))) as [Fs Vs]; [lia| | |].
  - rewrite squares_map. intros t I. apply in_map_iff in I. destruct I as (w & <- & I).
    assert (I2 : w = v \/ In w (a ++ b)) by (apply in_app_or in I; destruct I as [I|[I|I]]; [right; apply in_or_app; left; exact I|left; congruence|right; apply in_or_app; right; exact I]).
    destruct I2 as [->|I2]; [split; [exact Fm|fold y; rewrite Zv; exact E]|]. destruct (Zz w I2) as (F1 & V1 & Z1). split; [exact F1|]. rewrite V1, Z1. ring.
  - rewrite squares_map, (Sz (fun t => Z.abs (z t))); [rewrite Zv; lia|]. intros w I. destruct (Zz w I) as (_ & _ & ->). reflexivity.
  - rewrite squares_map, (Sz z) in Vs by (intros w I; apply Zz, I). rewrite Zv, <- E in Vs. unfold f_norm. rewrite squares_map in *.
    destruct (sqrt64_val _ Fs) as [Fr Vr]; [rewrite Vs; lra|]. split; [exact Fr|]. rewrite Vr, Vs, Vm. apply sqrt_of_square; [|lra]. apply generic_format_abs. rewrite <- fexp_FLT. apply format64.
Qed.
Lemma axis_normalize total D lo a v b : adds total D -> finite (a ++ v :: b) -> (forall w, In w (a ++ b) -> val w = 0) -> B (-510) <= Rabs (val v) <= B 510 -> fin lo = true -> 0 < val lo <= Rabs (val v) ->
  Forall2 (fun w r => fin r = true /\ val r = if Rlt_bool 0 (val w) then 1 else if Rlt_bool (val w) 0 then -1 else 0) (a ++ v :: b) (f_normalize total lo (a ++ v :: b)).
Proof.
  intros A F Zs R Fl Hl. destruct (axis_norm total D a v b A F Zs R) as [Fn Vn]. rewrite normalize_map. unfold divisor. rewrite lt_bool by assumption. rewrite Vn. rewrite Rlt_bool_false by lra.
  set (n := f_norm total (a ++ v :: b)) in *. assert (B0 : 0 < B (-510)) by apply bpow_gt_0.
  assert (G : forall w, In w (a ++ v :: b) -> fin (div64 w n) = true /\ val (div64 w n) = if Rlt_bool 0 (val w) then 1 else if Rlt_bool (val w) 0 then -1 else 0).
  { intros w I. assert (Fw : fin w = true) by (unfold finite in F; rewrite Forall_forall in F; apply F, I).
    assert (I2 : w = v \/ In w (a ++ b)) by (apply in_app_or in I; destruct I as [I|[I|I]]; [right; apply in_or_app; left; exact I|left; congruence|right; apply in_or_app; right; exact I]).
    assert (Q : val w / val n = if Rlt_bool 0 (val w) then 1 else if Rlt_bool (val w) 0 then -1 else 0).
    { rewrite Vn. destruct I2 as [->|I2]; [|rewrite (Zs w I2), Rlt_bool_false by lra; unfold Rdiv; apply Rmult_0_l].
      case Rlt_bool_spec; intros S1; [rewrite Rabs_right by lra; field; lra|]. case Rlt_bool_spec; intros S2; [rewrite Rabs_left by lra; field; lra|]. assert (val v = 0) by lra. rewrite H, Rabs_R0 in R. lra. }
    assert (Qr : rnd64 (val w / val n) = val w / val n /\ Rabs (val w / val n) <= 1).
    { rewrite Q. destruct (Rlt_bool 0 (val w)); [|destruct (Rlt_bool (val w) 0)].
      - split; [|rewrite Rabs_right; lra]. pose proof (format_int 1 0 ltac:(lia) ltac:(lia)) as H. change (B 0) with 1 in H. rewrite Rmult_1_r in H. exact H.
      - split; [|rewrite Rabs_left; lra]. pose proof (format_int (-1) 0 ltac:(lia) ltac:(lia)) as H. change (B 0) with 1 in H. rewrite Rmult_1_r in H. exact H.
      - split; [apply rnd64_0|rewrite Rabs_R0; lra]. }
    destruct (div64_b w n Fw) as [Fd Vd]; [rewrite Vn; lra|apply Rle_trans with (1 := proj2 Qr); change 1 with (B 0); apply bpow_le; lia|]. split; [exact Fd|]. rewrite Vd, (proj1 Qr). exact Q. }
  clearbody n. clear -G. induction (a ++ v :: b) as [|w l IH]; constructor; [apply G; left; reflexivity|]. apply IH. intros t I. apply G. right. exact I.
Qed.

Lemma lt_not_le (x y : b64) : is_nan x = false -> is_nan y = false -> Bltb x y = negb (Bleb y x).
Proof.
  intros Nx Ny. unfold Bltb, Bleb, SpecFloat.SFltb, SpecFloat.SFleb. pose proof (@Bcompare_swap 53 1024 y x) as C. unfold Bcompare in C. rewrite C.
  assert (S : exists c, SpecFloat.SFcompare (B2SF y) (B2SF x) = Some c).
  { destruct x as [?|?| |[] ? ? ?]; try discriminate Nx; destruct y as [?|?| |[] ? ? ?]; try discriminate Ny; cbn; repeat match goal with |- context [if ?b then _ else _] => destruct b | |- context [match ?b with _ => _ end] => destruct b end; eauto. }
  destruct S as [c ->]. destruct c; reflexivity.
Qed.
Lemma le_refl64 (x : b64) : is_nan x = false -> Bleb x x = true.
Proof. intros N. pose proof (lt_not_le x x N N) as H. unfold Bltb, Bleb, SpecFloat.SFltb, SpecFloat.SFleb in *. destruct (SpecFloat.SFcompare (B2SF x) (B2SF x)) as [[]|]; try reflexivity; discriminate H. Qed.
Lemma nan_lt (x y : b64) : is_nan x = true -> Bltb x y = false /\ Bltb y x = false.
Proof. destruct x; intros N; try discriminate N. split; [reflexivity|]. destruct y as [?|[]| |[] ? ? ?]; reflexivity. Qed.
