(** C100: neighbour density estimates in double precision. *)
From Coq Require Import ZArith Reals Lra Lia List Bool.
Require Import Flocq.Core.Core Flocq.IEEE754.BinarySingleNaN.
From Verif Require Import Base ProcFloat InterpFloatProofs MeshFloatModel MeshFloatProofs FredModel FredSpec FredProofs FredProofs2 NfltProofs FknnModel FknnSpec FknnProofs FknnProofs2 FknnProofs3 FknnProps FdenModel FdenSpec FdenProofs FdenProofs2 FdenProofs3 PiBound.
Import ListNotations. Local Open Scope list_scope. Local Open Scope R_scope.

(** ** The volume of a ball *)
(** np.pi is the double nearest pi (doubles between 2 and 4 are 2^-51 apart). *)
Theorem C100_pi : fin pi64 = true /\ Rabs (val pi64 - PI) < bpow radix2 (-52).
Proof. split; [reflexivity|]. pose proof PI_20 as P. rewrite pi_val. change (bpow radix2 (-52)) with (/ 4503599627370496). apply Rabs_lt. lra. Qed.
Print Assumptions C100_pi.
(** The closed forms: pi^m r^2m / m! in 2m dimensions, 2 m! (4 pi)^m r^(2m+1) / (2m+1)! in 2m+1. *)
Theorem C100_volume m r : volume (2 * m) r = PI ^ m * r ^ (2 * m) / INR (fact m) /\ volume (2 * m + 1) r = 2 * INR (fact m) * (4 * PI) ^ m * r ^ (2 * m + 1) / INR (fact (2 * m + 1)).
Proof.
  induction m as [|m [I1 I2]]; [cbn; lra|]. assert (F0 : INR (fact m) <> 0) by apply INR_fact_neq_0. assert (M0 : INR (S m) <> 0) by (apply not_0_INR; lia). split.
  - replace (2 * S m)%nat with (S (S (2 * m))) by lia. change (volume (S (S (2 * m))) r) with (2 * PI / INR (S (S (2 * m))) * r * r * volume (2 * m) r). rewrite I1. replace (S (S (2 * m))) with (2 * S m)%nat by lia. rewrite mult_INR. change (INR 2) with (1 + 1).
    replace (2 * S m)%nat with (2 * m + 2)%nat by lia. rewrite fact_simpl, mult_INR, pow_add. cbn [pow]. field. split; assumption.
  - replace (2 * S m + 1)%nat with (S (S (2 * m + 1))) by lia. change (volume (S (S (2 * m + 1))) r) with (2 * PI / INR (S (S (2 * m + 1))) * r * r * volume (2 * m + 1) r). rewrite I2.
    rewrite !(fact_simpl (S (2 * m + 1))), !(fact_simpl (2 * m + 1)), (fact_simpl m), !mult_INR. assert (A0 : INR (S (S (2 * m + 1))) <> 0) by (apply not_0_INR; lia). assert (B0 : INR (fact (2 * m + 1)) <> 0) by apply INR_fact_neq_0.
    assert (E : INR (S (2 * m + 1)) = 2 * INR (S m)) by (rewrite !S_INR, plus_INR, mult_INR; cbn [INR]; ring). rewrite E. change (r ^ S (S (2 * m + 1))) with (r * (r * r ^ (2 * m + 1))). cbn [pow]. field. repeat split; assumption.
Qed.
Print Assumptions C100_volume.
Theorem C100_ball n r : radius_fit n r -> close (3 * n) (ball64 n r) (volume n (val r)) /\ 0 < val (ball64 n r).
Proof.
  intros R. destruct (ball_close n r R) as [C _]. split; [exact C|]. destruct C as (_ & f & -> & F). apply Rmult_lt_0_compat; [|apply (fac_pos _ _ F)]. apply volume_pos. destruct R as (k & _ & _ & _ & R & _). pose proof (bpow_gt_0 radix2 (- k)). lra.
Qed.
Print Assumptions C100_ball.
Lemma mul_le x y x' y' : fin (mul64 x y) = true -> fin (mul64 x' y') = true -> 0 <= val x <= val x' -> 0 <= val y <= val y' -> Rabs (val x' * val y') <= B 1023 -> fin x = true -> fin y = true -> fin x' = true -> fin y' = true -> 0 <= val (mul64 x y) <= val (mul64 x' y').
Proof.
  intros F F' Hx Hy Bd Fx Fy Fx' Fy'. assert (L : val x * val y <= val x' * val y') by (apply Rmult_le_compat; lra). assert (P : 0 <= val x * val y) by (apply Rmult_le_pos; lra).
  destruct (mul64_b x y Fx Fy) as [_ V]; [rewrite Rabs_right by lra; eapply Rle_trans; [exact L|]; eapply Rle_trans; [apply Rle_abs|exact Bd]|]. destruct (mul64_b x' y' Fx' Fy' Bd) as [_ V']. rewrite V, V'. split; [rewrite <- rnd64_0|]; apply rnd64_le; assumption.
Qed.
(** A larger radius never gives a smaller volume. *)
Theorem C100_ball_mono n r r' : radius_fit n r -> radius_fit n r' -> val r <= val r' -> val (ball64 n r) <= val (ball64 n r').
Proof.
  intros (k & Hk & Hn & Fr & Hr) (k' & Hk' & Hn' & Fr' & Hr') Le. pose proof (bpow_gt_0 radix2 (- k)) as P. pose proof (bpow_gt_0 radix2 (- k')) as P'.
  assert (Bd : forall d x y X Y, close d (mul64 x y) (X * Y) -> True) by auto. clear Bd.
  assert (G : forall m, (m <= n)%nat -> 0 <= val (ball64 m r) <= val (ball64 m r')).
  { intros m. induction m as [m IH] using (well_founded_induction lt_wf). intros L. destruct m as [|[|m]].
    - cbn [ball64]. destruct (of_Z64_exact 1 ltac:(lia)) as [-> _]. lra.
    - destruct (of_Z64_exact 2 ltac:(lia)) as [V2 F2]. cbn [ball64]. assert (Hm : forall q (K : Z), (0 <= K)%Z -> (Z.of_nat n * (K + 3) <= 350)%Z -> fin q = true -> bpow radix2 (- K) <= val q <= bpow radix2 K -> Rabs (val (of_Z64 2) * val q) <= B 1023).
      { intros q K K0 Hq Fq [Q1 Q2]. pose proof (bpow_gt_0 radix2 (- K)). rewrite V2, Rabs_right by lra. apply Rle_trans with (bpow radix2 (1 + K)); [rewrite bpow_plus; change (bpow radix2 1) with 2; lra|apply bpow_le; nia]. }
      pose proof (Hm r k Hk Hn Fr Hr) as B1. pose proof (Hm r' k' Hk' Hn' Fr' Hr') as B2. destruct (mul64_b _ _ F2 Fr B1) as [M1 _]. destruct (mul64_b _ _ F2 Fr' B2) as [M2 _]. apply mul_le; try assumption; rewrite ?V2; lra.
    - specialize (IH m ltac:(lia) ltac:(lia)). destruct pi_facts as [Fp Vp].
      assert (Rm : forall q K, (0 <= K)%Z -> (Z.of_nat n * (K + 3) <= 350)%Z -> fin q = true -> bpow radix2 (- K) <= val q <= bpow radix2 K -> radius_fit m q) by (intros q K K0 Kn Fq Hq; exists K; repeat split; try assumption; try lia; try apply Hq; nia).
      assert (Sx : forall q K, (0 <= K)%Z -> (Z.of_nat n * (K + 3) <= 350)%Z -> fin q = true -> bpow radix2 (- K) <= val q <= bpow radix2 K ->
        let c := div64 (mul64 (of_Z64 2) pi64) (of_Z64 (Z.of_nat (S (S m)))) in fin c = true /\ 0 <= val c /\ fin (mul64 c q) = true /\ fin (mul64 (mul64 c q) q) = true /\ fin (ball64 m q) = true /\ fin (mul64 (mul64 (mul64 c q) q) (ball64 m q)) = true /\
        Rabs (val c * val q) <= B 1023 /\ Rabs (val (mul64 c q) * val q) <= B 1023 /\ Rabs (val (mul64 (mul64 c q) q) * val (ball64 m q)) <= B 1023).
      { intros q K K0 Kn Fq Hq c. assert (N3 : (Z.of_nat (S (S m)) * 3 <= 350)%Z) by nia. assert (Kk : (K <= 172)%Z) by nia. pose proof (bpow_gt_0 radix2 (- K)) as Q0.
        destruct (of_Z64_exact 2 ltac:(lia)) as [V2 F2]. assert (C2 : close 0 (of_Z64 2) 2) by (apply (close_eq 0 _ _ _ V2), close_exact, F2). assert (M1 : medium 3 (2 * val pi64)) by (right; change (bpow radix2 3) with 8; change (bpow radix2 (- (3))) with (/ 8); lra).
        pose proof (close_mul 3 0 0 _ _ _ _ C2 (close_exact _ Fp) M1 ltac:(lia) ltac:(lia)) as C3. destruct (nat_close (S (S m)) ltac:(lia)) as [Cm _]. assert (Im : 2 <= INR (S (S m)) <= 150) by (split; [apply (le_INR 2); lia|replace 150 with (INR 150) by (rewrite INR_IZR_INZ; reflexivity); apply le_INR; lia]).
        assert (M2 : medium 5 (2 * val pi64 / INR (S (S m)))). { right. change (bpow radix2 5) with 32. change (bpow radix2 (- (5))) with (/ 32). split; apply Rmult_le_reg_r with (INR (S (S m))); try lra; unfold Rdiv; rewrite ?(Rmult_assoc (2 * val pi64)), ?Rinv_l, ?Rmult_1_r by lra; lra. }
        pose proof (close_div 5 _ _ _ _ _ _ C3 Cm ltac:(lra) M2 ltac:(lia) ltac:(lia)) as C4. fold c in C4. assert (Mr : medium K (val q)) by (right; lra).
        assert (BB : forall d x X e y Y j, close d x X -> close e y Y -> medium j (X * Y) -> (j <= 1000)%Z -> (d + e <= 1000)%nat -> Rabs (val x * val y) <= B 1023).
        { intros d x X e y Y j (_ & f & Vx & Ff) (_ & g & Vy & Fg) Mj Hj Hde. pose proof (scaled j _ (d + e) (f * g) Mj ltac:(lia) (fac_mul _ _ _ _ Ff Fg)) as S. replace (X * Y * (f * g)) with (val x * val y) in S by (rewrite Vx, Vy; ring). apply (in_range _ _ S). lia. }
        pose proof (medium_mul _ _ _ _ M2 Mr) as M3. pose proof (close_mul _ _ _ _ _ _ _ C4 (close_exact _ Fq) M3 ltac:(lia) ltac:(lia)) as C5. pose proof (medium_mul _ _ _ _ M3 Mr) as M4. pose proof (close_mul _ _ _ _ _ _ _ C5 (close_exact _ Fq) M4 ltac:(lia) ltac:(lia)) as C6.
        destruct (ball_close m q (Rm q K K0 Kn Fq Hq)) as [C7 M7]. pose proof (medium_mul _ _ _ _ M4 M7) as M8. pose proof (close_mul _ _ _ _ _ _ _ C6 C7 M8 ltac:(lia) ltac:(lia)) as C8.
        split; [apply C4|]. split; [destruct C4 as (_ & f & -> & Ff); apply Rmult_le_pos; [apply (medium_pos _ _ M2)|apply Rlt_le, (fac_pos _ _ Ff)]|]. split; [apply C5|]. split; [apply C6|]. split; [apply C7|]. split; [apply C8|].
        split; [eapply BB; [exact C4|apply (close_exact q Fq)|exact M3|lia|lia]|]. split; [eapply BB; [exact C5|apply (close_exact q Fq)|exact M4|lia|lia]|eapply BB; [exact C6|exact C7|exact M8|lia|lia]]. }
      change (ball64 (S (S m)) r) with (mul64 (mul64 (mul64 (div64 (mul64 (of_Z64 2) pi64) (of_Z64 (Z.of_nat (S (S m))))) r) r) (ball64 m r)). change (ball64 (S (S m)) r') with (mul64 (mul64 (mul64 (div64 (mul64 (of_Z64 2) pi64) (of_Z64 (Z.of_nat (S (S m))))) r') r') (ball64 m r')).
      destruct (Sx r k Hk Hn Fr Hr) as (c1 & c2 & c3 & c4 & c5 & c6 & c7 & c8 & c9). destruct (Sx r' k' Hk' Hn' Fr' Hr') as (d1 & d2 & d3 & d4 & d5 & d6 & d7 & d8 & d9). clear Sx Rm.
      set (c := div64 (mul64 (of_Z64 2) pi64) (of_Z64 (Z.of_nat (S (S m))))) in *. clearbody c.
      apply mul_le; try assumption. apply mul_le; try assumption; [|lra]. apply mul_le; try assumption; lra. }
  apply (G n ltac:(lia)).
Qed.
Print Assumptions C100_ball_mono.

(** ** Fitted weights *)
Theorem C100_fit n w i : weights_fit n w -> (i < n)%nat -> length (fit64 n w) = n /\ close (np_depth n + 1) (nth i (fit64 n w) zero64) (share n w i) /\ 0 <= val (nth i (fit64 n w) zero64).
Proof.
  intros H Hi. destruct (fit_close n w i H Hi) as (L & C & M & _). split; [exact L|]. split; [exact C|]. destruct C as (_ & f & -> & F). apply Rmult_le_pos; [apply (medium_pos _ _ M)|apply Rlt_le, (fac_pos _ _ F)].
Qed.
Print Assumptions C100_fit.

(** ** Neighbours within a radius *)
Theorem C100_local n_dims n w K r nb : weights_fit n w -> within n nb -> (Z.of_nat (length nb) <= 2 ^ 53)%Z -> radius_fit n_dims r ->
  (forall k, K = Some k -> kernel_fit k nb /\ (nb = [] \/ 0 < Rsum (map (fun q => val (k (fst q))) nb))) ->
  close (np_depth n + 2 * np_depth (length nb) + 3 * n_dims + 5) (local64 n_dims (fit64 n w) K r nb) (density n_dims n w K (val r) nb).
Proof.
  intros W I L R HK. unfold local64. pose proof (n_depth n w W) as Dn. pose proof (depth_le _ L) as Dk. assert (Fa : filter (fun _ : b64 * nat => true) nb = nb) by apply filter_all. destruct K as [k|].
  - destruct (HK k eq_refl) as [Kf Ks]. clear HK. unfold kernel_fit in Kf. rewrite map_length. unfold pick.
    set (cc := div64 (of_Z64 (Z.of_nat (length nb))) (np_sum (map (fun p => k (fst p)) nb))).
    assert (E : times (map (fun p : b64 * nat => nth (snd p) (fit64 n w) zero64) nb) (if (0 <? length nb)%nat then map (fun v => mul64 v cc) (map (fun p => k (fst p)) nb) else map (fun p => k (fst p)) nb) = map (fun p => mul64 (nth (snd p) (fit64 n w) zero64) (mul64 (k (fst p)) cc)) nb).
    { destruct nb as [|p0 l0]; [reflexivity|]. change (0 <? length (p0 :: l0))%nat with true. cbn iota. rewrite map_map. apply times_map. }
    rewrite E. clear E. assert (Em : nb = [] \/ nb <> []) by (destruct nb; [left; reflexivity|right; discriminate]). destruct Em as [En|En]; [subst nb|].
    + cbn [map length]. destruct (estimate n_dims n w [] L (Some k) (fun _ => true) (fun _ => zero64) (fun _ => zero64) r 0 R ltac:(lia) ltac:(intros p []) ltac:(intros p [])) as (F & f & V & G). split; [exact F|]. exists f. split; [exact V|]. eapply fac_more; [|exact G]. cbn [length] in *. lia.
    + assert (Nn : length nb <> 0%nat) by (intros Z; apply length_zero_iff_nil in Z; contradiction).
      assert (Bo : forall p, In p nb -> exists X, close (np_depth n + np_depth (length nb) + 4) (mul64 (nth (snd p) (fit64 n w) zero64) (mul64 (k (fst p)) cc)) X /\ medium 559 X /\ (nb <> [] -> X = share n w (snd p) * boost (Some k) nb p)).
      { intros p Hp. destruct (pick_close n w nb W I p Hp) as [Cw Mw]. rewrite Forall_forall in Kf.
        destruct (sum_close (fun p => k (fst p)) (fun p => val (k (fst p))) 0 100 nb ltac:(lia) L ltac:(lia)) as [Cs Ms]; [intros q Hq; destruct (Kf q Hq) as [Fq Mq]; split; [apply close_exact, Fq|exact Mq]|]. change (100 + 53)%Z with 153%Z in Ms. cbn [Nat.add] in Cs. destruct (Kf p Hp) as [Fp Mp].
        assert (Sp : 0 < Rsum (map (fun q => val (k (fst q))) nb)) by (destruct Ks as [Ks|Ks]; [contradiction|exact Ks]). set (SK := Rsum (map (fun q : b64 * nat => val (k (fst q))) nb)) in *.
        destruct (nat_close (length nb) L) as [Cn Mn]. specialize (Mn Nn). pose proof (medium_div _ _ _ _ Mn Ms ltac:(lra)) as M1. pose proof (close_div _ _ _ _ _ _ _ Cn Cs ltac:(lra) M1 ltac:(lia) ltac:(lia)) as C1. fold cc in C1. pose proof (medium_mul _ _ _ _ Mp M1) as M2. pose proof (close_mul _ _ _ _ _ _ _ (close_exact _ Fp) C1 M2 ltac:(lia) ltac:(lia)) as C2.
        pose proof (medium_mul _ _ _ _ Mw M2) as M3. pose proof (close_mul _ _ _ _ _ _ _ Cw C2 M3 ltac:(lia) ltac:(lia)) as C3.
        exists (share n w (snd p) * boost (Some k) nb p). cbn [boost]. fold SK. split; [eapply close_more; [|exact C3]; lia|]. split; [eapply medium_more; [|exact M3]; lia|reflexivity]. }
      pose proof (estimate n_dims n w nb L (Some k) (fun _ => true) (fun p => mul64 (nth (snd p) (fit64 n w) zero64) (mul64 (k (fst p)) cc)) (fun p => mul64 (nth (snd p) (fit64 n w) zero64) (mul64 (k (fst p)) cc)) r (np_depth n + np_depth (length nb) + 4) R) as Es. rewrite Fa in Es. eapply close_more; [|apply Es; [lia|exact Bo|intros p _; right; split; reflexivity]]. lia.
  - unfold pick. pose proof (estimate n_dims n w nb L None (fun _ => true) (fun p => nth (snd p) (fit64 n w) zero64) (fun p => nth (snd p) (fit64 n w) zero64) r (np_depth n + 1) R ltac:(lia)) as Es. rewrite Fa in Es. eapply close_more; [|apply Es; [|intros p _; right; split; reflexivity]]; [lia|].
    intros p Hp. destruct (pick_close n w nb W I p Hp) as [Cw Mw]. exists (share n w (snd p)). split; [exact Cw|]. split; [eapply medium_more; [|exact Mw]; lia|]. intros _. cbn [boost]. ring.
Qed.
Print Assumptions C100_local.

(** ** The nearest neighbours *)
Lemma largest_fold l : forall a, Forall (fun x : b64 => fin x = true) l -> fin a = true -> let m := fold_left (fun m x => if Bltb m x then x else m) l a in (m = a \/ In m l) /\ fin m = true /\ val a <= val m /\ forall x, In x l -> val x <= val m.
Proof.
  induction l as [|x l IH]; intros a Hl Fa; cbn [fold_left]; [cbn zeta; repeat split; [left; reflexivity|exact Fa|lra|intros x []]|]. inversion Hl as [|? ? Fx Fl]; subst.
  assert (C : Bltb a x = Rlt_bool (val a) (val x)) by (apply Bltb_correct; assumption).
  destruct (Bltb a x); [destruct (IH x Fl Fx) as (M & F & G & O)|destruct (IH a Fl Fa) as (M & F & G & O)]; symmetry in C.
  - assert (val a < val x) by (revert C; case Rlt_bool_spec; [auto|discriminate]). cbn zeta. split; [right; destruct M as [M|M]; [left; symmetry; exact M|right; exact M]|]. split; [exact F|]. split; [lra|]. intros y [<-|Hy]; [exact G|apply O, Hy].
  - assert (val x <= val a) by (revert C; case Rlt_bool_spec; [discriminate|auto]). cbn zeta. split; [destruct M as [M|M]; [left; exact M|right; right; exact M]|]. split; [exact F|]. split; [exact G|]. intros y [<-|Hy]; [lra|apply O, Hy].
Qed.
(** The radius is the largest distance, or the given one if that is smaller; the count is the number of neighbours closer than the given one. *)
Theorem C100_radius n_dims wt K max_dx nb : nb <> [] -> Forall (fun p => fin (fst p) = true) nb -> (forall m, max_dx = Some m -> fin m = true) ->
  snd (fst (knn64 n_dims wt K max_dx nb)) = length (near max_dx nb) /\
  exists p, In p nb /\ (forall q, In q nb -> val (fst q) <= val (fst p)) /\ val (snd (knn64 n_dims wt K max_dx nb)) = match max_dx with None => val (fst p) | Some m => Rmin (val (fst p)) (val m) end.
Proof.
  intros N F M. split.
  - cbn [knn64 fst snd]. rewrite near_filter. destruct max_dx as [m|]; [apply (count_by (is_near (Some m)) nb)|apply (count_by (is_near None) nb)].
  - destruct nb as [|p0 nb]; [congruence|]. inversion F as [|? ? F0 F1]; subst. assert (Fm : Forall (fun x : b64 => fin x = true) (map fst nb)) by (apply Forall_map; exact F1). destruct (largest_fold (map fst nb) (fst p0) Fm F0) as (In0 & Fl & Ge & Up). unfold knn64. cbn [snd map largest].
    set (m := fold_left _ _ _) in *. assert (E : exists p, In p (p0 :: nb) /\ fst p = m) by (destruct In0 as [->|I]; [exists p0; split; [left; reflexivity|reflexivity]|apply in_map_iff in I; destruct I as (p & E & I); exists p; split; [right; exact I|exact E]]).
    destruct E as (p & Ip & Ep). exists p. split; [exact Ip|]. rewrite Ep. split; [intros q [<-|Hq]; [exact Ge|apply Up, in_map, Hq]|]. destruct max_dx as [d|]; [|reflexivity]. assert (C : Bltb d m = Rlt_bool (val d) (val m)) by (apply Bltb_correct; [apply M; reflexivity|exact Fl]). rewrite C. case Rlt_bool_spec; intros Q; [rewrite Rmin_right by lra|rewrite Rmin_left by lra]; reflexivity.
Qed.
Print Assumptions C100_radius.
Theorem C100_knn n_dims n w K max_dx nb : weights_fit n w -> within n nb -> (Z.of_nat (length nb) <= 2 ^ 53)%Z -> radius_fit n_dims (snd (knn64 n_dims (fit64 n w) K max_dx nb)) ->
  (forall k, K = Some k -> kernel_fit k nb /\ (near max_dx nb = [] \/ 0 < Rsum (map (fun q => val (k (fst q))) (near max_dx nb)))) ->
  close (np_depth n + 2 * np_depth (length nb) + 3 * n_dims + 5) (fst (fst (knn64 n_dims (fit64 n w) K max_dx nb))) (density n_dims n w K (val (snd (knn64 n_dims (fit64 n w) K max_dx nb))) (near max_dx nb)).
Proof.
  intros W I L R HK. pose proof (n_depth n w W) as Dn. pose proof (depth_le _ L) as Dk. rewrite near_filter in HK |- *. unfold knn64 in R |- *. cbn [fst snd] in R |- *. set (r := match max_dx with None => _ | Some m => _ end) in *. clearbody r. set (c := is_near max_dx) in *.
  assert (Em : match max_dx with None => map (fun _ : b64 * nat => true) nb | Some m => map (fun p => Bltb (fst p) m) nb end = map c nb) by (destruct max_dx; reflexivity). rewrite Em. clear Em. rewrite (count_by c nb), map_map.
  set (f := fun p : b64 * nat => match K with None => nth (snd p) (fit64 n w) zero64 | Some k => mul64 (nth (snd p) (fit64 n w) zero64) (mul64 (k (fst p)) (div64 (of_Z64 (Z.of_nat (length (filter c nb)))) (if length (filter c nb) =? 0 then floor64 else np_sum (map (fun p => mul64 (k (fst p)) (of_bool64 (c p))) nb)))) end).
  assert (Ef : match K with
     | Some k => times (pick (fit64 n w) nb) (map (fun v => mul64 v (div64 (of_Z64 (Z.of_nat (length (filter c nb)))) (if length (filter c nb) =? 0 then floor64 else np_sum (times (map (fun p => k (fst p)) nb) (map (fun x => of_bool64 (c x)) nb))))) (map (fun p => k (fst p)) nb))
     | None => pick (fit64 n w) nb end = map f nb).
  { unfold f, pick. destruct K as [k|]; [|reflexivity]. rewrite map_map, !times_map. reflexivity. }
  match goal with |- context [times (match K with Some _ => _ | None => _ end) _] => idtac end.
  rewrite Ef, times_map. clear Ef.
  assert (Bo : forall p, In p nb -> exists X, close (np_depth n + np_depth (length nb) + 4) (f p) X /\ medium 559 X /\ (filter c nb <> [] -> X = share n w (snd p) * boost K (filter c nb) p)).
  { apply (boosted n w nb W I L K c f); [|intros -> p; reflexivity]. intros k EK. destruct (HK k EK) as [K1 K2]. split; [exact K1|]. split; [exact K2|]. intros p. unfold f. rewrite EK. reflexivity. }
  eapply close_more; [|apply (estimate n_dims n w nb L K c f (fun p => mul64 (f p) (of_bool64 (c p))) r (np_depth n + np_depth (length nb) + 4) R); [lia|exact Bo|intros p _; left; reflexivity]]. lia.
Qed.
Print Assumptions C100_knn.

(** ** Where no density comes out *)
Lemma sums_nan d l s : sums d l s -> Exists (fun x => x = B754_nan) l -> s = B754_nan.
Proof.
  induction 1 as [z F V|x|d l s l' s' _ IH _ IH'|d l l' s _ IH P|d d' l s _ IH _]; intros H.
  - inversion H.
  - inversion H as [? ? E|? ? E]; subst; [reflexivity|inversion E].
  - apply Exists_app in H. destruct H as [H|H]; [rewrite (IH H)|rewrite (IH' H)]; [reflexivity|]. destruct s as [[]|[]| |]; reflexivity.
  - apply IH. rewrite Exists_exists in *. destruct H as (x & Hx & E). exists x. split; [|exact E]. eapply Permutation.Permutation_in; [apply Permutation.Permutation_sym; exact P|exact Hx].
  - apply IH, H.
Qed.
Lemma is_zero (v : b64) : fin v = true -> val v = 0 -> exists s, v = B754_zero s.
Proof. destruct v as [s|s| |s m e h]; intros F V; try discriminate; [exists s; reflexivity|]. exfalso. apply (F2R_neq_0 radix2 (Float radix2 (cond_Zopp s (Zpos m)) e)); [destruct s; discriminate|exact V]. Qed.
Lemma zero_boost (x y z : b64) n : (1 <= n)%nat -> (Z.of_nat n <= 2 ^ 53)%Z -> fin y = true -> val y = 0 -> fin z = true -> val z = 0 -> mul64 x (mul64 y (div64 (of_Z64 (Z.of_nat n)) z)) = B754_nan.
Proof.
  intros N1 N2 Fy Vy Fz Vz. destruct (is_zero y Fy Vy) as [s ->]. destruct (is_zero z Fz Vz) as [s' ->]. destruct (of_Z64_exact (Z.of_nat n) ltac:(lia)) as [V F]. set (a := of_Z64 (Z.of_nat n)) in *. clearbody a. assert (NZ : val a <> 0) by (rewrite V; apply not_0_IZR; lia).
  destruct a as [sa|sa| |sa ma ea ha]; try discriminate F; [exfalso; apply NZ; reflexivity|]. cbn [div64 Bdiv mul64 Bmult]. destruct x as [[]|[]| |]; reflexivity.
Qed.
Lemma nan_times_bool b : mul64 B754_nan (of_bool64 b) = B754_nan.
Proof. reflexivity. Qed.
(** All neighbours where the kernel is zero, as beyond 39 widths of the Gaussian: not a number. *)
Theorem C100_far_refuted n_dims wt k r nb : nb <> [] -> (Z.of_nat (length nb) <= 2 ^ 53)%Z -> Forall (fun p => nonneg (k (fst p)) /\ val (k (fst p)) = 0) nb ->
  local64 n_dims wt (Some k) r nb = B754_nan /\ (near (Some r) nb <> [] -> fst (fst (knn64 n_dims wt (Some k) (Some r) nb)) = B754_nan) /\ fst (fst (knn64 n_dims wt (Some k) None nb)) = B754_nan.
Proof.
  intros N L Z. assert (N1 : (1 <= length nb)%nat) by (destruct nb; [congruence|cbn; lia]).
  assert (Kn : forall m, near m nb <> [] -> fst (fst (knn64 n_dims wt (Some k) m nb)) = B754_nan).
  { intros m. rewrite near_filter. intros Ne. unfold knn64. cbn [fst]. set (c := is_near m) in *. assert (Em : match m with None => map (fun _ : b64 * nat => true) nb | Some m => map (fun p => Bltb (fst p) m) nb end = map c nb) by (destruct m; reflexivity). rewrite Em. clear Em. rewrite (count_by c nb), (map_map c of_bool64).
    assert (Lf : (length (filter c nb) <= length nb)%nat) by apply filter_le. assert (L1 : (1 <= length (filter c nb))%nat) by (destruct (filter c nb); [congruence|cbn; lia]). destruct (Nat.eqb_spec (length (filter c nb)) 0) as [E|_]; [lia|].
    set (S := np_sum (times (map (fun p => k (fst p)) nb) _)). assert (Sz : fin S = true /\ val S = 0).
    { unfold S. rewrite times_map. eapply (sums_zero _ _ _ (np_sum_adds _)). apply Forall_map. eapply Forall_impl; [|exact Z]. intros p [[F P] V]. destruct (times_bool (k (fst p)) (c p) (conj F P)) as [[F' _] V']. split; [exact F'|]. rewrite V'. destruct (c p); [exact V|reflexivity]. }
    clearbody S. unfold pick. rewrite !map_map, !times_map. match goal with |- div64 (np_sum ?l) _ = _ => assert (Q : np_sum l = B754_nan); [|rewrite Q; reflexivity] end.
    eapply (sums_nan _ _ _ (np_sum_adds _)). destruct nb as [|p l] eqn:En; [congruence|]. rewrite <- En in *. apply Exists_exists. rewrite Forall_forall in Z. assert (Hp : In p nb) by (rewrite En; left; reflexivity). destruct (Z p Hp) as [[Fp _] Vp]. eexists. split; [apply in_map; exact Hp|]. cbn beta.
    rewrite (zero_boost _ (k (fst p)) S (length (filter c nb)) L1 ltac:(lia) Fp Vp (proj1 Sz) (proj2 Sz)). reflexivity. }
  split; [|split; [intros Ne; apply Kn, Ne|apply Kn; exact N]].
  unfold local64. rewrite map_length. destruct (Nat.ltb_spec 0 (length nb)) as [_|B0]; [|lia]. set (S := np_sum (map (fun p => k (fst p)) nb)). assert (Sz : fin S = true /\ val S = 0).
  { unfold S. eapply (sums_zero _ _ _ (np_sum_adds _)). apply Forall_map. eapply Forall_impl; [|exact Z]. intros p [[F _] V]. auto. }
  clearbody S. unfold pick. rewrite map_map, times_map. match goal with |- div64 (np_sum ?l) _ = _ => assert (Q : np_sum l = B754_nan); [|rewrite Q; reflexivity] end.
  eapply (sums_nan _ _ _ (np_sum_adds _)). destruct nb as [|p l] eqn:En; [congruence|]. rewrite <- En in *. apply Exists_exists. rewrite Forall_forall in Z. assert (Hp : In p nb) by (rewrite En; left; reflexivity). destruct (Z p Hp) as [[Fp _] Vp]. eexists. split; [apply in_map; exact Hp|]. cbn beta.
  apply (zero_boost _ (k (fst p)) S (length nb) N1 L Fp Vp (proj1 Sz) (proj2 Sz)).
Qed.
Print Assumptions C100_far_refuted.
Lemma pos_zero (x : b64) : fin x = true -> 0 < val x -> mul64 x zero64 = zero64 /\ div64 x zero64 = B754_infinity false.
Proof.
  intros F P. replace zero64 with (B754_zero false : b64) by (apply B2SF_inj; vm_compute; reflexivity). destruct x as [s|s| |[] m e h]; try discriminate F; try (cbn in P; lra); [exfalso|split; reflexivity].
  assert (val (B754_finite true m e h : b64) < 0) by (apply F2R_lt_0; reflexivity). lra.
Qed.
(** All neighbours at distance zero: an infinite density. *)
Theorem C100_coincident_refuted n_dims n w nb : (1 <= n_dims <= 100)%nat -> weights_fit n w -> within n nb -> (1 <= Z.of_nat (length nb) <= 2 ^ 53)%Z -> Forall (fun p => fst p = zero64) nb -> 0 < Rsum (map (fun p => share n w (snd p)) nb) ->
  knn64 n_dims (fit64 n w) None None nb = (B754_infinity false, length nb, zero64).
Proof.
  intros Hd W I [L1 L] Z Sp. unfold knn64. assert (E0 : largest (map fst nb) = zero64).
  { assert (Q : forall l, Forall (fun p : b64 * nat => fst p = zero64) l -> fold_left (fun m x => if Bltb m x then x else m) (map fst l) zero64 = zero64). { induction 1 as [|p l Hp _ IH]; [reflexivity|]. cbn [map fold_left]. rewrite Hp. replace (Bltb zero64 zero64) with false by (vm_compute; reflexivity). exact IH. }
    destruct nb as [|p nb]; [reflexivity|]. inversion Z as [|? ? Z1 Z2]; subst. cbn [map largest]. rewrite Z1. apply Q, Z2. }
  rewrite E0. rewrite (count_by (fun _ : b64 * nat => true) nb), filter_all. f_equal. f_equal.
  assert (Eb : forall m, (1 <= m <= 100)%nat -> ball64 m zero64 = zero64).
  { intros m. induction m as [m IH] using (well_founded_induction lt_wf). intros Hm. destruct (of_Z64_exact 2 ltac:(lia)) as [V2 F2]. destruct m as [|[|m]]; [lia|cbn [ball64]; apply pos_zero; [exact F2|rewrite V2; lra]|].
    change (ball64 (S (S m)) zero64) with (mul64 (mul64 (mul64 (div64 (mul64 (of_Z64 2) pi64) (of_Z64 (Z.of_nat (S (S m))))) zero64) zero64) (ball64 m zero64)). destruct (ball_step (S (S m)) 0 (of_Z64 1) ltac:(lia) ltac:(lia)) as (C & _ & P); [apply of_Z64_exact; lia|destruct (of_Z64_exact 1 ltac:(lia)) as [-> _]; cbn; lra|].
    set (c := div64 (mul64 (of_Z64 2) pi64) (of_Z64 (Z.of_nat (S (S m))))) in *.
    assert (Cc : fin c = true /\ 0 < val c).
    { destruct pi_facts as [Fp Vp]. assert (C2 : close 0 (of_Z64 2) 2) by (apply (close_eq 0 _ _ _ V2), close_exact, F2). assert (M1 : medium 3 (2 * val pi64)) by (right; change (bpow radix2 3) with 8; change (bpow radix2 (- (3))) with (/ 8); lra). pose proof (close_mul 3 0 0 _ _ _ _ C2 (close_exact _ Fp) M1 ltac:(lia) ltac:(lia)) as C3. destruct (nat_close (S (S m)) ltac:(lia)) as [Cm _].
      assert (Im : 2 <= INR (S (S m)) <= 150) by (split; [apply (le_INR 2); lia|replace 150 with (INR 150) by (rewrite INR_IZR_INZ; reflexivity); apply le_INR; lia]). assert (M2 : medium 5 (2 * val pi64 / INR (S (S m)))). { right. change (bpow radix2 5) with 32. change (bpow radix2 (- (5))) with (/ 32). split; apply Rmult_le_reg_r with (INR (S (S m))); try lra; unfold Rdiv; rewrite ?(Rmult_assoc (2 * val pi64)), ?Rinv_l, ?Rmult_1_r by lra; lra. }
      pose proof (close_div 5 _ _ _ _ _ _ C3 Cm ltac:(lra) M2 ltac:(lia) ltac:(lia)) as C4. fold c in C4. split; [apply C4|]. destruct C4 as (_ & f & -> & Ff). apply Rmult_lt_0_compat; [|apply (fac_pos _ _ Ff)]. destruct M2 as [M2|[M2 _]]; [exfalso|pose proof (bpow_gt_0 radix2 (- (5))); lra].
      assert (0 < 2 * val pi64 / INR (S (S m))) by (apply Rmult_lt_0_compat; [lra|apply Rinv_0_lt_compat; lra]). lra. }
    clearbody c. destruct (pos_zero c (proj1 Cc) (proj2 Cc)) as [-> _]. assert (Z0 : mul64 zero64 zero64 = zero64) by (apply B2SF_inj; vm_compute; reflexivity). rewrite Z0. destruct m as [|m]; [cbn [ball64]; apply B2SF_inj; vm_compute; reflexivity|rewrite IH by lia; exact Z0]. }
  rewrite Eb by lia. unfold pick. rewrite map_map, times_map.
  destruct (sum_close (fun p => mul64 (nth (snd p) (fit64 n w) zero64) (of_bool64 true)) (fun p => share n w (snd p)) (np_depth n + 1) 253 nb ltac:(lia) L) as [C _].
  { pose proof (n_depth n w W). lia. }
  { intros p Hp. destruct (pick_close n w nb W I p Hp) as [Cw Mw]. split; [apply (close_bool _ _ _ true Cw (medium_pos _ _ Mw))|exact Mw]. }
  destruct C as (F & f & V & Ff). apply pos_zero; [exact F|]. rewrite V. apply Rmult_lt_0_compat; [exact Sp|apply (fac_pos _ _ Ff)].
Qed.
Print Assumptions C100_coincident_refuted.
Theorem C100_gauss_refuted E sigma n_dims wt r nb : exp_like E -> fin sigma = true -> bpow radix2 (-250) <= val sigma <= bpow radix2 250 -> nb <> [] -> (Z.of_nat (length nb) <= 2 ^ 53)%Z ->
  Forall (fun p => fin (fst p) = true /\ 40 * val sigma <= val (fst p) <= bpow radix2 250) nb ->
  local64 n_dims wt (Some (k_gauss E sigma)) r nb = B754_nan /\ fst (fst (knn64 n_dims wt (Some (k_gauss E sigma)) None nb)) = B754_nan.
Proof.
  intros HE Fs Hs N L H. pose proof (bpow_gt_0 radix2 (-250)) as P. destruct (C100_far_refuted n_dims wt (k_gauss E sigma) r nb N L) as (A & _ & C); [|split; assumption].
  rewrite Forall_forall in *. intros p Hp. destruct (H p Hp) as [Fd Hd]. destruct (gauss_spec E sigma (fst p) HE Fs Fd Hs ltac:(lra)) as (F & R & _ & _ & Z). split; [split; [exact F|apply R]|apply Z; lra].
Qed.
Print Assumptions C100_gauss_refuted.

(** ** The hypotheses are met *)
Example C100_case : weights_fit 3 (Some three) /\ within 3 found /\ kernel_fit (k_tophat (of_Z64 5)) found /\ radius_fit 3 (of_Z64 7) /\ radius_fit 3 (of_Z64 6) /\
  0 < Rsum (map (fun q => val (k_tophat (of_Z64 5) (fst q))) found) /\ 0 < Rsum (map (fun q => val (k_tophat (of_Z64 5) (fst q))) (near (Some (of_Z64 6)) found)) /\
  snd (knn64 3 (fit64 3 (Some three)) (Some (k_tophat (of_Z64 5))) (Some (of_Z64 6)) found) = of_Z64 6 /\
  Bltb (of_Z64 0) (fst (fst (knn64 3 (fit64 3 (Some three)) (Some (k_tophat (of_Z64 5))) (Some (of_Z64 6)) found))) = true.
Proof.
  destruct three_ok as [A C]. destruct tophat_found as [HK HU]. specialize (HK _ eq_refl).
  assert (Kv : forall d, val (k_tophat (of_Z64 5) d) = 0 \/ val (k_tophat (of_Z64 5) d) = 1) by (intros d; unfold k_tophat; destruct (of_bool_val (Bltb d (of_Z64 5))) as [_ ->]; destruct (Bltb d (of_Z64 5)); auto).
  assert (K0 : val (k_tophat (of_Z64 5) (of_Z64 0)) = 1). { unfold k_tophat. replace (Bltb (of_Z64 0) (of_Z64 5)) with true by (vm_compute; reflexivity). apply (of_bool_val true). }
  assert (Kp : forall d, 0 <= val (k_tophat (of_Z64 5) d)) by (intros d; destruct (Kv d) as [->| ->]; lra).
  split; [|split; [unfold within, found; repeat (apply Forall_cons; [cbn; lia|]); apply Forall_nil|]].
  - split; [lia|]. split; [cbn; lia|]. intros w' Q. injection Q as <-. split; [reflexivity|]. destruct (of_Z64_exact 1 ltac:(lia)) as [V1 F1]. destruct (of_Z64_exact 2 ltac:(lia)) as [V2 F2]. destruct (of_Z64_exact 5 ltac:(lia)) as [V5 F5].
    assert (Mz : forall x, 1 <= x <= 8 -> medium 100 x) by (intros x Hx; right; split; [apply Rle_trans with 1; [apply (bpow_le radix2 (- (100)) 0); lia|lra]|apply Rle_trans with (bpow radix2 3); [cbn; lra|apply bpow_le; lia]]).
    split; [|apply Exists_cons_hd; rewrite V1; lra]. repeat (apply Forall_cons; [split; [assumption|apply Mz; rewrite ?V1, ?V2, ?V5; lra]|]). apply Forall_nil.
  - split. { unfold kernel_fit. eapply Forall_impl; [|exact HK]. intros p [F _]. split; [exact F|]. destruct (Kv (fst p)) as [->| ->]; [left; reflexivity|]. right. split; [apply (bpow_le radix2 (- (100)) 0); lia|apply (bpow_le radix2 0 100); lia]. }
    assert (R : forall z, (1 <= z <= 8)%Z -> radius_fit 3 (of_Z64 z)). { intros z Hz. destruct (of_Z64_exact z ltac:(lia)) as [V F]. exists 3%Z. rewrite V. repeat split; [lia|lia|exact F|apply Rle_trans with 1; [apply (bpow_le radix2 (- (3)) 0); lia|apply IZR_le; lia]|change (bpow radix2 3) with 8; apply IZR_le; lia]. }
    split; [apply R; lia|]. split; [apply R; lia|]. rewrite near_found. unfold found, Rsum. cbn [map fst fold_right]. rewrite K0. pose proof (Kp (of_Z64 1)). pose proof (Kp (of_Z64 7)). split; [lra|]. split; [lra|].
    split; [apply B2SF_inj; vm_compute; reflexivity|vm_compute; reflexivity].
Qed.
Example C100_zero_case : Forall (fun p : b64 * nat => fst p = zero64) [(zero64, 1%nat); (zero64, 2%nat)] /\ 0 < Rsum (map (fun p => share 3 None (snd p)) [(zero64, 1%nat); (zero64, 2%nat)]) /\ weights_fit 3 None /\ within 3 [(zero64, 1%nat); (zero64, 2%nat)].
Proof.
  split; [repeat constructor|]. split; [|split; [split; [lia|split; [cbn; lia|intros ? Q; discriminate Q]]|repeat (apply Forall_cons; [cbn; lia|]); apply Forall_nil]].
  unfold share, all_weight. rewrite ones. unfold Rsum. cbn [map fold_right snd weight_at INR]. lra.
Qed.
