(** Memory safety of the compiled kernels of RawModel.v: the proofs. *)
From Coq Require Import ZArith Lia.
From Verif Require Import Base RawModel RawSpec.
Local Open Scope list_scope. Local Open Scope nat_scope.

Lemma ok_fine {A} (a : A) (P : A -> Prop) : P a -> ok (Fine a) P.
Proof. intro H. exists a. auto. Qed.
Lemma ok_and {A B} (r : run A) (f : A -> run B) (P : A -> Prop) (Q : B -> Prop) : ok r P -> (forall a, P a -> ok (f a) Q) -> ok (andthen r f) Q.
Proof. intros (a & -> & Ha) H. cbn. auto. Qed.
Lemma ok_weak {A} (r : run A) (P Q : A -> Prop) : ok r P -> (forall a, P a -> Q a) -> ok r Q.
Proof. intros (a & -> & Ha) H. exists a. auto. Qed.
Lemma ok_for {I S} (body : I -> S -> run S) (Inv : list I -> S -> Prop) : forall (l done : list I) (s : S),
  Inv done s -> (forall d i t s, done ++ l = d ++ i :: t -> Inv d s -> ok (body i s) (Inv (d ++ [i]))) -> ok (for_ l body s) (Inv (done ++ l)).
Proof.
  induction l as [|i l IH]; intros done s H0 Hs.
  - cbn. apply ok_fine. now rewrite app_nil_r.
  - cbn. apply ok_and with (P := Inv (done ++ [i])); [now apply Hs with (t := l)|].
    intros s' H'. replace (done ++ i :: l) with ((done ++ [i]) ++ l) in * by now rewrite <- app_assoc.
    apply IH; assumption.
Qed.
Lemma ok_for0 {I S} (body : I -> S -> run S) (Inv : list I -> S -> Prop) (l : list I) (s : S) :
  Inv [] s -> (forall d i t s, l = d ++ i :: t -> Inv d s -> ok (body i s) (Inv (d ++ [i]))) -> ok (for_ l body s) (Inv l).
Proof. exact (ok_for body Inv l [] s). Qed.
(** An invariant that does not depend on the progress. *)
Lemma ok_for_in {I S} (body : I -> S -> run S) (P : S -> Prop) (l : list I) (s : S) :
  P s -> (forall i s, In i l -> P s -> ok (body i s) P) -> ok (for_ l body s) P.
Proof.
  revert s. induction l as [|i l IH]; intros s H0 Hs; cbn.
  - now apply ok_fine.
  - apply ok_and with (P := P); [apply Hs; cbn; auto|]. intros s' H'. apply IH; [assumption|]. intros; apply Hs; cbn; auto.
Qed.
Lemma range_split n d i t : range_ n = d ++ i :: t -> i = Z.of_nat (length d) /\ length d < n /\ d = range_ (length d).
Proof.
  unfold range_. intro H.
  assert (Hl : length (map Z.of_nat (seq 0 n)) = length (d ++ i :: t)) by now rewrite H.
  rewrite map_length, seq_length, app_length in Hl. cbn [length] in Hl.
  assert (Hlt : length d < n) by lia.
  assert (Hi : nth_error (map Z.of_nat (seq 0 n)) (length d) = Some i) by (rewrite H, nth_error_app2, Nat.sub_diag by lia; reflexivity).
  split.
  - rewrite (map_nth_error Z.of_nat _ _ (d := length d)) in Hi; [congruence|].
    rewrite (nth_error_nth' _ 0) by (rewrite seq_length; lia). now rewrite seq_nth by lia.
  - split; [assumption|].
    assert (Hf : firstn (length d) (d ++ i :: t) = d) by (rewrite firstn_app, Nat.sub_diag, firstn_all; cbn; now rewrite app_nil_r).
    rewrite <- Hf at 1. rewrite <- H, <- firstn_map || rewrite <- H, firstn_map. f_equal.
    replace n with (length d + (n - length d)) by lia. rewrite seq_app, firstn_app, seq_length, Nat.sub_diag. cbn. rewrite app_nil_r.
    rewrite <- (seq_length (length d) 0) at 1. apply firstn_all.
Qed.
Lemma range_in n i : In i (range_ n) <-> (0 <= i < Z.of_nat n)%Z.
Proof.
  unfold range_. rewrite in_map_iff. split.
  - intros (k & <- & H). apply in_seq in H. lia.
  - intro H. exists (Z.to_nat i). split; [lia|]. apply in_seq. lia.
Qed.
Lemma range_len n : length (range_ n) = n.
Proof. unfold range_. now rewrite map_length, seq_length. Qed.

Lemma resolve_in n i : (0 <= i < Z.of_nat n)%Z -> resolve n i = Some (Z.to_nat i).
Proof. intro H. unfold resolve. destruct (Z.leb_spec 0 i), (Z.ltb_spec i (Z.of_nat n)); cbn; try reflexivity; lia. Qed.
Lemma resolve_some n i k : resolve n i = Some k -> k < n.
Proof.
  unfold resolve. destruct (Z.leb_spec 0 i), (Z.ltb_spec i (Z.of_nat n)); cbn; try (intro H1; injection H1 as <-; lia);
  destruct (Z.leb_spec (- Z.of_nat n) i); cbn; try discriminate; destruct (Z.ltb_spec i 0); cbn; try discriminate; intro H3; injection H3 as <-; lia.
Qed.
Lemma rd_in {T} (a : list T) i : (0 <= i < Z.of_nat (length a))%Z -> ok (rd a i) (fun v => nth_error a (Z.to_nat i) = Some v).
Proof.
  intro H. unfold rd. rewrite resolve_in by assumption. destruct (nth_error a (Z.to_nat i)) eqn:E; [now apply ok_fine|].
  apply nth_error_None in E. lia.
Qed.
Lemma rd_neg1 {T} (a : list T) : a <> [] -> ok (rd a (-1)) (fun v => nth_error a (length a - 1) = Some v).
Proof.
  intro H. destruct a as [|x a]; [congruence|]. unfold rd, resolve. cbn [length].
  destruct (Z.leb_spec 0 (-1)); [lia|]. cbn [andb].
  destruct (Z.leb_spec (- Z.of_nat (S (length a))) (-1)); [|lia]. cbn [andb Z.ltb Z.compare].
  replace (Z.to_nat (-1 + Z.of_nat (S (length a)))) with (S (length a) - 1) by lia.
  destruct (nth_error (x :: a) (S (length a) - 1)) eqn:E; [now apply ok_fine|]. apply nth_error_None in E. cbn in E. lia.
Qed.
Lemma wr_in {T} (a : list T) i v : (0 <= i < Z.of_nat (length a))%Z -> wr a i v = Fine (upd_nth a (Z.to_nat i) v).
Proof. intro H. unfold wr. now rewrite resolve_in. Qed.
Lemma rd_out {T} (a : list T) i : (Z.of_nat (length a) <= i)%Z -> rd a i = OutOfBounds.
Proof.
  intro H. unfold rd, resolve. destruct (Z.leb_spec 0 i), (Z.ltb_spec i (Z.of_nat (length a))); cbn; try lia;
  destruct (Z.leb_spec (- Z.of_nat (length a)) i), (Z.ltb_spec i 0); cbn; try reflexivity; lia.
Qed.

Lemma all_some {A} (out : list (option A)) : (forall i, i < length out -> exists v, nth_error out i = Some (Some v)) -> exists l, out = map Some l.
Proof.
  induction out as [|o out IH]; intro H; [now exists []|].
  destruct (H 0 ltac:(cbn; lia)) as (v & Hv). cbn in Hv. injection Hv as ->.
  destruct IH as (l & ->); [|now exists (v :: l)]. intros i Hi. apply (H (S i)). cbn. lia.
Qed.
(** Filling an np.empty array position by position: [f] computes element [i]. *)
Lemma fill {A} (n : nat) (body : Z -> list (option A) -> run (list (option A))) (P : nat -> A -> Prop) :
  (forall i out, i < n -> length out = n -> ok (body (Z.of_nat i) out) (fun out' => exists v, P i v /\ out' = upd_nth out i (Some v))) ->
  ok (for_ (range_ n) body (repeat None n)) (fun out => exists l, out = map Some l /\ length l = n /\ forall i v, nth_error l i = Some v -> P i v).
Proof.
  intro H.
  apply ok_weak with (P := fun out => length out = n /\ (forall i, i < length (range_ n) -> exists v, nth_error out i = Some (Some v) /\ P i v)).
  - apply (ok_for0 body (fun d out => length out = n /\ (forall i, i < length d -> exists v, nth_error out i = Some (Some v) /\ P i v))).
    + split; [apply repeat_length|]. cbn. intros; lia.
    + intros d i t s Hr (Hl & Hd). apply range_split in Hr. destruct Hr as (-> & Hlt & _).
      eapply ok_weak; [apply H; assumption|]. intros out' (v & Hv & ->). split; [now rewrite upd_nth_length|].
      intros i Hi. rewrite app_length in Hi. cbn in Hi. destruct (Nat.eq_dec (length d) i) as [<-|Hne].
      * exists v. split; [|assumption]. apply upd_nth_same. lia.
      * rewrite upd_nth_other by assumption. apply Hd. lia.
  - intros out (Hl & Hd). rewrite range_len in Hd.
    assert (E : exists l, out = map Some l).
    { apply all_some. intros i Hi. rewrite Hl in Hi. destruct (Hd i Hi) as (v & Hv & _). now exists v. }
    destruct E as (l & ->). exists l. split; [reflexivity|]. rewrite map_length in Hl. split; [assumption|].
    intros i v Hv. assert (Hi : i < n) by (rewrite <- Hl; apply nth_error_Some; congruence).
    destruct (Hd i Hi) as (w & Hw & HP). rewrite (map_nth_error Some _ _ Hv) in Hw. congruence.
Qed.

(** * interpolate.py *)
Section Bis.
Context {T : Type} (lt : T -> T -> bool) (xs : list T) (q : T).
Lemma bis_loop_ok fuel : forall l r k, (0 <= l < r)%Z -> (r <= Z.of_nat (length xs))%Z -> (r - l <= Z.of_nat fuel)%Z ->
  ok (bis_loop lt fuel xs q l r k) (fun '(i, k') => (l <= i < r)%Z /\ forall b, (r - l <= 2 ^ Z.of_nat b)%Z -> k' <= k + b).
Proof.
  induction fuel as [|fuel IH]; intros l r k Hl Hr Hf; [lia|].
  cbn [bis_loop]. destruct (Z.ltb_spec 1 (r - l)).
  - set (c := ((l + r) / 2)%Z).
    assert (Hc : (l < c < r)%Z /\ (2 * (c - l) <= r - l + 1)%Z /\ (2 * (r - c) <= r - l + 1)%Z).
    { assert (Hd := Z_div_mod_eq_full (l + r) 2). assert (Hm := Z.mod_pos_bound (l + r) 2 ltac:(lia)). fold c in Hd. lia. }
    assert (Hpow : forall b, (r - l <= 2 ^ Z.of_nat b)%Z -> exists b', b = S b' /\ (r - l + 1 <= 2 * 2 ^ Z.of_nat b' + 1)%Z).
    { intros [|b] Hb; [cbn in Hb; lia|]. exists b. split; [reflexivity|]. rewrite Nat2Z.inj_succ, Z.pow_succ_r in Hb by lia. lia. }
    destruct (rd_in xs c ltac:(lia)) as (xc & -> & _). cbn [andthen].
    destruct (lt q xc).
    + eapply ok_weak; [apply IH; lia|]. intros (i & k') (Hi & Hk). split; [lia|]. intros b Hb. destruct (Hpow b Hb) as (b' & -> & Hb').
      assert (k' <= S k + b') by (apply Hk; lia). lia.
    + eapply ok_weak; [apply IH; lia|]. intros (i & k') (Hi & Hk). split; [lia|]. intros b Hb. destruct (Hpow b Hb) as (b' & -> & Hb').
      assert (k' <= S k + b') by (apply Hk; lia). lia.
  - apply ok_fine. split; [lia|]. intros; lia.
Qed.
Lemma bisearch_ok : xs <> [] -> ok (bisearch lt xs q) (fun '(i, k) => (-1 <= i < Z.of_nat (length xs))%Z /\ forall b, length xs <= 2 ^ b -> k <= b).
Proof.
  intro H. unfold bisearch. assert (Hn : 0 < length xs) by (destruct xs; cbn; [congruence|lia]).
  destruct (Nat.eqb_spec (length xs) 0); [lia|].
  destruct (rd_in xs 0%Z ltac:(lia)) as (x0 & -> & _). cbn [andthen].
  destruct (lt q x0).
  - apply ok_fine. split; [lia|]. intros; lia.
  - eapply ok_weak; [apply bis_loop_ok; lia|]. intros (i & k) (Hi & Hk). split; [lia|].
    intros b Hb. assert (k <= 0 + b); [|lia]. apply Hk. assert (E := Nat2Z.inj_pow 2 b). change (Z.of_nat 2) with 2%Z in E. lia.
Qed.
End Bis.

Section Interp.
Context {T : Type} (F : farith T).
Notation len l := (Z.of_nat (length l)).
Lemma nearest_ok (xs : list T) q : xs <> [] -> ok (bisearch_nearest F xs q) (fun i => (0 <= i < len xs)%Z).
Proof.
  intro H. unfold bisearch_nearest. assert (Hn : 0 < length xs) by (destruct xs; cbn; [congruence|lia]).
  eapply ok_and; [now apply bisearch_ok|]. intros (l & k) (Hl & _).
  destruct (Z.ltb_spec l 0); [apply ok_fine; lia|].
  destruct (Z.ltb_spec (len xs - 1) (l + 1)); [apply ok_fine; lia|].
  destruct (rd_in xs l ltac:(lia)) as (xl & -> & _). cbn [andthen].
  destruct (rd_in xs (l + 1) ltac:(lia)) as (xr & -> & _). cbn [andthen].
  apply ok_fine. destruct (f_lt F _ _); lia.
Qed.
Lemma nearest_array_ok (xs qs : list T) : xs <> [] -> ok (bisearch_nearest_array F xs qs) (fun idx => exists l,
  idx = map Some l /\ length l = length qs /\ forall i v, nth_error l i = Some v -> exists q, nth_error qs i = Some q /\ bisearch_nearest F xs q = Fine v).
Proof.
  intro H. unfold bisearch_nearest_array.
  eapply ok_and; [apply fill with (P := fun i v => exists q, nth_error qs i = Some q /\ bisearch_nearest F xs q = Fine v)|].
  - intros i out Hi Ho. destruct (rd_in qs (Z.of_nat i) ltac:(lia)) as (q & -> & Hq). cbn [andthen]. rewrite Nat2Z.id in Hq.
    destruct (nearest_ok xs q H) as (v & Hv & _). rewrite Hv. cbn [andthen]. rewrite wr_in by lia. rewrite Nat2Z.id.
    apply ok_fine. exists v. split; [|reflexivity]. exists q. split; assumption.
  - intros idx Hi. now apply ok_fine.
Qed.
Lemma weight_ok (xs : list T) q : xs <> [] -> ok (interp_weight F xs q) (fun '(l, r, _, _) => (0 <= l < len xs)%Z /\ (0 <= r < len xs)%Z).
Proof.
  intro H. unfold interp_weight. assert (Hn : 0 < length xs) by (destruct xs; cbn; [congruence|lia]).
  eapply ok_and; [now apply bisearch_ok|]. intros (l & k) (Hl & _).
  destruct (Z.ltb_spec l 0); [apply ok_fine; lia|].
  destruct (Z.ltb_spec (len xs - 1) (l + 1)); [apply ok_fine; lia|].
  destruct (rd_in xs l ltac:(lia)) as (xl & -> & _). cbn [andthen].
  destruct (rd_in xs (l + 1) ltac:(lia)) as (xr & -> & _). cbn [andthen].
  apply ok_fine. lia.
Qed.
Lemma interp_ok (xs ys : list T) q : xs <> [] -> length xs <= length ys -> ok (interp F xs ys q) (fun _ => True).
Proof.
  intros H Hy. unfold interp. eapply ok_and; [now apply weight_ok|]. intros (((l, r), wl), w_r) (Hl & Hr).
  destruct (rd_in ys l ltac:(lia)) as (yl & -> & _). cbn [andthen].
  destruct (rd_in ys r ltac:(lia)) as (yr & -> & _). cbn [andthen]. now apply ok_fine.
Qed.
Lemma fix_oob_ok (xs ys : list T) q yl yr : xs <> [] -> length xs <= length ys -> ok (interp_fix_oob F xs ys q yl yr) (fun _ => True).
Proof.
  intros H Hy. unfold interp_fix_oob. assert (Hn : 0 < length xs) by (destruct xs; cbn; [congruence|lia]).
  destruct (rd_in xs 0%Z ltac:(lia)) as (x0 & -> & _). cbn [andthen]. destruct (f_lt F q x0); [now apply ok_fine|].
  destruct (rd_neg1 xs H) as (xn & -> & _). cbn [andthen]. destruct (f_lt F xn q); [now apply ok_fine|]. now apply interp_ok.
Qed.
End Interp.

(** * Three-dimensional arrays *)
Lemma pos3_in {A} (a : arr3 A) i j k : (0 <= i < Z.of_nat (d0 a))%Z -> (0 <= j < Z.of_nat (d1 a))%Z -> (0 <= k < Z.of_nat (d2 a))%Z ->
  pos3 a i j k = Some ((Z.to_nat i * d1 a + Z.to_nat j) * d2 a + Z.to_nat k).
Proof. intros Hi Hj Hk. unfold pos3. now rewrite !resolve_in. Qed.
Lemma pos_lt i j k a b c : i < a -> j < b -> k < c -> (i * b + j) * c + k < a * b * c.
Proof. intros. assert (i * b + j < a * b) by nia. nia. Qed.
Lemma rd3_in {A} (a : arr3 A) i j k : shaped a -> (0 <= i < Z.of_nat (d0 a))%Z -> (0 <= j < Z.of_nat (d1 a))%Z -> (0 <= k < Z.of_nat (d2 a))%Z ->
  ok (rd3 a i j k) (fun v => nth_error (cell_list a) ((Z.to_nat i * d1 a + Z.to_nat j) * d2 a + Z.to_nat k) = Some v).
Proof.
  intros Hs Hi Hj Hk. unfold rd3. rewrite pos3_in by assumption.
  destruct (nth_error (cell_list a) _) eqn:E; [now apply ok_fine|]. apply nth_error_None in E. rewrite Hs in E.
  assert (H := pos_lt (Z.to_nat i) (Z.to_nat j) (Z.to_nat k) (d0 a) (d1 a) (d2 a) ltac:(lia) ltac:(lia) ltac:(lia)). lia.
Qed.
Lemma wr3_in {A} (a : arr3 A) i j k v : (0 <= i < Z.of_nat (d0 a))%Z -> (0 <= j < Z.of_nat (d1 a))%Z -> (0 <= k < Z.of_nat (d2 a))%Z ->
  wr3 a i j k v = Fine {| d0 := d0 a; d1 := d1 a; d2 := d2 a; cell_list := upd_nth (cell_list a) ((Z.to_nat i * d1 a + Z.to_nat j) * d2 a + Z.to_nat k) v |}.
Proof. intros Hi Hj Hk. unfold wr3. now rewrite pos3_in. Qed.
Lemma interp_2d_ok {T} (F : farith T) (xs1 xs2 : list T) (y : arr3 T) q1 q2 : xs1 <> [] -> xs2 <> [] -> shaped y ->
  length xs1 <= d0 y -> length xs2 <= d1 y -> d2 y = 1 -> ok (interp_2d F xs1 xs2 y q1 q2) (fun _ => True).
Proof.
  intros H1 H2 Hs Hd0 Hd1 Hd2. unfold interp_2d.
  eapply ok_and; [now apply weight_ok|]. intros (((l1, r1), w1l), w1r) (Hl1 & Hr1).
  eapply ok_and; [now apply weight_ok|]. intros (((l2, r2), w2l), w2r) (Hl2 & Hr2).
  destruct (rd3_in y l1 l2 0%Z Hs ltac:(lia) ltac:(lia) ltac:(lia)) as (? & -> & _). cbn [andthen].
  destruct (rd3_in y l1 r2 0%Z Hs ltac:(lia) ltac:(lia) ltac:(lia)) as (? & -> & _). cbn [andthen].
  destruct (rd3_in y r1 l2 0%Z Hs ltac:(lia) ltac:(lia) ltac:(lia)) as (? & -> & _). cbn [andthen].
  destruct (rd3_in y r1 r2 0%Z Hs ltac:(lia) ltac:(lia) ltac:(lia)) as (? & -> & _). cbn [andthen].
  now apply ok_fine.
Qed.

(** * Linear *)
Section Lin.
Context {T : Type} (F : farith T).
Lemma derivative_ok (xs ys : list T) : 2 <= length xs -> length ys = length xs ->
  ok (derivative F (xs, ys)) (fun out => exists l, out = map Some l /\ length l = length xs /\ forall i v, nth_error l i = Some v ->
    exists a b xa xb ya yb, a < b /\ a <= i <= b /\ (b = a + 1 \/ (b = a + 2 /\ i = a + 1)) /\
      nth_error xs a = Some xa /\ nth_error xs b = Some xb /\ nth_error ys a = Some ya /\ nth_error ys b = Some yb /\
      (i = 0 -> a = 0 /\ b = 1) /\ (i + 1 = length xs -> b = i /\ a + 1 = i) /\ (0 < i -> i + 1 < length xs -> a + 1 = i /\ b = i + 1) /\
      v = f_div F (f_sub F yb ya) (f_sub F xb xa)).
Proof.
  intros Hn Hy. unfold derivative. rewrite Hy. apply fill. intros i out Hi Ho.
  assert (G : forall a b : nat, a < b -> b < length xs -> a <= i <= b -> (b = a + 1 \/ (b = a + 2 /\ i = a + 1)) ->
    (i = 0 -> a = 0 /\ b = 1) -> (i + 1 = length xs -> b = i /\ a + 1 = i) -> (0 < i -> i + 1 < length xs -> a + 1 = i /\ b = i + 1) ->
    ok (andthen (rd xs (Z.of_nat a)) (fun xl => andthen (rd xs (Z.of_nat b)) (fun xr => andthen (rd ys (Z.of_nat a)) (fun yl => andthen (rd ys (Z.of_nat b)) (fun yr =>
      wr out (Z.of_nat i) (Some (f_div F (f_sub F yr yl) (f_sub F xr xl))))))))
    (fun out' => exists v, (exists a b xa xb ya yb, a < b /\ a <= i <= b /\ (b = a + 1 \/ (b = a + 2 /\ i = a + 1)) /\
      nth_error xs a = Some xa /\ nth_error xs b = Some xb /\ nth_error ys a = Some ya /\ nth_error ys b = Some yb /\
      (i = 0 -> a = 0 /\ b = 1) /\ (i + 1 = length xs -> b = i /\ a + 1 = i) /\ (0 < i -> i + 1 < length xs -> a + 1 = i /\ b = i + 1) /\
      v = f_div F (f_sub F yb ya) (f_sub F xb xa)) /\ out' = upd_nth out i (Some v))).
  { intros a b Hab Hb Hab' Hc H1 H2 H3.
    destruct (rd_in xs (Z.of_nat a) ltac:(lia)) as (xa & -> & Hxa). cbn [andthen].
    destruct (rd_in xs (Z.of_nat b) ltac:(lia)) as (xb & -> & Hxb). cbn [andthen].
    destruct (rd_in ys (Z.of_nat a) ltac:(lia)) as (ya & -> & Hya). cbn [andthen].
    destruct (rd_in ys (Z.of_nat b) ltac:(lia)) as (yb & -> & Hyb). cbn [andthen].
    rewrite Nat2Z.id in Hxa, Hxb, Hya, Hyb. rewrite wr_in by lia. rewrite Nat2Z.id. apply ok_fine. eexists. split; [|reflexivity].
    exists a, b, xa, xb, ya, yb. repeat split; try assumption; try lia. }
  destruct (Z.eqb_spec (Z.of_nat i - 1) (-1)).
  - apply (G 0 1); lia.
  - destruct (Z.eqb_spec (Z.of_nat i + 1) (Z.of_nat (length xs))).
    + replace (Z.of_nat (length xs) - 2)%Z with (Z.of_nat (i - 1)) by lia. replace (Z.of_nat (length xs) - 1)%Z with (Z.of_nat i) by lia. apply G; lia.
    + replace (Z.of_nat i - 1)%Z with (Z.of_nat (i - 1)) by lia. replace (Z.of_nat i + 1)%Z with (Z.of_nat (i + 1)) by lia. apply G; lia.
Qed.
End Lin.

(** * Histograms *)
Section Hist.
Context {T : Type} (F : farith T).
Definition inside (n : nat) (id : Z) : bool := (0 <=? id)%Z && (id <? Z.of_nat n)%Z.
Lemma add_step (data : list T) id w : inside (length data) id = true ->
  ok (andthen (rd data id) (fun v => wr data id (f_add F v w))) (fun d => length d = length data /\
    forall j v, nth_error data j = Some v -> nth_error d j = Some (if (Z.of_nat j =? id)%Z then f_add F v w else v)).
Proof.
  intro H. unfold inside in H. apply andb_prop in H. destruct H as (H1 & H2). apply Z.leb_le in H1. apply Z.ltb_lt in H2.
  destruct (rd_in data id ltac:(lia)) as (v & -> & Hv). cbn [andthen]. rewrite wr_in by lia. apply ok_fine.
  split; [now rewrite upd_nth_length|]. intros j u Hj. destruct (Z.eqb_spec (Z.of_nat j) id) as [<-|Hne].
  - rewrite Nat2Z.id in *. rewrite upd_nth_same by (apply nth_error_Some; congruence). congruence.
  - rewrite upd_nth_other by lia. assumption.
Qed.
Lemma deposited_step ids ws data d id w d' : deposited F ids ws data d -> length ids = length ws ->
  length d' = length d -> (forall j v, nth_error d j = Some v -> nth_error d' j = Some (if (Z.of_nat j =? id)%Z then f_add F v w else v)) ->
  deposited F (ids ++ [id]) (ws ++ [w]) data d'.
Proof.
  intros (Hl & Hd) Hw Hl' Hd'. split; [congruence|]. intros j v Hv. specialize (Hd j v Hv). apply Hd' in Hd. rewrite Hd. f_equal.
  assert (E : combine (ids ++ [id]) (ws ++ [w]) = combine ids ws ++ [(id, w)]).
  { clear - Hw. revert ws Hw. induction ids as [|a ids IH]; intros [|b ws] Hw; try discriminate; cbn; [reflexivity|]. f_equal. apply IH. now injection Hw. }
  rewrite E, filter_app, map_app, fold_left_app. cbn [filter fst]. rewrite (Z.eqb_sym id).
  destruct (Z.of_nat j =? id)%Z; reflexivity.
Qed.
Lemma skip_step n ids (ws data d : list T) id w : n = length d -> inside n id = false -> deposited F ids ws data d -> length ids = length ws ->
  deposited F (ids ++ [id]) (ws ++ [w]) data d.
Proof.
  intros -> H Hd Hw. apply deposited_step with (d := d); auto. intros j v Hj. assert (j < length d) by (apply nth_error_Some; congruence).
  unfold inside in H. destruct (Z.eqb_spec (Z.of_nat j) id) as [<-|]; [|assumption].
  destruct (Z.leb_spec 0 (Z.of_nat j)), (Z.ltb_spec (Z.of_nat j) (Z.of_nat (length d))); cbn in H; try discriminate; lia.
Qed.
Lemma unweighted_ok ids (data : list T) : ok (add_unweighted F ids data) (deposited F ids (repeat (f_one F) (length ids)) data).
Proof.
  unfold add_unweighted. apply (ok_for0 _ (fun d out => deposited F d (repeat (f_one F) (length d)) data out)).
  - split; [reflexivity|]. intros j v Hv. now cbn.
  - intros d id t s _ Hd. rewrite app_length, repeat_app. cbn [length repeat Nat.add].
    fold (inside (length s) id). destruct (inside (length s) id) eqn:E.
    + eapply ok_weak; [now apply add_step|]. intros s' (Hl & Hs). eapply deposited_step; eauto. now rewrite repeat_length.
    + apply ok_fine. eapply skip_step; eauto. now rewrite repeat_length.
Qed.
Lemma firstn_snoc {A} (l : list A) k x : nth_error l k = Some x -> firstn (S k) l = firstn k l ++ [x].
Proof. revert k. induction l as [|a l IH]; intros [|k] H; try discriminate; cbn; [cbn in H; congruence|]. cbn in H. rewrite <- (IH k H). reflexivity. Qed.
Lemma weighted_ok ids (ws data : list T) : length ids = length ws -> ok (add_weighted F ids ws data) (deposited F ids ws data).
Proof.
  intro Hw. unfold add_weighted. rewrite Hw, Nat.eqb_refl. cbn [negb]. rewrite <- Hw.
  apply ok_weak with (P := fun out => deposited F (firstn (length (range_ (length ids))) ids) (firstn (length (range_ (length ids))) ws) data out).
  - apply (ok_for0 _ (fun d out => deposited F (firstn (length d) ids) (firstn (length d) ws) data out)).
    + split; [reflexivity|]. intros j v Hv. now cbn.
    + intros d i t s Hr Hd. apply range_split in Hr. destruct Hr as (-> & Hlt & _).
      destruct (rd_in ids (Z.of_nat (length d)) ltac:(lia)) as (id & -> & Hid). cbn [andthen]. rewrite Nat2Z.id in Hid.
      destruct (rd_in ws (Z.of_nat (length d)) ltac:(lia)) as (w & Hrw & Hwd). rewrite Nat2Z.id in Hwd.
      rewrite app_length. cbn [length]. rewrite Nat.add_1_r, (firstn_snoc _ _ _ Hid), (firstn_snoc _ _ _ Hwd).
      assert (Hfl : length (firstn (length d) ids) = length (firstn (length d) ws)) by (rewrite !firstn_length; lia).
      fold (inside (length s) id). destruct (inside (length s) id) eqn:E.
      * rewrite Hrw. cbn [andthen]. eapply ok_weak; [now apply (add_step s id w)|]. intros s' (Hl & Hs). eapply deposited_step; eauto.
      * apply ok_fine. eapply skip_step; eauto.
  - intro out. rewrite range_len. rewrite firstn_all. rewrite Hw, firstn_all. auto.
Qed.
End Hist.

(** * Meshes *)
Section MeshK.
Context {T : Type} (F : farith T).
Lemma modulo_ok a n : (0 < n)%Z -> ok (modulo a n) (fun i => (0 <= i < n)%Z).
Proof. intro H. unfold modulo. destruct (Z.eqb_spec n 0); [lia|]. apply ok_fine. now apply Z.mod_pos_bound. Qed.
Lemma weights_at_ok n h x : (0 < n)%Z -> ok (weights_at F n h x) (fun '(il, ir, _, _) => (0 <= il < n)%Z /\ (0 <= ir < n)%Z).
Proof.
  intro H. unfold weights_at. eapply ok_and; [now apply modulo_ok|]. intros il Hl. eapply ok_and; [now apply modulo_ok|]. intros ir Hr. now apply ok_fine.
Qed.
Lemma wr3_cube {A} n (d : arr3 A) i j k v : cube n d -> (0 <= i < n)%Z -> (0 <= j < n)%Z -> (0 <= k < n)%Z -> ok (wr3 d i j k v) (cube n).
Proof.
  intros (Hs & Hn & H0 & H1 & H2) Hi Hj Hk. rewrite wr3_in by lia. apply ok_fine. split; [|cbn; auto].
  unfold shaped in *. cbn. now rewrite upd_nth_length.
Qed.
Lemma add_1_ok n h d x w : cube n d -> length x = 3 -> ok (add_1 F n h d x w) (cube n).
Proof.
  intros Hc Hx. assert (Hn : (0 < n)%Z) by apply Hc. unfold add_1.
  destruct (rd_in x 0%Z ltac:(lia)) as (x0 & -> & _). cbn [andthen].
  eapply ok_and; [now apply weights_at_ok|]. intros (((i0l, i0r), w0l), w0r) (H0l & H0r).
  destruct (rd_in x 1%Z ltac:(lia)) as (x1 & -> & _). cbn [andthen].
  eapply ok_and; [now apply weights_at_ok|]. intros (((i1l, i1r), w1l), w1r) (H1l & H1r).
  destruct (rd_in x 2%Z ltac:(lia)) as (x2 & -> & _). cbn [andthen].
  eapply ok_and; [now apply weights_at_ok|]. intros (((i2l, i2r), w2l), w2r) (H2l & H2r).
  apply ok_for_in; [assumption|]. intros (((i, a), (j, b)), (k, c)) s Hin Hs.
  assert (Hijk : (0 <= i < n)%Z /\ (0 <= j < n)%Z /\ (0 <= k < n)%Z).
  { cbn [In] in Hin. repeat (destruct Hin as [Hin|Hin]; [injection Hin as <- <- <- <- <- <-; auto|]). destruct Hin. }
  destruct Hijk as (Hi & Hj & Hk). destruct Hs as (Hs & Hn' & Hs0 & Hs1 & Hs2).
  destruct (rd3_in s i j k Hs ltac:(lia) ltac:(lia) ltac:(lia)) as (v & -> & _). cbn [andthen].
  apply wr3_cube; try assumption. repeat split; assumption.
Qed.
Lemma df_add_ok n h d ncols xs ws : cube n d -> Forall (fun x => length x = ncols) xs ->
  df_add F n h d ncols xs ws = Raise AssertionError /\ (ncols <> 3 \/ exists w, ws = Some w /\ length xs <> length w) \/
  ncols = 3 /\ (forall w, ws = Some w -> length xs = length w) /\ ok (df_add F n h d ncols xs ws) (cube n).
Proof.
  intros Hc Hx. unfold df_add. destruct ws as [w|].
  - destruct (Nat.eqb_spec (length xs) (length w)); cbn [negb]; [|left; split; [reflexivity|right; exists w; auto]].
    destruct (Nat.eqb_spec ncols 3); cbn [negb]; [subst ncols|left; auto].
    right. split; [reflexivity|]. split; [intros w' [= <-]; assumption|]. apply ok_for_in; [assumption|].
    intros (x, weight) s Hin Hs. apply add_1_ok; [assumption|]. apply in_combine_l in Hin. rewrite Forall_forall in Hx. auto.
  - cbn [negb]. destruct (Nat.eqb_spec ncols 3); cbn [negb]; [subst ncols|left; auto].
    right. split; [reflexivity|]. split; [discriminate|]. apply ok_for_in; [assumption|].
    intros x s Hin Hs. apply add_1_ok; [assumption|]. rewrite Forall_forall in Hx. auto.
Qed.
Lemma df_new_ok n : n = 0%Z /\ df_new F n = Raise ZeroDivisionError \/ (n < 0)%Z /\ df_new F n = Raise ValueError \/
  (0 < n)%Z /\ ok (df_new F n) (fun d => cube n d /\ forall v, In v (cell_list d) -> v = f_zero F).
Proof.
  unfold df_new, mesh_new. destruct (Z.eqb_spec n 0); [left; auto|]. cbn [andthen]. destruct (Z.ltb_spec n 0); [right; left; auto|].
  right. right. split; [lia|]. apply ok_fine. split.
  - split; [unfold shaped; cbn; apply repeat_length|]. cbn. lia.
  - intros v Hv. now apply repeat_spec in Hv.
Qed.
Lemma field_new_ok {A} n (d : arr3 A) : n <> 0%Z -> shaped d ->
  field_new n d = Raise AssertionError /\ ~ (Z.of_nat (d0 d) = n /\ Z.of_nat (d1 d) = n /\ Z.of_nat (d2 d) = n) \/ field_new n d = Fine d /\ cube n d.
Proof.
  intros Hn Hs. unfold field_new. destruct (Nat.eqb_spec (d0 d) (d1 d)), (Nat.eqb_spec (d1 d) (d2 d)), (Z.eqb_spec n (Z.of_nat (d0 d))); cbn [andb];
  try (left; split; [reflexivity|]; lia). right. split; [reflexivity|]. split; [assumption|]. lia.
Qed.
Lemma value_at_ok n h d ncols xs : cube n d -> Forall (fun x => length x = ncols) xs -> ncols = 3 ->
  ok (value_at F n h d ncols xs) (fun out => exists l, out = map Some l /\ length l = length xs).
Proof.
  intros Hc Hx ->. assert (Hn : (0 < n)%Z) by apply Hc. unfold value_at. cbn [Nat.eqb negb].
  eapply ok_weak; [apply fill with (P := fun _ _ => True)|intros out (l & -> & Hl & _); eauto].
  intros i out Hi Ho. destruct (rd_in xs (Z.of_nat i) ltac:(lia)) as (x & -> & Hxi). cbn [andthen]. rewrite Nat2Z.id in Hxi.
  assert (Hx3 : length x = 3) by (rewrite Forall_forall in Hx; apply Hx; eapply nth_error_In; eassumption).
  destruct (rd_in x 0%Z ltac:(lia)) as (x0 & -> & _). cbn [andthen].
  eapply ok_and; [now apply weights_at_ok|]. intros (((i0l, i0r), w0l), w0r) (H0l & H0r).
  destruct (rd_in x 1%Z ltac:(lia)) as (x1 & -> & _). cbn [andthen].
  eapply ok_and; [now apply weights_at_ok|]. intros (((i1l, i1r), w1l), w1r) (H1l & H1r).
  destruct (rd_in x 2%Z ltac:(lia)) as (x2 & -> & _). cbn [andthen].
  eapply ok_and; [now apply weights_at_ok|]. intros (((i2l, i2r), w2l), w2r) (H2l & H2r).
  eapply ok_and.
  - apply ok_for_in with (P := fun _ => True); [exact I|]. intros (((i', a), (j, b)), (k, c)) s Hin _.
    assert (Hijk : (0 <= i' < n)%Z /\ (0 <= j < n)%Z /\ (0 <= k < n)%Z).
    { cbn [In] in Hin. repeat (destruct Hin as [Hin|Hin]; [injection Hin as <- <- <- <- <- <-; auto|]). destruct Hin. }
    destruct Hijk as (Hi' & Hj & Hk). destruct Hc as (Hs & Hn' & Hs0 & Hs1 & Hs2).
    destruct (rd3_in d i' j k Hs ltac:(lia) ltac:(lia) ltac:(lia)) as (v & -> & _). cbn [andthen]. now apply ok_fine.
  - intros s _. rewrite wr_in by lia. rewrite Nat2Z.id. apply ok_fine. exists s. auto.
Qed.
Lemma cell_at_ok {A} n h half (d : arr3 A) ncols xs : cube n d -> Forall (fun x => length x = ncols) xs -> ncols = 3 ->
  ok (cell_at F n h half d ncols xs) (fun out => exists l, out = map Some l /\ length l = length xs /\ forall v, In v l -> In v (cell_list d)).
Proof.
  intros Hc Hx ->. assert (Hn : (0 < n)%Z) by apply Hc. unfold cell_at. cbn [Nat.eqb negb].
  eapply ok_weak; [apply fill with (P := fun _ v => In v (cell_list d))|].
  - intros i out Hi Ho. destruct (rd_in xs (Z.of_nat i) ltac:(lia)) as (x & -> & Hxi). cbn [andthen]. rewrite Nat2Z.id in Hxi.
    assert (Hx3 : length x = 3) by (rewrite Forall_forall in Hx; apply Hx; eapply nth_error_In; eassumption).
    destruct x as [|x0 [|x1 [|x2 [|]]]]; try discriminate. unfold x_to_xi.
    eapply ok_and; [now apply modulo_ok|]. intros i0 H0. eapply ok_and; [now apply modulo_ok|]. intros i1 H1. eapply ok_and; [now apply modulo_ok|]. intros i2 H2. cbn beta in H0, H1, H2.
    destruct Hc as (Hs & Hn' & Hs0 & Hs1 & Hs2).
    destruct (rd3_in d i0 i1 i2 Hs ltac:(lia) ltac:(lia) ltac:(lia)) as (v & -> & Hv). cbn [andthen].
    rewrite wr_in by lia. rewrite Nat2Z.id. apply ok_fine. exists v. split; [|reflexivity]. eapply nth_error_In; eassumption.
  - intros out (l & -> & Hl & HP). exists l. split; [reflexivity|]. split; [assumption|]. intros v Hv. apply In_nth_error in Hv. destruct Hv as (i & Hv). eauto.
Qed.

(** * kd_mesh.py *)
Lemma flat_bound n i j k : (0 < n)%Z -> (0 <= i < n)%Z -> (0 <= j < n)%Z -> (0 <= k < n)%Z -> (0 <= (i * n + j) * n + k < n * n * n)%Z.
Proof. intros. nia. Qed.
Lemma x2xi_f_ok n h x : (0 < n)%Z -> length x = 3 -> ok (x2xi_f F n h x) (fun k => (0 <= k < n * n * n)%Z).
Proof.
  intros Hn Hx. destruct x as [|x0 [|x1 [|x2 [|]]]]; try discriminate. unfold x2xi_f.
  eapply ok_and; [now apply modulo_ok|]. intros i0 H0. eapply ok_and; [now apply modulo_ok|]. intros i1 H1. eapply ok_and; [now apply modulo_ok|]. intros i2 H2.
  apply ok_fine. now apply flat_bound.
Qed.
Lemma mesh_keys_ok n h xs : (0 < n)%Z -> Forall (fun x => length x = 3) xs ->
  ok (mesh_keys F n h xs) (fun out => exists l, out = map Some l /\ length l = length xs /\ Forall (fun k => 0 <= k < n * n * n)%Z l).
Proof.
  intros Hn Hx. unfold mesh_keys. eapply ok_weak; [apply fill with (P := fun _ k => (0 <= k < n * n * n)%Z)|].
  - intros i out Hi Ho. destruct (rd_in xs (Z.of_nat i) ltac:(lia)) as (x & -> & Hxi). cbn [andthen]. rewrite Nat2Z.id in Hxi.
    assert (Hx3 : length x = 3) by (rewrite Forall_forall in Hx; apply Hx; eapply nth_error_In; eassumption).
    eapply ok_and; [now apply x2xi_f_ok|]. intros k Hk. cbn beta in Hk. rewrite wr_in by lia. rewrite Nat2Z.id. apply ok_fine. eauto.
  - intros out (l & -> & Hl & HP). exists l. split; [reflexivity|]. split; [assumption|]. apply Forall_forall. intros k Hk. apply In_nth_error in Hk. destruct Hk. eauto.
Qed.
Lemma collect_ok {A} (l : list A) acc : for_ (map Some l) (fun k l => match k with Some k => Fine (l ++ [k]) | None => OutOfBounds end) acc = Fine (acc ++ l).
Proof. revert acc. induction l as [|k l IH]; intro acc; cbn; [now rewrite app_nil_r|]. rewrite IH, <- app_assoc. reflexivity. Qed.
Lemma gather_ok {A} (src : list A) (args : list Z) : Forall (fun i => 0 <= i < Z.of_nat (length src))%Z args ->
  ok (for_ args (fun i l => andthen (rd src i) (fun k => Fine (l ++ [k]))) []) (fun out => length out = length args /\ Forall2 (fun i v => nth_error src (Z.to_nat i) = Some v) args out).
Proof.
  intro H. apply (ok_for0 _ (fun d out => length out = length d /\ Forall2 (fun i v => nth_error src (Z.to_nat i) = Some v) d out)).
  - split; constructor.
  - intros d i t s Hr (Hl & HF). assert (Hi : (0 <= i < Z.of_nat (length src))%Z).
    { rewrite Forall_forall in H. apply H. rewrite Hr. apply in_or_app. right. now left. }
    destruct (rd_in src i Hi) as (v & -> & Hv). cbn [andthen]. apply ok_fine. split; [rewrite !app_length; cbn; lia|].
    apply Forall2_app; [assumption|]. constructor; [assumption|constructor].
Qed.
Lemma scan_ok keys i_f : forall fuel e, (0 <= e <= Z.of_nat (length keys))%Z -> (Z.of_nat (length keys) - e <= Z.of_nat fuel)%Z ->
  ok (scan fuel keys i_f e) (fun e' => (e <= e' <= Z.of_nat (length keys))%Z).
Proof.
  induction fuel as [|fuel IH]; intros e He Hf; cbn [scan]; destruct (Z.ltb_spec e (Z.of_nat (length keys))); try (apply ok_fine; lia); [lia|].
  destruct (rd_in keys e ltac:(lia)) as (k & -> & _). cbn [andthen]. destruct (i_f <? k)%Z; [apply ok_fine; lia|].
  eapply ok_weak; [apply IH; lia|]. cbn beta. intros; lia.
Qed.
Lemma cell_firsts_ok n keys : (0 < n)%Z -> ok (cell_firsts n keys) (offsets n (length keys)).
Proof.
  intro Hn. unfold cell_firsts. assert (Hc : (0 < n * n * n)%Z) by nia.
  destruct (Z.ltb_spec (n * n * n + 1) 0); [lia|]. set (m := Z.to_nat (n * n * n)). replace (Z.to_nat (n * n * n + 1)) with (m + 1) by lia.
  eapply ok_and with (P := fun '(firsts, b) => length firsts = m + 1 /\ nth_error firsts (length (range_ m)) = Some b /\ nth_error firsts 0 = Some 0%Z /\
     forall i b e, i < length (range_ m) -> nth_error firsts i = Some b -> nth_error firsts (S i) = Some e -> (0 <= b <= e)%Z /\ (e <= Z.of_nat (length keys))%Z).
  - eapply ok_weak; [apply (ok_for0 _ (fun d '(firsts, b) => length firsts = m + 1 /\ nth_error firsts (length d) = Some b /\ (0 <= b <= Z.of_nat (length keys))%Z /\ nth_error firsts 0 = Some 0%Z /\
     forall i b e, i < length d -> nth_error firsts i = Some b -> nth_error firsts (S i) = Some e -> (0 <= b <= e)%Z /\ (e <= Z.of_nat (length keys))%Z))|].
    + split; [apply repeat_length|]. rewrite Nat.add_1_r. cbn. repeat split; try lia. all: intros; lia.
    + intros d i t (firsts, b) Hr (Hl & Hb & Hbr & H0 & Hm). apply range_split in Hr. destruct Hr as (-> & Hlt & _).
      eapply ok_and; [apply scan_ok; lia|]. cbn beta. intros e He. rewrite wr_in by lia. cbn [andthen].
      replace (Z.to_nat (Z.of_nat (length d) + 1)) with (S (length d)) by lia. apply ok_fine.
      rewrite upd_nth_length, app_length. cbn [length]. replace (length d + 1) with (S (length d)) by lia. split; [assumption|]. split; [apply upd_nth_same; lia|]. split; [lia|].
      split; [rewrite upd_nth_other by lia; assumption|]. intros i b' e' Hi Hb' He'.
      rewrite upd_nth_other in Hb' by lia. destruct (Nat.eq_dec i (length d)) as [->|Hne].
      * rewrite upd_nth_same in He' by lia. rewrite Hb in Hb'. injection Hb' as <-. injection He' as <-. lia.
      * rewrite upd_nth_other in He' by lia. eapply Hm; eauto. lia.
    + intros (firsts, b) (Hl & Hb & Hbr & H0 & Hm). auto.
  - intros (firsts, b) (Hl & Hb & H0 & Hm). apply ok_fine. cbn [fst]. split; [lia|]. split; [assumption|].
    intros i b' e' Hb' He'. eapply Hm; eauto. rewrite range_len. assert (S i < length firsts) by (apply nth_error_Some; congruence). lia.
Qed.
Lemma meshing_ok n h argsort xs : (0 < n)%Z -> Forall (fun x => length x = 3) xs ->
  indices argsort ->
  ok (meshing F n h argsort xs) (fun '(xs', firsts) => length xs' = length xs /\ offsets n (length xs') firsts).
Proof.
  intros Hn Hx Ha. unfold meshing. eapply ok_and; [now apply mesh_keys_ok|]. intros keys (l & -> & Hl & Hk).
  rewrite collect_ok. cbn [andthen app]. destruct (Ha l) as (Hal & Har).
  eapply ok_and; [now apply gather_ok|]. intros sorted (Hsl & _).
  eapply ok_and; [apply gather_ok; now rewrite <- Hl|]. intros xs' (Hxl & _).
  eapply ok_and; [now apply cell_firsts_ok|]. intros firsts Hf. assert (Hlen := proj1 Hf). rewrite Hlen, Z.eqb_refl. apply ok_fine.
  split; [congruence|]. replace (length xs') with (length sorted) by congruence. assumption.
Qed.
Lemma visit_ok n N firsts lb ub : (0 < n)%Z -> offsets n N firsts -> ok (visit n firsts lb ub) (Forall (fun '(b, e) => (0 <= b <= e)%Z /\ (e <= Z.of_nat N)%Z)).
Proof.
  intros Hn (Hl & H0 & Hm). destruct lb as ((lb0, lb1), lb2), ub as ((ub0, ub1), ub2). cbn [visit].
  apply ok_for_in; [constructor|]. intros i0 s0 _ Hs0. eapply ok_and; [now apply modulo_ok|]. intros j0 Hj0. cbn beta in Hj0.
  apply ok_for_in; [assumption|]. intros i1 s1 _ Hs1. eapply ok_and; [now apply modulo_ok|]. intros j1 Hj1. cbn beta in Hj1.
  apply ok_for_in; [assumption|]. intros i2 s2 _ Hs2. eapply ok_and; [now apply modulo_ok|]. intros j2 Hj2. cbn beta in Hj2.
  assert (Hf := flat_bound n j0 j1 j2 Hn Hj0 Hj1 Hj2). set (f := ((j0 * n + j1) * n + j2)%Z) in *.
  destruct (rd_in firsts f ltac:(lia)) as (b & -> & Hb). cbn [andthen].
  destruct (rd_in firsts (f + 1) ltac:(lia)) as (e & -> & He). cbn [andthen]. apply ok_fine.
  apply Forall_app. split; [assumption|]. constructor; [|constructor]. replace (Z.to_nat (f + 1)) with (S (Z.to_nat f)) in He by lia. eauto.
Qed.
End MeshK.

(** * Loops over Fourier modes *)
Section Modes.
Context {A B : Type} (N : nat) (f : Z -> Z -> Z -> A -> B) (d : arr3 A).
Definition filled (P : nat) (out : arr3 (option B)) : Prop := same_dims out d /\ length (cell_list out) = length (cell_list d) /\
  forall i0 i1 i2 v, i0 < N -> i1 < N -> i2 < N / 2 + 1 -> (i0 * N + i1) * (N / 2 + 1) + i2 < P ->
    nth_error (cell_list d) ((i0 * N + i1) * (N / 2 + 1) + i2) = Some v ->
    nth_error (cell_list out) ((i0 * N + i1) * (N / 2 + 1) + i2) = Some (Some (f (mode_of N i0) (mode_of N i1) (Z.of_nat i2) v)).
Lemma pos_inj h i0 i1 i2 j0 j1 j2 : i1 < N -> i2 < h -> j1 < N -> j2 < h -> (i0 * N + i1) * h + i2 = (j0 * N + j1) * h + j2 -> i0 = j0 /\ i1 = j1 /\ i2 = j2.
Proof.
  intros H1 H2 H3 H4 E.
  assert (E2 : i0 * N + i1 = j0 * N + j1 /\ i2 = j2).
  { destruct (Nat.lt_trichotomy (i0 * N + i1) (j0 * N + j1)) as [L|[L|L]]; [exfalso; nia|split; [assumption|]; rewrite L in E; lia|exfalso; nia]. }
  destruct E2 as (E2 & ->). destruct (Nat.lt_trichotomy i0 j0) as [L|[L|L]]; [exfalso; nia| |exfalso; nia]. subst. repeat split. lia.
Qed.
Lemma modes_ok : shaped d -> d0 d = N -> d1 d = N -> d2 d = N / 2 + 1 -> ok (over_modes N f d) (filled (N * N * (N / 2 + 1))).
Proof.
  intros Hs H0 H1 H2. unfold over_modes. rewrite H0, H1, H2, !Nat.eqb_refl. cbn [andb negb].
  set (h := N / 2 + 1) in *. fold h.
  assert (Hm : forall i, (if (Z.of_nat (N / 2) <? Z.of_nat i)%Z then (Z.of_nat i - Z.of_nat N)%Z else Z.of_nat i) = mode_of N i).
  { intro i. unfold mode_of. destruct (Z.ltb_spec (Z.of_nat (N / 2)) (Z.of_nat i)), (Nat.leb_spec i (N / 2)); try reflexivity; lia. }
  replace (N * N * h) with (length (range_ N) * N * h) by now rewrite range_len.
  apply (ok_for0 _ (fun l out => filled (length l * N * h) out)).
  - split; [unfold same_dims; cbn [d0 d1 d2]; lia|]. split; [cbn; apply repeat_length|]. cbn [length Nat.mul]. intros; lia.
  - intros l0 i0 t0 s0 Hr0 Hf0. apply range_split in Hr0. destruct Hr0 as (-> & Hlt0 & _).
    rewrite app_length. cbn [length]. replace ((length l0 + 1) * N * h) with ((length l0 * N + length (range_ N)) * h) by (rewrite range_len; nia).
    apply (ok_for0 _ (fun l out => filled ((length l0 * N + length l) * h) out)).
    + cbn [length]. rewrite Nat.add_0_r. assumption.
    + intros l1 i1 t1 s1 Hr1 Hf1. apply range_split in Hr1. destruct Hr1 as (-> & Hlt1 & _).
      rewrite app_length. cbn [length].
      replace ((length l0 * N + (length l1 + 1)) * h) with ((length l0 * N + length l1) * h + length (range_ h)) by (rewrite range_len; nia).
      apply (ok_for0 _ (fun l out => filled ((length l0 * N + length l1) * h + length l) out)).
      * cbn [length]. rewrite Nat.add_0_r. assumption.
      * intros l2 i2 t2 s2 Hr2 Hf2. apply range_split in Hr2. destruct Hr2 as (-> & Hlt2 & _). destruct Hf2 as ((E0 & E1 & E2) & El & Hf2).
        destruct (rd3_in d (Z.of_nat (length l0)) (Z.of_nat (length l1)) (Z.of_nat (length l2)) Hs ltac:(lia) ltac:(lia) ltac:(lia)) as (v & -> & Hv). cbn [andthen].
        rewrite !Nat2Z.id in Hv. rewrite wr3_in by lia. rewrite !Nat2Z.id, !Hm. rewrite H1, H2 in Hv. apply ok_fine.
        split; [repeat split; cbn; lia|]. cbn [cell_list d0 d1 d2]. split; [now rewrite upd_nth_length|].
        intros j0 j1 j2 w Hj0 Hj1 Hj2 HP Hw. rewrite app_length in HP. cbn [length] in HP. rewrite E1, E2, H1, H2.
        destruct (Nat.eq_dec ((length l0 * N + length l1) * h + length l2) ((j0 * N + j1) * h + j2)) as [Eq|Ne].
        { fold h in Hj2, Hw |- *. rewrite <- Eq in Hw |- *. rewrite upd_nth_same by (rewrite El; apply nth_error_Some; congruence).
          apply pos_inj in Eq; try assumption. destruct Eq as (<- & <- & <-). congruence. }
        { fold h in Hj2, Hw, HP |- *. rewrite upd_nth_other by assumption. apply Hf2; try assumption. lia. }
Qed.
End Modes.

(** * The same results as the model with checked accesses *)
From Verif Require InterpModel.
Section Agree.
Context {T : Type} (lt : T -> T -> bool) (xs : list T) (q : T).
Lemma bis_loop_agree fuel : forall (l r k : nat), l < r -> r <= length xs -> match bis_loop lt fuel xs q (Z.of_nat l) (Z.of_nat r) k with
  | Fine (i, _) => rmap Z.of_nat (InterpModel.bis_loop lt fuel xs q l r) = Ok i | Raise e => InterpModel.bis_loop lt fuel xs q l r = Err e | OutOfBounds => False end.
Proof.
  induction fuel as [|fuel IH]; intros l r k Hlr Hr; cbn [bis_loop InterpModel.bis_loop];
  destruct (Z.ltb_spec 1 (Z.of_nat r - Z.of_nat l)), (Nat.ltb_spec 1 (r - l)); try lia; try reflexivity.
  assert (Hc : ((Z.of_nat l + Z.of_nat r) / 2)%Z = Z.of_nat ((l + r) / 2)) by (rewrite Nat2Z.inj_div, Nat2Z.inj_add; reflexivity).
  rewrite Hc. assert (Hb : l < (l + r) / 2 < r).
  { assert (E := Nat.div_mod (l + r) 2 ltac:(lia)). assert (B := Nat.mod_upper_bound (l + r) 2 ltac:(lia)). lia. }
  destruct (rd_in xs (Z.of_nat ((l + r) / 2)) ltac:(lia)) as (xc & -> & Hx). rewrite Nat2Z.id in Hx. cbn [andthen].
  unfold InterpModel.at_. rewrite Hx. cbn [bind]. destruct (lt q xc); apply IH; lia.
Qed.
Lemma bisearch_agree : match bisearch lt xs q with Fine (i, _) => InterpModel.bisearch lt xs q = Ok i | Raise e => InterpModel.bisearch lt xs q = Err e | OutOfBounds => False end.
Proof.
  unfold bisearch, InterpModel.bisearch. assert (H := bis_loop_agree (length xs) 0 (length xs) 0). revert H.
  destruct xs as [|x0 xs']; [reflexivity|]. intro H. specialize (H ltac:(cbn; lia) ltac:(lia)).
  set (l := x0 :: xs') in *. change (Nat.eqb (length l) 0) with false. cbn iota.
  change (rd l 0%Z) with (Fine x0) || (destruct (rd_in l 0%Z) as (y & -> & Hy); [subst l; cbn [length]; lia|]; cbn in Hy; injection Hy as <-). cbn [andthen].
  destruct (lt q x0); [reflexivity|]. change (Z.of_nat 0) with 0%Z in H.
  destruct (bis_loop _ _ _ _ _ _ _) as [(i, k)|e|]; [assumption| |assumption]. now rewrite H.
Qed.
End Agree.
