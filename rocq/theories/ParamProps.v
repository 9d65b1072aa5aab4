(** C58: parameter lists. *)
From Coq Require Import QArith Qabs Qround Lqa.
From Verif Require Import Base ParamSpec ParamModel.
Local Open Scope list_scope. Local Open Scope nat_scope.

(** The assignments of a history that succeed. *)
Definition effective (n : nat) (ops : list (pkey * pref)) : list (assignment (P := pref)) :=
  flat_map (fun op => match fst op with PInt z => match position n z with Some i => [(i, snd op)] | None => [] end | _ => [] end) ops.

Lemma position_lt n z i : position n z = Some i -> i < n.
Proof.
  unfold position. destruct (Z.leb_spec 0 z).
  - destruct (Z.ltb_spec z (Z.of_nat n)); [|discriminate]. intros E. inversion E; subst. lia.
  - destruct (Z.leb_spec 0 (Z.of_nat n + z)); [|discriminate]. intros E. inversion E; subst. lia.
Qed.
Lemma position_of_nat n i : i < n -> position n (Z.of_nat i) = Some i.
Proof. intros H. unfold position. destruct (Z.leb_spec 0 (Z.of_nat i)); [|lia]. destruct (Z.ltb_spec (Z.of_nat i) (Z.of_nat n)); [|lia]. f_equal. lia. Qed.

Lemma number_nth {A} (l : list A) : forall z i, nth_error (number z l) i = match nth_error l i with Some a => Some ((z + Z.of_nat i)%Z, a) | None => None end.
Proof.
  induction l as [|a l IH]; intros z i; destruct i; cbn [number nth_error]; try reflexivity.
  - f_equal. f_equal. lia.
  - rewrite IH. destruct (nth_error l i); [|reflexivity]. f_equal. f_equal. lia.
Qed.
Lemma number_app {A} (l : list A) a : forall z, number z (l ++ [a]) = number z l ++ [((z + Z.of_nat (length l))%Z, a)].
Proof.
  induction l as [|b l IH]; intros z; cbn [app number length].
  - replace (z + Z.of_nat 0)%Z with z by lia. reflexivity.
  - rewrite IH. replace (z + 1 + Z.of_nat (length l))%Z with (z + Z.of_nat (S (length l)))%Z by lia. reflexivity.
Qed.

Section History.
  Variable h : pstore.
  Variable rs : list pref.
  Let name := name_of h.

  Lemma init_table n : match od_get String.eqb (table (new_plist h rs)) n with
    | Some z => exists i, z = Z.of_nat i /\ bound name rs n [] i
    | None => forall i, ~ bound name rs n [] i end.
  Proof.
    cbn [table new_plist].
    assert (G : forall l, match od_get String.eqb (od_update String.eqb [] (map (fun ir => (name_of h (snd ir), fst ir)) (number 0%Z l))) n with
        | Some z => exists i p, z = Z.of_nat i /\ nth_error l i = Some p /\ name p = n /\ (forall j q, nth_error l j = Some q -> name q = n -> j <= i)
        | None => forall i p, nth_error l i = Some p -> name p <> n end).
    { induction l as [|p l IH] using rev_ind; [cbn; intros [] ? H; discriminate|].
      rewrite number_app, map_app. unfold od_update in *. rewrite fold_left_app. cbn [fold_left map fst snd].
      rewrite (od_get_set _ String.eqb_spec). destruct (String.eqb_spec n (name_of h p)) as [E|N].
      - exists (length l), p. split; [lia|]. split; [rewrite nth_error_app2, Nat.sub_diag by lia; reflexivity|].
        split; [symmetry; exact E|]. intros j q Hj _. assert (j < length (l ++ [p])) by (apply nth_error_Some; congruence).
        rewrite app_length in *. cbn [length] in *. lia.
      - destruct (od_get _ _ n) as [z|].
        + destruct IH as (i & p' & -> & Hi & Np & Max). exists i, p'. split; [reflexivity|].
          assert (i < length l) by (apply nth_error_Some; congruence).
          split; [rewrite nth_error_app1 by lia; exact Hi|]. split; [exact Np|]. intros j q Hj Nq.
          destruct (Nat.lt_ge_cases j (length l)) as [L|L]; [rewrite nth_error_app1 in Hj by lia; eauto|].
          rewrite nth_error_app2 in Hj by lia. destruct (j - length l) as [|k]; [|destruct k; discriminate].
          cbn in Hj. inversion Hj; subst. exfalso. apply N. symmetry. exact Nq.
        + intros i q Hi. destruct (Nat.lt_ge_cases i (length l)) as [L|L]; [rewrite nth_error_app1 in Hi by lia; eauto|].
          rewrite nth_error_app2 in Hi by lia. destruct (i - length l) as [|k]; [|destruct k; discriminate].
          cbn in Hi. inversion Hi; subst. intros Nq. apply N. symmetry. exact Nq. }
    specialize (G rs). destruct (od_get _ _ n) as [z|].
    - destruct G as (i & p & -> & Hi & Np & Max). exists i. split; [reflexivity|]. eapply bound_init; eauto.
    - intros i B. inversion B as [i' p Hi Np Max| |]; [exact (G _ _ Hi Np)| |]; destruct h0; discriminate.
  Qed.

  Lemma bound_snoc_inv n e j p i : bound name rs n (e ++ [(j, p)]) i -> (name p = n /\ i = j) \/ (name p <> n /\ bound name rs n e i).
  Proof.
    intros B. inversion B as [i' p' _ _ _ E|e' i' p' Np E|e' i' j' p' B' Np E].
    - destruct e; discriminate.
    - apply app_inj_tail in E. destruct E as [-> E]. inversion E; subst. left. auto.
    - apply app_inj_tail in E. destruct E as [-> E]. inversion E; subst. right. auto.
  Qed.
  Lemma stands_snoc_inv i e j q p : stands rs i (e ++ [(j, q)]) p -> (j = i /\ p = q) \/ (j <> i /\ stands rs i e p).
  Proof.
    intros B. inversion B as [p' _ E|e' p' E|e' j' p' q' B' Np E].
    - destruct e; discriminate.
    - apply app_inj_tail in E. destruct E as [-> E]. inversion E; subst. left. auto.
    - apply app_inj_tail in E. destruct E as [-> E]. inversion E; subst. right. auto.
  Qed.

  Lemma history_inv ops : let pl := phistory h rs ops in
    length (refs pl) = length rs /\
    (forall i p, nth_error (refs pl) i = Some p <-> stands rs i (effective (length rs) ops) p) /\
    (forall n, match od_get String.eqb (table pl) n with
       | Some z => exists i, position (length rs) z = Some i /\ bound name rs n (effective (length rs) ops) i
       | None => forall i, ~ bound name rs n (effective (length rs) ops) i end).
  Proof.
    induction ops as [|op ops IH] using rev_ind; cbv zeta.
    - unfold phistory. cbn [fold_left effective flat_map]. split; [reflexivity|]. split.
      + intros i p. split; [intros H; constructor; exact H|]. intros B. inversion B as [p' H|e' p' E|e' j' p' q' B' Np E]; [exact H| |]; destruct e'; discriminate.
      + intros n. pose proof (init_table n) as G. destruct (od_get _ _ n) as [z|]; [|exact G]. destruct G as (i & -> & B).
        exists i. split; [|exact B]. apply position_of_nat. inversion B as [i' p Hi _ _| |]; [apply nth_error_Some; congruence| |]; destruct h0; discriminate.
    - cbv zeta in IH. destruct IH as (L & R & T). unfold phistory in *. rewrite fold_left_app. cbn [fold_left].
      set (pl := fold_left (pstep h) ops (new_plist h rs)) in *.
      assert (E : effective (length rs) (ops ++ [op]) = effective (length rs) ops ++
                  match fst op with PInt z => match position (length rs) z with Some i => [(i, snd op)] | None => [] end | _ => [] end).
      { unfold effective. rewrite flat_map_app. cbn [flat_map]. rewrite app_nil_r. reflexivity. }
      rewrite E. clear E. destruct op as [[z|s|] r]; cbn [fst snd].
      2,3: rewrite app_nil_r; exact (conj L (conj R T)).
      unfold pstep. cbn [fst snd pset]. rewrite L. destruct (position (length rs) z) as [k|] eqn:Pz; [|rewrite app_nil_r; exact (conj L (conj R T))].
      cbn [refs table]. pose proof (position_lt _ _ _ Pz) as Lk. split; [rewrite upd_nth_length; exact L|]. split.
      + intros i p. destruct (Nat.eq_dec k i) as [<-|N].
        * rewrite upd_nth_same by lia. split.
          -- intros H. inversion H; subst. apply stands_new.
          -- intros B. apply stands_snoc_inv in B. destruct B as [[_ ->]|[B _]]; [reflexivity|contradiction].
        * rewrite upd_nth_other by exact N. rewrite R. split.
          -- intros B. apply stands_old; [exact B|exact N].
          -- intros B. apply stands_snoc_inv in B. destruct B as [[B _]|[_ B]]; [contradiction|exact B].
      + intros n. rewrite (od_get_set _ String.eqb_spec). destruct (String.eqb_spec n (name_of h r)) as [->|N].
        * exists k. split; [exact Pz|]. apply bound_new. reflexivity.
        * specialize (T n). destruct (od_get String.eqb (table pl) n) as [z'|].
          -- destruct T as (i & Pi & B). exists i. split; [exact Pi|]. apply bound_old; [exact B|]. unfold name. congruence.
          -- intros i B. apply bound_snoc_inv in B. destruct B as [[B _]|[_ B]]; [apply N; symmetry; exact B|exact (T i B)].
  Qed.
End History.

(** After any history, a name denotes the parameter standing at the position most recently given to a parameter of that name;
    other names raise KeyError; integers (negative ones from the end) denote the parameter at that position. *)
Theorem C58_lookup : forall h rs ops n, let pl := phistory h rs ops in let e := effective (length rs) ops in
  (forall i p, bound (name_of h) rs n e i -> stands rs i e p -> pget pl (PStr n) = Ok p) /\
  ((forall i, ~ bound (name_of h) rs n e i) -> pget pl (PStr n) = Err KeyError) /\
  (forall p, pget pl (PStr n) = Ok p -> exists i, bound (name_of h) rs n e i /\ stands rs i e p) /\
  plen pl = length rs.
Proof.
  intros h rs ops n pl e. destruct (history_inv h rs ops) as (L & R & T). fold pl in L, R, T. fold e in R, T. specialize (T n).
  assert (U : forall i j, bound (name_of h) rs n e i -> bound (name_of h) rs n e j -> i = j).
  { clear. induction e as [|[k q] e IH] using rev_ind; intros i j A B.
    - inversion A as [i' p Hi Ni Mi| |]; [|destruct h0; discriminate..]. inversion B as [j' q Hj Nj Mj| |]; [|destruct h0; discriminate..].
      subst. pose proof (Mi _ _ Hj ltac:(assumption)). pose proof (Mj _ _ Hi ltac:(congruence)). lia.
    - apply bound_snoc_inv in A. apply bound_snoc_inv in B. destruct A as [[A ->]|[A A']]; destruct B as [[B ->]|[B B']]; try contradiction; auto. }
  split; [|split; [|split]].
  - intros i p Bi St. cbn [pget]. destruct (od_get String.eqb (table pl) n) as [z|]; [|exfalso; exact (T i Bi)].
    destruct T as (i' & Pz & Bi'). rewrite (U _ _ Bi Bi') in *. unfold list_get. rewrite L, Pz. apply R in St. rewrite St. reflexivity.
  - intros N. cbn [pget]. destruct (od_get String.eqb (table pl) n) as [z|]; [|reflexivity]. destruct T as (i & _ & B). exfalso. exact (N i B).
  - intros p. cbn [pget]. destruct (od_get String.eqb (table pl) n) as [z|]; [|discriminate]. destruct T as (i & Pz & B).
    unfold list_get. rewrite L, Pz. destruct (nth_error (refs pl) i) as [q|] eqn:E; [|discriminate]. intros Q. inversion Q; subst.
    exists i. split; [exact B|]. apply R. exact E.
  - exact L.
Qed.
Print Assumptions C58_lookup.

Theorem C58_index : forall h rs ops z, let pl := phistory h rs ops in let e := effective (length rs) ops in
  let n := Z.of_nat (length rs) in
  (forall p, pget pl (PInt z) = Ok p <-> ((- n <= z < n)%Z /\ stands rs (Z.to_nat (if (z <? 0)%Z then n + z else z)%Z) e p)) /\
  (~ (- n <= z < n)%Z -> pget pl (PInt z) = Err IndexError).
Proof.
  intros h rs ops z pl e n. destruct (history_inv h rs ops) as (L & R & _). fold pl in L, R. fold e in R.
  cbn [pget]. unfold list_get, position. rewrite L. fold n.
  destruct (Z.leb_spec 0 z) as [P|P].
  - destruct (Z.ltb_spec z 0); [lia|]. destruct (Z.ltb_spec z n) as [Q|Q].
    + assert (Lz : Z.to_nat z < length (refs pl)) by lia. split; [|lia]. intros p. rewrite <- (R (Z.to_nat z) p).
      destruct (nth_error (refs pl) (Z.to_nat z)) as [q|] eqn:E; [|apply nth_error_None in E; lia].
      split; [intros G; split; [lia|congruence]|intros [_ G]; congruence].
    + split; [|reflexivity]. intros p. split; [discriminate|lia].
  - destruct (Z.ltb_spec z 0); [|lia]. destruct (Z.leb_spec 0 (n + z)) as [Q|Q].
    + assert (Lz : Z.to_nat (n + z) < length (refs pl)) by lia. split; [|lia]. intros p. rewrite <- (R (Z.to_nat (n + z)) p).
      destruct (nth_error (refs pl) (Z.to_nat (n + z))) as [q|] eqn:E; [|apply nth_error_None in E; lia].
      split; [intros G; split; [lia|congruence]|intros [_ G]; congruence].
    + split; [|reflexivity]. intros p. split; [discriminate|lia].
Qed.
Print Assumptions C58_index.

(** Distinct names at construction and no renaming assignment: name and index access agree, in both directions. *)
Theorem C58_agree : forall h rs ops, NoDup (map (name_of h) rs) -> renames_nothing (name_of h) rs (effective (length rs) ops) ->
  let pl := phistory h rs ops in
  (forall i p, pget pl (PInt (Z.of_nat i)) = Ok p -> pget pl (PStr (name_of h p)) = Ok p) /\
  (forall n p, pget pl (PStr n) = Ok p -> name_of h p = n) /\
  (forall n, pget pl (PStr n) = Err KeyError <-> ~ In n (map (name_of h) rs)).
Proof.
  intros h rs ops ND RN pl. set (e := effective (length rs) ops) in *.
  assert (Inv : (forall i p, stands rs i e p -> bound (name_of h) rs (name_of h p) e i) /\
                (forall n i p, bound (name_of h) rs n e i -> stands rs i e p -> name_of h p = n) /\
                (forall n, (exists i, bound (name_of h) rs n e i) <-> In n (map (name_of h) rs)) /\
                (forall i, (exists p, stands rs i e p) <-> i < length rs)).
  { assert (SF : forall e i p q, stands rs i e p -> stands rs i e q -> p = q).
    { clear. induction e as [|[k r] e IH] using rev_ind; intros i p q A B.
      - inversion A as [p' Hp| |]; [|destruct h; discriminate..]. inversion B as [q' Hq| |]; [|destruct h; discriminate..]. congruence.
      - apply stands_snoc_inv in A. apply stands_snoc_inv in B. destruct A as [[A ->]|[A A']]; destruct B as [[B ->]|[B B']]; try contradiction; eauto. }
    assert (Dist : forall i j p q, nth_error rs i = Some p -> nth_error rs j = Some q -> name_of h p = name_of h q -> i = j).
    { intros i j p q Hi Hj E. eapply (proj1 (NoDup_nth_error (map (name_of h) rs)) ND).
      - rewrite map_length. apply nth_error_Some. congruence.
      - rewrite !nth_error_map, Hi, Hj. cbn. congruence. }
    induction RN as [|e' i p q RN IH St Np].
    - split; [|split; [|split]].
      + intros i p B. inversion B as [p' Hp| |]; [|destruct h0; discriminate..]. subst. eapply bound_init; [exact Hp|reflexivity|].
        intros j q Hj E. rewrite (Dist _ _ _ _ Hj Hp E). lia.
      + intros n i p B A. inversion A as [p' Hp| |]; [|destruct h0; discriminate..]. inversion B as [i' q Hi Ni _| |]; [|destruct h0; discriminate..]. congruence.
      + intros n. split.
        * intros [i B]. inversion B as [i' q Hi Ni _| |]; [|destruct h0; discriminate..]. subst. apply in_map. eapply nth_error_In; exact Hi.
        * intros Hin. apply in_map_iff in Hin. destruct Hin as (p & <- & Hin). apply In_nth_error in Hin. destruct Hin as [i Hi].
          exists i. eapply bound_init; [exact Hi|reflexivity|]. intros j q Hj E. rewrite (Dist _ _ _ _ Hj Hi E). lia.
      + intros i. split.
        * intros [p A]. inversion A as [p' Hp| |]; [|destruct h0; discriminate..]. apply nth_error_Some. congruence.
        * intros Hi. apply nth_error_Some in Hi. destruct (nth_error rs i) as [p|] eqn:E; [|congruence]. exists p. constructor. exact E.
    - destruct IH as (I1 & I2 & I3 & I4). split; [|split; [|split]].
      + intros j r A. apply stands_snoc_inv in A. destruct A as [[-> ->]|[N A]]; [apply bound_new; reflexivity|].
        apply bound_old; [apply I1; exact A|]. intros E.
        (* r and q have the same name but stand at different places *)
        pose proof (I1 _ _ A) as B1. pose proof (I1 _ _ St) as B2. rewrite <- Np, E in B2.
        assert (U : forall n e i j, bound (name_of h) rs n e i -> bound (name_of h) rs n e j -> i = j).
        { clear. intros n. induction e as [|[k q] e IH] using rev_ind; intros i j A B.
          - inversion A as [i' p Hi Ni Mi| |]; [|destruct h0; discriminate..]. inversion B as [j' q Hj Nj Mj| |]; [|destruct h0; discriminate..].
            subst. pose proof (Mi _ _ Hj ltac:(assumption)). pose proof (Mj _ _ Hi ltac:(congruence)). lia.
          - apply bound_snoc_inv in A. apply bound_snoc_inv in B. destruct A as [[A ->]|[A A']]; destruct B as [[B ->]|[B B']]; try contradiction; auto. }
        apply N. exact (U _ _ _ _ B2 B1).
      + intros n j r B A. apply bound_snoc_inv in B. apply stands_snoc_inv in A.
        destruct A as [[Eij ->]|[N A]]; destruct B as [[B Ej]|[B B']]; try congruence.
        * subst j. rewrite Np. exact (I2 _ _ _ B' St).
        * eauto.
      + intros n. rewrite <- I3. split.
        * intros [j B]. apply bound_snoc_inv in B. destruct B as [[<- ->]|[_ B]]; [|eauto]. exists i. rewrite Np. apply I1. exact St.
        * intros [j B]. destruct (string_dec (name_of h p) n) as [E|N]; [exists i; apply bound_new; exact E|exists j; apply bound_old; assumption].
      + intros j. rewrite <- I4. split.
        * intros [r A]. apply stands_snoc_inv in A. destruct A as [[<- ->]|[_ A]]; eauto.
        * intros [r A]. destruct (Nat.eq_dec i j) as [<-|N]; [exists p; apply stands_new|exists r; apply stands_old; assumption]. }
  destruct Inv as (I1 & I2 & I3 & I4). split; [|split].
  - intros i p G. pose proof (proj1 (C58_index h rs ops (Z.of_nat i)) p) as [X _]. cbv zeta in X. destruct (X G) as [Rg St]. clear X.
    destruct (Z.ltb_spec (Z.of_nat i) 0); [lia|]. rewrite Nat2Z.id in St.
    exact (proj1 (C58_lookup h rs ops (name_of h p)) i p (I1 _ _ St) St).
  - intros n p G. destruct (C58_lookup h rs ops n) as (_ & _ & X & _). destruct (X p G) as (i & B & St). exact (I2 _ _ _ B St).
  - intros n. destruct (C58_lookup h rs ops n) as (X1 & X2 & X3 & _). split.
    + intros G Hin. apply I3 in Hin. destruct Hin as [i B].
      assert (Li : i < length rs).
      { clear -B. assert (Q : forall e, e = effective (length rs) ops -> forall i, bound (name_of h) rs n e i -> i < length rs); [|exact (Q _ eq_refl _ B)].
        intros e' E'. assert (F : Forall (fun a => fst a < length rs) e').
        { subst e'. unfold effective. rewrite Forall_forall. intros [k q] Hin. apply in_flat_map in Hin. destruct Hin as ([[z|s|] r] & _ & Hin); cbn [fst snd] in Hin; try contradiction.
          destruct (position (length rs) z) eqn:P; [|contradiction]. destruct Hin as [D|[]]. inversion D; subst. exact (position_lt _ _ _ P). }
        clear E' B i. induction 1 as [i p Hi| |e2 i j p B IH N].
        - apply nth_error_Some. congruence.
        - apply Forall_app in F. destruct F as [_ F]. inversion F; assumption.
        - apply Forall_app in F. destruct F as [F _]. auto. }
      apply I4 in Li. destruct Li as [p St]. fold pl in X1. rewrite (X1 i p B St) in G. discriminate.
    + intros N. apply X2. intros i B. apply N. apply I3. eauto.
Qed.
Print Assumptions C58_agree.

(** Replacing a parameter by one with another name leaves the old name behind: it now gives a parameter of a different name. *)
Theorem C58_stale_name_refuted : forall h a b, name_of h a <> name_of h b ->
  let pl := phistory h [a] [(PInt 0%Z, b)] in pget pl (PStr (name_of h a)) = Ok b /\ pget pl (PInt 0%Z) = Ok b /\ pget pl (PStr (name_of h b)) = Ok b.
Proof.
  intros h a b N pl. unfold pl, phistory, pstep. cbn -[name_of String.eqb].
  destruct (String.eqb_spec (name_of h b) (name_of h a)) as [E|_]; [congruence|]. cbn -[name_of String.eqb].
  destruct (String.eqb_spec (name_of h a) (name_of h a)); [|congruence].
  destruct (String.eqb_spec (name_of h b) (name_of h a)); [congruence|].
  destruct (String.eqb_spec (name_of h b) (name_of h b)); [|congruence]. auto.
Qed.
Print Assumptions C58_stale_name_refuted.

(** numpy integers work as subscripts of assignments but not of reads; strings the other way round. *)
Theorem C58_subscripts : forall h pl r, pget pl POther = Err KeyError /\ (forall s, pset h pl (PStr s) r = Err TypeError) /\ pset h pl POther r = Err TypeError /\
  (forall z, (z < - Z.of_nat (plen pl) \/ Z.of_nat (plen pl) <= z)%Z -> pset h pl (PInt z) r = Err IndexError /\ pget pl (PInt z) = Err IndexError).
Proof.
  intros. split; [reflexivity|]. split; [reflexivity|]. split; [reflexivity|]. intros z Hz. unfold plen in Hz. cbn [pset pget]. unfold list_get.
  replace (position (length (refs pl)) z) with (@None nat); [auto|]. unfold position. destruct (Z.leb_spec 0 z); [destruct (Z.ltb_spec z (Z.of_nat (length (refs pl)))); [lia|reflexivity]|]. destruct (Z.leb_spec 0 (Z.of_nat (length (refs pl)) + z)); [lia|reflexivity].
Qed.
Print Assumptions C58_subscripts.
(** A new parameter has the given value and name, or the name of its class. *)
Theorem C58_new : forall v n, p_value (new_param v n) = v /\ p_name (new_param v n) = match n with Some n => n | None => "Param"%string end.
Proof. intros. split; reflexivity. Qed.
Print Assumptions C58_new.

(** set_values on distinct parameters of matching shapes: afterwards [values] is what was given (truncated in integer
    parameters); names, other parameters and the list stay. *)
Definition same_shape (a v : arr) : Prop := match a, v with Scalar _ _, Scalar _ _ => True | Vector _ xs, Vector _ ys => length xs = length ys | _, _ => False end.
Definition converted (a v : arr) : arr := match a, v with
  | Scalar t _, Scalar _ x => Scalar t (cast t x) | Vector t _, Vector _ ys => Vector t (map (cast t) ys) | _, _ => a end.
Lemma set_value_same a v : same_shape a v -> set_value a v = Ok (converted a v).
Proof.
  destruct a as [t x|t xs]; destruct v as [u y|u ys]; cbn [same_shape]; try contradiction; intros H; [reflexivity|].
  cbn [set_value converted]. destruct ys as [|y [|y2 ys]].
  - destruct xs; [reflexivity|discriminate].
  - destruct xs as [|x [|x2 xs]]; try discriminate. reflexivity.
  - rewrite H, Nat.eqb_refl. reflexivity.
Qed.
Theorem C58_set_values : forall h pl vs, NoDup (refs pl) -> Forall (fun r => r < length h) (refs pl) ->
  Forall2 (fun r v => same_shape (value_of h r) v) (refs pl) vs ->
  exists h', set_values h pl vs = (Ok tt, h') /\ length h' = length h /\
    (forall r, name_of h' r = name_of h r) /\ (forall r, ~ In r (refs pl) -> nth_error h' r = nth_error h r) /\
    Forall2 (fun a b => b = a) (map (fun rv => converted (value_of h (fst rv)) (snd rv)) (combine (refs pl) vs)) (pvalues h' pl).
Proof.
  intros h pl vs ND W F. unfold set_values, plen, pvalues.
  assert (L : length vs = length (refs pl)) by (clear -F; induction F; cbn [length]; congruence). rewrite L, Nat.eqb_refl. clear L.
  revert h W ND vs F. induction (refs pl) as [|r rs IH]; intros h W ND vs F.
  - exists h. inversion F; subst. cbn. repeat split; auto. 
  - inversion F as [|? v ? vs' S1 F']; subst. inversion W as [|? ? Wr Wrs]; subst. inversion ND as [|? ? Nr NDr]; subst.
    cbn [set_each]. unfold store_value. destruct (nth_error h r) as [p|] eqn:E; [|apply nth_error_None in E; lia].
    assert (Vp : value_of h r = p_value p) by (unfold value_of; rewrite E; reflexivity).
    rewrite <- Vp, (set_value_same _ _ S1). cbn [bind].
    set (h1 := upd_nth h r {| p_name := p_name p; p_value := converted (value_of h r) v |}).
    assert (V1 : forall q, q <> r -> nth_error h1 q = nth_error h q) by (intros q Hq; apply upd_nth_other; congruence).
    assert (V2 : forall q, q <> r -> value_of h1 q = value_of h q) by (intros q Hq; unfold value_of; rewrite V1 by exact Hq; reflexivity).
    destruct (IH h1) with (vs := vs') as (h' & R & Lh & Nm & Oth & Vals).
    + unfold h1. rewrite upd_nth_length. exact Wrs.
    + exact NDr.
    + clear -F' V2 Nr. induction F' as [|q v0 qs vs0 S2 F0 IH]; constructor.
      * rewrite V2; [exact S2|]. intros ->. apply Nr. left. reflexivity.
      * apply IH. intros Hin. apply Nr. right. exact Hin.
    + exists h'. split; [exact R|]. split; [rewrite Lh; unfold h1; apply upd_nth_length|]. split; [|split].
      * intros q. rewrite Nm. unfold name_of. destruct (Nat.eq_dec q r) as [->|Nq]; [|rewrite V1 by exact Nq; reflexivity].
        unfold h1. rewrite upd_nth_same by exact Wr. rewrite E. reflexivity.
      * intros q Nq. rewrite Oth by (intros H; apply Nq; right; exact H). apply V1. intros ->. apply Nq. left. reflexivity.
      * cbn [combine map fst snd]. constructor.
        -- unfold value_of. rewrite Oth by exact Nr. unfold h1. rewrite upd_nth_same by exact Wr. reflexivity.
        -- replace (map (fun rv => converted (value_of h (fst rv)) (snd rv)) (combine rs vs')) with (map (fun rv => converted (value_of h1 (fst rv)) (snd rv)) (combine rs vs')).
           ++ exact Vals.
           ++ apply map_ext_in. intros [q v'] Hin. cbn [fst snd]. rewrite V2; [reflexivity|]. intros ->. apply in_combine_l in Hin. contradiction.
Qed.
Print Assumptions C58_set_values.

(** The wrong number of values raises AssertionError and changes nothing. *)
Theorem C58_set_values_length : forall h pl vs, length vs <> length (refs pl) -> set_values h pl vs = (Err AssertionError, h).
Proof. intros h pl vs N. unfold set_values, plen. destruct (Nat.eqb_spec (length vs) (length (refs pl))); [contradiction|reflexivity]. Qed.
Print Assumptions C58_set_values_length.

(** A parameter created from an integer keeps integer type: it silently truncates what is set later. *)
Theorem C58_integer_parameter_refuted : exists h pl, set_values [new_param (Scalar true 1%Q) (Some "sigma_8"%string)] (phistory [new_param (Scalar true 1%Q) (Some "sigma_8"%string)] [0] []) [Scalar false (7 # 10)%Q] = (Ok tt, h) /\
  pl = phistory [new_param (Scalar true 1%Q) (Some "sigma_8"%string)] [0] [] /\ pvalues h pl = [Scalar true 0%Q].
Proof. eexists. eexists. split; [reflexivity|]. split; reflexivity. Qed.
Print Assumptions C58_integer_parameter_refuted.

(** When one value does not fit, the parameters before it are already changed. *)
Theorem C58_interrupted_update : forall h a b rest v w vs p q e, a <> b -> nth_error h a = Some p -> nth_error h b = Some q ->
  same_shape (p_value p) v -> set_value (p_value q) w = Err e -> length vs = length rest ->
  exists h', set_values h {| refs := a :: b :: rest; table := [] |} (v :: w :: vs) = (Err e, h') /\ value_of h' a = converted (p_value p) v /\ value_of h' b = p_value q.
Proof.
  intros h a b rest v w vs p q e N Ha Hb S1 E L. unfold set_values, plen. cbn [refs length]. rewrite L, Nat.eqb_refl.
  cbn [set_each]. unfold store_value at 1. rewrite Ha, (set_value_same _ _ S1). cbn [bind].
  unfold store_value. rewrite upd_nth_other by exact N. rewrite Hb, E. cbn [bind].
  eexists. split; [reflexivity|]. unfold value_of. split.
  - rewrite upd_nth_same; [reflexivity|]. apply nth_error_Some. congruence.
  - rewrite upd_nth_other by exact N. rewrite Hb. reflexivity.
Qed.
Print Assumptions C58_interrupted_update.
(** In general: an update that fails has stored exactly the values before the one that does not fit; that parameter, all later ones and all
    parameters outside the list are as before; names never change. *)
Theorem C58_update_prefix : forall h pl vs e h', NoDup (refs pl) -> Forall (fun r => r < length h) (refs pl) -> length vs = length (refs pl) ->
  set_values h pl vs = (Err e, h') ->
  exists done r rest vdone v vrest, refs pl = (done ++ r :: rest)%list /\ vs = (vdone ++ v :: vrest)%list /\ length done = length vdone /\
    set_value (value_of h r) v = Err e /\ Forall2 (fun r v => set_value (value_of h r) v = Ok (value_of h' r)) done vdone /\
    (forall r', ~ In r' done -> nth_error h' r' = nth_error h r') /\ (forall r', name_of h' r' = name_of h r').
Proof.
  intros h pl vs e h' Hnd Hin Hlen. unfold set_values, plen. rewrite Hlen, Nat.eqb_refl. revert Hnd Hin Hlen. generalize (refs pl). clear pl.
  intros rs Hnd Hin Hlen H. revert h vs Hnd Hin Hlen H. induction rs as [|r rs IH]; intros h vs Hnd Hin Hlen H; destruct vs as [|v vs]; try discriminate.
  cbn [set_each] in H. inversion Hnd as [|? ? Hr Hnd']; subst. inversion Hin as [|? ? Hlt Hin']; subst. injection Hlen as Hlen.
  unfold store_value in H. destruct (nth_error h r) as [p|] eqn:Ep; [|apply nth_error_None in Ep; lia].
  assert (Ev : value_of h r = p_value p) by (unfold value_of; now rewrite Ep).
  destruct (set_value (p_value p) v) as [a|e'] eqn:Es; cbn [bind] in H.
  - set (h1 := upd_nth h r {| p_name := p_name p; p_value := a |}) in *.
    assert (Ho : forall r', r' <> r -> nth_error h1 r' = nth_error h r') by (intros; apply upd_nth_other; congruence).
    assert (Hs : nth_error h1 r = Some {| p_name := p_name p; p_value := a |}) by (apply upd_nth_same; assumption).
    assert (Hl1 : length h1 = length h) by apply upd_nth_length.
    destruct (IH h1 vs Hnd') as (dn & r0 & rest & vdn & v0 & vrest & E1 & E2 & E3 & E4 & E5 & E6 & E7).
    + rewrite Hl1. assumption.
    + assumption.
    + assumption.
    + assert (Hrr : forall x, In x rs -> x <> r) by (intros x Hx ->; contradiction).
      assert (Hd : forall x, In x dn -> x <> r) by (intros x Hx; apply Hrr; rewrite E1; apply in_or_app; now left).
      exists (r :: dn), r0, rest, (v :: vdn), v0, vrest. split; [now rewrite E1|]. split; [now rewrite E2|]. split; [cbn; congruence|].
      split; [|split; [|split]].
      * rewrite <- E4. unfold value_of. rewrite Ho; [reflexivity|]. apply Hrr. rewrite E1. apply in_or_app. right. now left.
      * constructor.
        -- rewrite Ev, Es. unfold value_of. rewrite E6 by (intro Hx; now apply (Hd r)). rewrite Hs. reflexivity.
        -- assert (Hd' : forall x, In x dn -> value_of h x = value_of h1 x) by (intros x Hx; unfold value_of; rewrite Ho; [reflexivity|auto]).
           clear - E5 Hd'. induction E5 as [|x y l l' Hxy E5 IH]; [constructor|]. constructor; [rewrite Hd' by (now left); assumption|]. apply IH. intros; apply Hd'; now right.
      * intros r' Hr'. rewrite E6 by (intro; apply Hr'; now right). apply Ho. intros ->. apply Hr'. now left.
      * intro r'. rewrite E7. unfold name_of. destruct (Nat.eq_dec r' r) as [->|Hn]; [now rewrite Hs, Ep|now rewrite Ho].
  - injection H as <- <-. exists [], r, rs, [], v, vs. repeat split; try constructor. now rewrite Ev.
Qed.
Print Assumptions C58_update_prefix.

(** Non-vacuity. *)
Example C58_example : let h := map (fun n => new_param (Scalar false (1 # 2)) (Some n)) ["hubble"; "omega_m0"; "t_cmb"; "omega_m0"]%string in
  let pl := phistory h [0; 1; 2] [(PInt 1%Z, 3); (PInt (-1)%Z, 2); (PStr "hubble", 3); (PInt 7%Z, 0)] in
  map (pget pl) [PStr "hubble"; PStr "omega_m0"; PStr "t_cmb"; PStr "x"; PInt (-2)%Z; PInt 3%Z] =
    [Ok 0; Ok 3; Ok 2; Err KeyError; Ok 3; Err IndexError] /\ NoDup (map (name_of h) [0; 1; 2]).
Proof. split; [reflexivity|]. cbn. repeat constructor; cbn; intuition discriminate. Qed.
(** What assigning a value does to a parameter: shape and element type never change, a single number (or a one-element vector)
    fills every entry, a vector of the same length is copied, anything else is a ValueError; integer parameters round toward 0. *)
Definition entries (a : arr) : list Q := match a with Scalar _ x => [x] | Vector _ xs => xs end.
Definition is_int (a : arr) : bool := match a with Scalar t _ | Vector t _ => t end.
Definition is_scalar (a : arr) : bool := match a with Scalar _ _ => true | Vector _ _ => false end.
Definition toward_zero (x y : Q) : Prop := (exists z, y = inject_Z z) /\ (0 <= x * y)%Q /\ (Qabs.Qabs y <= Qabs.Qabs x)%Q /\ (Qabs.Qabs (x - y) < 1)%Q.
Lemma trunc_toward_zero x : toward_zero x (trunc x).
Proof.
  unfold toward_zero, trunc. destruct (Qle_bool 0 x) eqn:P.
  - apply Qle_bool_iff in P. pose proof (Qfloor_le x) as L. pose proof (Qlt_floor x) as U. assert (Z0 : (0 <= Qfloor x)%Z). { change 0%Z with (Qfloor 0). apply Qfloor_resp_le, P. }
    assert (Y : (0 <= inject_Z (Qfloor x))%Q) by (change 0%Q with (inject_Z 0); rewrite <- Zle_Qle; exact Z0). rewrite inject_Z_plus in U. change (inject_Z 1) with 1%Q in U.
    split; [eauto|]. split; [apply Qmult_le_0_compat; assumption|]. rewrite !Qabs.Qabs_pos by Lqa.lra. split; Lqa.lra.
  - assert (N : (x < 0)%Q) by (apply Qnot_le_lt; intros H; apply Qle_bool_iff in H; congruence). pose proof (Qle_ceiling x) as L. pose proof (Qceiling_lt x) as U.
    assert (Z0 : (Qceiling x <= 0)%Z). { change 0%Z with (Qceiling 0). apply Qceiling_resp_le. Lqa.lra. }
    assert (Y : (inject_Z (Qceiling x) <= 0)%Q) by (change 0%Q with (inject_Z 0); rewrite <- Zle_Qle; exact Z0). unfold Z.sub in U. rewrite inject_Z_plus in U. change (inject_Z (-(1))) with (-(1))%Q in U.
    split; [eauto|]. split; [setoid_replace (x * inject_Z (Qceiling x))%Q with ((- x) * (- inject_Z (Qceiling x)))%Q by ring; apply Qmult_le_0_compat; Lqa.lra|].
    rewrite !Qabs.Qabs_neg by Lqa.lra. split; Lqa.lra.
Qed.
Theorem C58_assignment : forall a v : arr, let fits := is_scalar v = true \/ length (entries v) = 1 \/ (is_scalar a = false /\ length (entries v) = length (entries a)) in
  match set_value a v with
  | Ok b => fits /\ is_int b = is_int a /\ is_scalar b = is_scalar a /\ length (entries b) = length (entries a) /\
      forall i, i < length (entries a) -> let given := nth (if Nat.eqb (length (entries v)) 1 then 0 else i) (entries v) 0%Q in let got := nth i (entries b) 0%Q in
        if is_int a then toward_zero given got else got = given
  | Err e => e = ValueError /\ ~ fits
  end.
Proof.
  assert (C : forall (t : bool) x, if t then toward_zero x (cast t x) else cast t x = x) by (intros [] x; [apply trunc_toward_zero|reflexivity]).
  assert (CM : forall (t : bool) (ys : list Q) i, i < length ys -> let g := nth i ys 0%Q in let o := nth i (map (cast t) ys) 0%Q in if t then toward_zero g o else o = g).
  { intros t ys i Hi. cbv zeta. rewrite (nth_indep (map (cast t) ys) 0%Q (cast t 0%Q)) by (rewrite map_length; exact Hi). rewrite map_nth. apply C. }
  assert (CK : forall (t : bool) (xs : list Q) x i, i < length xs -> let o := nth i (map (fun _ : Q => cast t x) xs) 0%Q in if t then toward_zero x o else o = x).
  { intros t xs x i Hi. cbv zeta. rewrite (nth_indep (map (fun _ : Q => cast t x) xs) 0%Q ((fun _ : Q => cast t x) 0%Q)) by (rewrite map_length; exact Hi). rewrite (map_nth (fun _ : Q => cast t x) xs 0%Q i). apply C. }
  intros a v. destruct a as [t x|t xs]; destruct v as [u y|u ys]; cbn [set_value].
  - cbn [is_scalar is_int entries length]. split; [auto|]. do 3 (split; [reflexivity|]). intros [|i] Hi; [apply C|lia].
  - destruct ys as [|y [|y2 ys]]; cbn [is_scalar is_int entries length].
    + split; [reflexivity|]. intros [H|[H|[H _]]]; discriminate.
    + split; [auto|]. do 3 (split; [reflexivity|]). intros [|i] Hi; [apply C|lia].
    + split; [reflexivity|]. intros [H|[H|[H _]]]; discriminate.
  - cbn [is_scalar is_int entries length]. split; [auto|]. rewrite map_length. do 3 (split; [reflexivity|]). intros i Hi. apply CK, Hi.
  - destruct ys as [|y [|y2 ys]]; cbn [set_value].
    + cbn [length]. destruct (Nat.eqb_spec 0 (length xs)) as [E|N]; cbn [is_scalar is_int entries length].
      * split; [auto|]. rewrite <- E. do 3 (split; [reflexivity|]). intros i Hi. lia.
      * split; [reflexivity|]. intros [H|[H|[_ H]]]; [discriminate|discriminate|contradiction].
    + cbn [is_scalar is_int entries length]. rewrite map_length. split; [auto|]. do 3 (split; [reflexivity|]). intros i Hi. apply CK, Hi.
    + destruct (Nat.eqb_spec (length (y :: y2 :: ys)) (length xs)) as [E|N]; cbn [is_scalar is_int entries].
      * split; [auto|]. split; [reflexivity|]. split; [reflexivity|]. split; [rewrite map_length; exact E|]. intros i Hi. cbn [length Nat.eqb]. apply CM. rewrite E. exact Hi.
      * split; [reflexivity|]. intros [H|[H|[_ H]]]; [discriminate|discriminate|contradiction].
Qed.
Print Assumptions C58_assignment.
Example C58_assignment_case : set_value (Vector true [1; 2]%Q) (Vector false [(-7 # 2); 5 # 3]%Q) = Ok (Vector true [-3 # 1; 1]%Q) /\ set_value (Scalar false 0%Q) (Vector false [1; 2]%Q) = Err ValueError.
Proof. split; reflexivity. Qed.
(** to_simple_repr: one pair per parameter of the list, in order, of its own name and value. *)
Theorem C58_repr : forall h pl, length (prepr h pl) = length (refs pl) /\
  forall i r p, nth_error (refs pl) i = Some r -> nth_error h r = Some p -> nth_error (prepr h pl) i = Some (p_name p, p_value p).
Proof.
  intros h pl. unfold prepr. split; [apply map_length|]. intros i r p R P. rewrite nth_error_map, R. cbn. unfold name_of, value_of. rewrite P. reflexivity.
Qed.
Print Assumptions C58_repr.
