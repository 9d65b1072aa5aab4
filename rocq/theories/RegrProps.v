(** C70: regression on neighbours; C64: masked fractions (stats/regression.py). *)
From Coq Require Import QArith Qminmax Lqa Lia.
From Verif Require Import Base OrderSpec BinSpec BinModel BinProofs4 ReduSpec ReduModel ReduProofs NearSpec NearModel NearProofs RegrSpec RegrModel RegrProofs.
Local Open Scope list_scope. Local Open Scope nat_scope.

Local Lemma below {X} (dist : X -> X -> Q) tr k qs nbs n : Forall2 (fun q nb => nearest Qltb dist tr q k nb) qs nbs -> n = length tr -> Forall (ids_below n) nbs.
Proof. intros F ->. induction F; constructor; auto. now apply (nearest_below dist tr x k). Qed.

(** KernelRegressionND.by_knn with the mean: every prediction is the mean of the values of the k nearest training points -
    those strictly closer than [max_dx] if given - weighted with weight times kernel; the fill value if there is none.
    The only failure is k larger than the number of training points. *)
Theorem C70_knn_mean : forall X (dist : X -> X -> Q) tr y w k m K fill qs, length y = length tr -> (forall w', w = Some w' -> length w' = length tr) ->
  match knn_call dist tr y w k m K (One (SObj (RMean fill))) qs with
  | Err e => e = ValueError /\ length tr < k
  | Ok p => exists outs nbs, p_y p = [VN (V1 outs)] /\ p_named p = [("y_mean"%string, VN (V1 outs))] /\ length outs = length qs /\
      Forall2 (fun q nb => nearest Qltb dist tr q k nb) qs nbs /\
      forall i nb, nth_error nbs i = Some nb -> exists v, nth_error outs i = Some v /\
        (closer m nb = [] -> v = Fin fill) /\
        (closer m nb <> [] -> ~ (wsum (nb_weight w K) (closer m nb) == 0)%Q -> exists mu, v = Fin mu /\
           (mu * wsum (nb_weight w K) (closer m nb) == wsum (fun p => nth (snd p) y 0 * nb_weight w K p) (closer m nb))%Q)
  end.
Proof.
  intros X dist tr y w k m K fill qs Ly Lw. pose proof (queries dist tr k qs) as Q0.
  destruct (mapM (fun q => query Qltb dist tr q k) qs) as [nbs|e] eqn:E.
  - rewrite (knn_call_eq dist tr y w k m K (One (SObj (RMean fill))) qs nbs E); [|eapply below; eauto|intros w' ->; rewrite Ly; now apply Lw].
    unfold apply_all. cbn [iter mapM create bind]. destruct (knn_mean dist tr k qs nbs y w m K fill Q0) as (outs & Eo & L & H). rewrite Eo. cbn [rmap bind map snd].
    exists outs, nbs. split; [reflexivity|]. split; [reflexivity|]. split; [assumption|]. split; [assumption|].
    intros i nb N. destruct (H i nb N) as (v & Nv & Ev). exists v. split; [assumption|]. now apply mean_row.
  - unfold knn_call. rewrite E. cbn [bind]. assumption.
Qed.
Print Assumptions C70_knn_mean.
(** With non-negative weights that do not vanish the prediction lies between the extreme values of the neighbours used. *)
Theorem C70_mean_bounds : forall (y : list Q) w K (l : list (Q * nat)) mu lo hi, (forall p, In p l -> 0 <= nb_weight w K p)%Q -> (0 < wsum (nb_weight w K) l)%Q ->
  (mu * wsum (nb_weight w K) l == wsum (fun p => nth (snd p) y 0 * nb_weight w K p) l)%Q ->
  (forall p, In p l -> lo <= nth (snd p) y 0 /\ nth (snd p) y 0 <= hi)%Q -> (lo <= mu /\ mu <= hi)%Q.
Proof. intros. eapply wmean_bounds; eauto. Qed.
Print Assumptions C70_mean_bounds.
(** Several reductions at once: one value per reduction, each what it would be alone; the named entries hold the last value
    under each name. *)
Theorem C70_knn_each : forall X (dist : X -> X -> Q) tr y w k m K l qs p, length y = length tr -> (forall w', w = Some w' -> length w' = length tr) ->
  knn_call dist tr y w k m K (Many l) qs = Ok p ->
  exists ps, length ps = length l /\ p_y p = map snd ps /\
    (forall j s, nth_error l j = Some s -> exists n r v p', create s = Ok (n, r) /\ nth_error ps j = Some (n, v) /\
       knn_call dist tr y w k m K (One (SObj r)) qs = Ok p' /\ p_y p' = [v]) /\
    (forall n, od_get String.eqb (p_named p) (append "y_" n) = option_map snd (find (fun p => String.eqb (fst p) n) (rev ps))).
Proof.
  intros X dist tr y w k m K l qs p Ly Lw H. pose proof (queries dist tr k qs) as Q0.
  destruct (mapM (fun q => query Qltb dist tr q k) qs) as [nbs|e] eqn:E; [|unfold knn_call in H; rewrite E in H; discriminate].
  assert (B : Forall (ids_below (length y)) nbs) by (eapply below; eauto). assert (Lw' : forall w', w = Some w' -> length w' = length y) by (intros w' ->; rewrite Ly; now apply Lw).
  rewrite (knn_call_eq dist tr y w k m K (Many l) qs nbs E B Lw') in H.
  destruct (apply_all _ _ _ (iter (Many l))) as [ps|] eqn:A; [|discriminate]. cbn [bind] in H. assert (p = {| p_y := map snd ps; p_named := named ps |}) by congruence. subst p. clear H.
  exists ps. cbn [p_y p_named]. unfold apply_all in A. cbn [iter] in A. apply mapM_Ok in A. split; [symmetry; clear -A; induction A as [|? ? ? ? ? ? IH]; [reflexivity|cbn [length]; now rewrite IH]|]. split; [reflexivity|].
  split; [|intro n; apply named_get].
  intros j s Ns. assert (G : exists pv, nth_error ps j = Some pv /\ bind (create s) (fun '(n, r) => rmap (pair n) (reduce r (A2 k (map (row_y y) nbs)) (option_map (A2 k) (rows_w w K nbs)) (option_map (A2 k) (rows_m m nbs)))) = Ok pv).
  { clear -A Ns. revert j Ns. induction A as [|a b l l' H A IH]; intros [|j] Ns; try discriminate; cbn in *; [|now apply IH]. exists b. split; [reflexivity|]. congruence. }
  destruct G as ([n v] & Nv & G). destruct (create s) as [[n' r]|] eqn:C; [|discriminate]. cbn [bind] in G. destruct (reduce r _ _ _) as [v'|] eqn:R; [|discriminate].
  cbn [rmap] in G. assert (n' = n /\ v' = v) as [-> ->] by (split; congruence).
  exists n, r, v. eexists. split; [reflexivity|]. split; [assumption|].
  rewrite (knn_call_eq dist tr y w k m K (One (SObj r)) qs nbs E B Lw'). unfold apply_all. cbn [iter mapM create bind]. rewrite R. cbn [rmap bind map snd]. split; reflexivity.
Qed.
Print Assumptions C70_knn_each.

(** by_local_kernel: each reduction gets, for each query point, exactly the training points within the radius. *)
Theorem C70_local_each : forall X (dist : X -> X -> Q) tr y w r K l qs p, length y = length tr -> (forall w', w = Some w' -> length w' = length tr) ->
  local_call dist tr y w r K (Many l) qs = Ok p ->
  length (p_y p) = length l /\
  forall j s, nth_error l j = Some s -> exists n red col, create s = Ok (n, red) /\ nth_error (p_y p) j = Some col /\ length col = length qs /\
    forall i q, nth_error qs i = Some q -> exists v nb, nth_error col i = Some v /\ neighbours dist tr q nb /\
      (forall a x, nth_error tr a = Some x -> (In a (map snd nb) <-> (dist q x <= r)%Q)) /\
      local_call dist tr y w r K (One (SObj red)) [q] = Ok {| p_y := [[v]]; p_named := [(append "y_" (key_of red), [v])] |} /\
      match red with
      | RCount => v = VZ (S0 (Z.of_nat (length nb)))
      | RMean fill => exists u, v = VN (S0 u) /\ (nb = [] -> u = Fin fill) /\
          (nb <> [] -> ~ (wsum (nb_weight w K) nb == 0)%Q -> exists mu, u = Fin mu /\ (mu * wsum (nb_weight w K) nb == wsum (fun p => nth (snd p) y 0 * nb_weight w K p) nb)%Q)
      | RSum => exists s, v = VN (S0 (Fin s)) /\ (s == wsum (fun p => nth (snd p) y 0 * nb_weight w K p) nb)%Q
      | _ => True
      end.
Proof.
  intros X dist tr y w r K l qs p Ly Lw H. unfold local_call in H. cbn [iter iter_again] in H.
  destruct (mapM create l) as [names|] eqn:C; [|discriminate]. cbn [bind] in H.
  change (bind (mapM (local_one dist tr y w r K names) qs) (fun preds => bind (mapM (fun i => mapM (fun pred => match nth_error pred i with Some v => Ok v | None => Err IndexError end) preds) (seq 0 (length names))) (fun cols => Ok {| p_y := cols; p_named := named (combine (map fst names) cols) |})) = Ok p) in H.
  destruct (mapM (local_one dist tr y w r K names) qs) as [preds|] eqn:P; [|discriminate]. cbn [bind] in H.
  destruct (mapM _ (seq 0 (length names))) as [cols|] eqn:Cs; [|discriminate]. cbn [bind] in H. assert (p = {| p_y := cols; p_named := named (combine (map fst names) cols) |}) by congruence. subst p. clear H. cbn [p_y].
  apply mapM_Ok in C, P, Cs.
  assert (Ln : length names = length l) by (clear -C; induction C as [|? ? ? ? ? ? IH]; [reflexivity|cbn [length]; now rewrite IH]).
  assert (F2n : forall A B (R : A -> B -> Prop) la lb i a, Forall2 R la lb -> nth_error la i = Some a -> exists b, nth_error lb i = Some b /\ R a b).
  { intros A B R la lb i a F. revert i. induction F as [|x x' la lb Hx F IH]; intros [|i] N; try discriminate; cbn in *; [exists x'; split; [reflexivity|congruence]|now apply IH]. }
  assert (F2l : forall A B (R : A -> B -> Prop) la lb, Forall2 R la lb -> length lb = length la).
  { intros A B R la lb F. induction F; cbn; congruence. }
  split; [rewrite (F2l _ _ _ _ _ Cs), seq_length; assumption|].
  intros j s Ns. destruct (F2n _ _ _ _ _ j s C Ns) as ([n red] & Nn & Cr).
  assert (Lj : j < length names) by (apply nth_error_Some; congruence).
  assert (Nj : nth_error (seq 0 (length names)) j = Some j) by (rewrite (nth_error_nth' _ 0) by (rewrite seq_length; assumption); now rewrite seq_nth).
  destruct (F2n _ _ _ _ _ j j Cs Nj) as (col & Ncol & Ecol). apply mapM_Ok in Ecol.
  exists n, red, col. split; [assumption|]. split; [assumption|]. split; [rewrite (F2l _ _ _ _ _ Ecol); exact (F2l _ _ _ _ _ P)|].
  intros i q Nq. destruct (F2n _ _ _ _ _ i q P Nq) as (pred & Npred & Epred). destruct (F2n _ _ _ _ _ i pred Ecol Npred) as (v & Nv & Ev).
  destruct (nth_error pred j) as [v'|] eqn:Npj; [|discriminate]. assert (v' = v) by congruence. subst v'.
  rewrite local_one_eq in Epred by assumption. apply mapM_Ok in Epred.
  destruct (F2n _ _ _ _ _ j _ Epred Nn) as (v' & Nv' & R). assert (v' = v) by congruence. subst v'. cbn [snd] in R.
  destruct (radius_spec Qle_bool dist tr q r) as [N1 N2].
  exists v, (query_radius Qle_bool dist tr q r). split; [assumption|]. split; [assumption|]. split.
  { intros a x Na. rewrite (N2 a x Na). apply Qle_bool_iff. }
  set (nb := query_radius Qle_bool dist tr q r) in *. split.
  { rewrite local_call_eq. pose proof (local_one_eq dist tr y w r K [(key_of red, red)] q Ly Lw) as L1. fold nb in L1. cbn [mapM snd bind] in L1. rewrite R in L1. cbn [bind] in L1.
    change (mapM create (iter (One (SObj red)))) with (Ok [(key_of red, red)]). change (mapM create (iter_again (One (SObj red)))) with (Ok [(key_of red, red)]). cbn [bind].
    assert (M1 : mapM (local_one dist tr y w r K [(key_of red, red)]) [q] = Ok [[v]]) by (cbn [mapM]; rewrite L1; reflexivity). rewrite M1. reflexivity. }
  assert (Cl : forall f : Q * nat -> Q, wsum f (closer None nb) = wsum f nb) by reflexivity.
  destruct red; try exact I; cbn [reduce] in R.
  - unfold count in R. cbn [option_map] in R. pose proof (row_fits y w K None nb) as F. destruct F as [Fw _].
    assert (Lr : length (row_y y nb) = length nb) by apply map_length.
    destruct (row_w w K nb) as [wr|]; cbn [option_map] in R; unfold checked in R; cbn [same_shape nums amap andb count_impl] in R; rewrite ?map_length in R.
    + rewrite Fw, Nat.eqb_refl in R. cbn [andb rmap] in R. rewrite Lr in R. congruence.
    + cbn [rmap] in R. rewrite Lr in R. congruence.
  - destruct (sum_1d (row_y y nb) (row_w w K nb) (row_m None nb) (row_fits y w K None nb)) as (t & Et & Qt). exists t.
    assert (Es : sum (fin1 (row_y y nb)) (finw1 (row_w w K nb)) None = Ok (S0 (Fin t))).
    { unfold sum. pose proof (checked_fits (row_y y nb) (row_w w K nb) None (Ok (sum_impl (fin1 (row_y y nb)) (finw1 (row_w w K nb)) None)) (row_fits y w K None nb)) as Hc. transitivity (Ok (sum_impl (fin1 (row_y y nb)) (finw1 (row_w w K nb)) None)); [exact Hc|]. apply (f_equal (@Ok _)). exact Et. }
    unfold fin1, finw1 in Es. replace (option_map nums (option_map A1 (row_w w K nb))) with (option_map fin1 (row_w w K nb)) in R by (destruct (row_w w K nb); reflexivity).
    unfold nums in R. cbn [amap] in R. rewrite Es in R. cbn [rmap] in R. split; [congruence|]. rewrite Qt. destruct (row_dot y w K None nb) as [D _]. rewrite D. apply Qeq_refl.
  - replace (option_map nums (option_map A1 (row_w w K nb))) with (finw1 (row_w w K nb)) in R by (destruct (row_w w K nb); reflexivity).
    change (nums (A1 (row_y y nb))) with (fin1 (row_y y nb)) in R.
    destruct (mean (Fin fill) (fin1 (row_y y nb)) (finw1 (row_w w K nb)) None) as [o|] eqn:M; [|discriminate]. cbn [rmap] in R.
    assert (So : exists u, o = S0 u).
    { destruct (mean_1d (Fin fill) _ _ _ (row_fits y w K None nb)) as [M1 M2]. cbn [row_m option_map sel m1] in *.
      destruct (row_y y nb) as [|a t] eqn:Ry; [rewrite M1 in M by reflexivity; exists (Fin fill); congruence|].
      destruct M2 as (q1 & q2 & M2 & _); [discriminate|]. exists (ndiv (Fin q1) (Fin q2)). congruence. }
    destruct So as [u ->]. exists u. split; [congruence|]. exact (mean_row y w K None nb fill u M).
Qed.
Print Assumptions C70_local_each.

(** How reductions are given: a name, an instance, a (name, arguments) tuple, or a list; aliases. *)
Theorem C70_specs : (forall r, create (SObj r) = Ok (key_of r, r)) /\ (forall n, create (SStr n) = create (STuple [IStr n; IKw None])) /\
  (forall n f m r, create (STuple [IStr n; IKw f]) = Ok (m, r) -> m = n /\
     (key_of r = n \/ (n = "cnt" /\ r = RCount) \/ ((n = "std" \/ n = "sd") /\ key_of r = "std_dev") \/ (n = "qs" /\ key_of r = "quantile")))%string /\
  create (SStr "mean") = Ok ("mean"%string, RMean (-10000000000)).
Proof.
  split; [reflexivity|]. split; [reflexivity|]. split; [|reflexivity]. intros n f m r H. cbn [create] in H. unfold construct in H.
  repeat match type of H with context [if ?b then _ else _] => destruct b eqn:? end; try discriminate; cbn [rmap] in H; assert (m = n) by congruence; (split; [assumption|]);
  match goal with [ _ : Ok (n, ?x) = Ok _ |- _ ] => assert (r = x) by congruence; subst r end;
  repeat match goal with [ E : orb _ _ = true |- _ ] => apply Bool.orb_true_iff in E as [E|E] | [ E : String.eqb n _ = true |- _ ] => apply String.eqb_eq in E; rewrite E end; cbn; tauto.
Qed.
Print Assumptions C70_specs.
(** Finding: a tuple of two reductions is taken for a (name, arguments) pair and fails, although a list of the same works. *)
Theorem C70_tuple_refuted : forall X (dist : X -> X -> Q) tr y w k m K qs a b ra, length y = length tr -> (forall w', w = Some w' -> length w' = length tr) -> k <= length tr ->
  create (SStr a) = Ok ra -> knn_call dist tr y w k m K (One (STuple [IStr a; IStr b])) qs = Err TypeError.
Proof.
  intros X dist tr y w k m K qs a b ra Ly Lw Lk C. destruct (queries_ok dist tr k qs Lk) as [nbs E]. pose proof (queries dist tr k qs) as Q0. rewrite E in Q0.
  rewrite (knn_call_eq dist tr y w k m K _ qs nbs E); [|eapply below; eauto|intros w' ->; rewrite Ly; now apply Lw].
  unfold apply_all. cbn [iter mapM create bind]. cbn [create] in C. destruct (construct a None); [reflexivity|discriminate].
Qed.
Print Assumptions C70_tuple_refuted.
(** Finding: a generator of reductions works for the nearest neighbours, but with a radius it is exhausted after the first of
    two passes and every call fails. *)
Theorem C70_generator_refuted : forall X (dist : X -> X -> Q) tr y w k m K r l q qs, length y = length tr -> (forall w', w = Some w' -> length w' = length tr) ->
  knn_call dist tr y w k m K (Gen l) qs = knn_call dist tr y w k m K (Many l) qs /\
  (l <> [] -> match mapM create l with Ok _ => local_call dist tr y w r K (Gen l) (q :: qs) = Err IndexError | Err e => local_call dist tr y w r K (Gen l) (q :: qs) = Err e end).
Proof.
  intros X dist tr y w k m K r l q qs Ly Lw. split; [reflexivity|]. intro NE. destruct (mapM create l) as [names|e] eqn:C; unfold local_call; cbn [iter iter_again]; rewrite C; [|reflexivity].
  cbn [bind mapM]. change (bind (mapM (local_one dist tr y w r K []) (q :: qs)) (fun preds => bind (mapM (fun i => mapM (fun pred => match nth_error pred i with Some v => Ok v | None => Err IndexError end) preds) (seq 0 (length names))) (fun cols => Ok {| p_y := cols; p_named := named (combine (map fst names) cols) |})) = Err IndexError).
  assert (P : mapM (local_one dist tr y w r K []) (q :: qs) = Ok ([] :: map (fun _ => []) qs)).
  { apply mapM_Ok. constructor; [rewrite local_one_eq by assumption; reflexivity|]. clear -Ly Lw. induction qs; cbn; constructor; auto. rewrite local_one_eq by assumption. reflexivity. }
  rewrite P. cbn [bind]. apply mapM_Ok in C. destruct C as [|s nm l names Hs C]; [congruence|]. reflexivity.
Qed.
Print Assumptions C70_generator_refuted.

(** ** C64: the fraction of masked points near a query point *)
(** Values: masked weight over total weight of the neighbours that count (kernel included), the denominator raised to 1e-10. *)
Theorem C64_fraction : forall X (dist : X -> X -> Q) tr mask k m K w min_count qs, length mask = length tr -> (forall w', w = Some w' -> length w' = length tr) ->
  match masked_fraction dist tr mask k m K w min_count qs with
  | Err e => e = ValueError /\ length tr < k
  | Ok f => exists nbs, Forall2 (fun q nb => nearest Qltb dist tr q k nb) qs nbs /\ length (f_values f) = length qs /\
      f_invalid f = match m with
                    | Some _ => V1 (map (fun nb => (Z.of_nat (length (closer m nb)) <? min_count)%Z) nbs)
                    | None => S0 (Z.of_nat k <? min_count)%Z
                    end /\
      forall i nb, nth_error nbs i = Some nb -> exists v, nth_error (f_values f) i = Some v /\
        (v == wsum (fun p => if nth (snd p) mask false then nb_weight w K p else 0) (closer m nb) / Qmax (wsum (nb_weight w K) (closer m nb)) (1 # 10000000000))%Q
  end.
Proof.
  intros X dist tr mask k m K w min_count qs Lm Lw. unfold masked_fraction.
  set (weight := match w with Some w => w | None => repeat 1%Q (length tr) end).
  assert (L1 : length weight = length tr) by (unfold weight; destruct w; [now apply Lw|apply repeat_length]).
  rewrite L1, Lm, Nat.eqb_refl. cbn [negb]. set (masked := zipwith (fun (b : bool) a => ((if b then 1 else 0) * a)%Q) mask weight).
  assert (L2 : length masked = length tr).
  { unfold masked. rewrite BinProofs2.zipwith_length. lia. }
  pose proof (queries dist tr k qs) as Q0. destruct (mapM (fun q => query Qltb dist tr q k) qs) as [nbs|e] eqn:E.
  2:{ unfold knn_call. rewrite E. cbn [bind]. assumption. }
  assert (LE : length nbs = length qs) by (clear -Q0; induction Q0 as [|? ? ? ? ? ? IH]; [reflexivity|cbn [length]; now rewrite IH]).
  rewrite (knn_call_eq dist tr weight None k m K _ qs nbs E); [|eapply below; eauto|discriminate].
  rewrite (knn_call_eq dist tr masked None k m K _ qs nbs E); [|eapply below; eauto|discriminate].
  destruct (knn_sum dist tr k qs nbs weight None m K Q0) as (o1 & E1 & Lo1 & H1). destruct (knn_sum dist tr k qs nbs masked None m K Q0) as (o2 & E2 & Lo2 & H2).
  pose proof (knn_count dist tr k qs nbs weight None m K Q0) as E3.
  unfold apply_all. cbn [iter mapM create bind rmap]. change (construct "sum" None) with (Ok RSum). change (construct "count" None) with (Ok RCount). cbn [rmap bind].
  rewrite E1, E2, E3. cbn [rmap bind map snd p_y].
  assert (S1 : forall o l, length o = length nbs -> (forall i nb, nth_error nbs i = Some nb -> exists q, nth_error o i = Some (Fin q) /\ (q == wsum (fun p => nth (snd p) l 0 * nb_weight None K p) (closer m nb))%Q) ->
    exists r, sums (VN (V1 o)) = Ok r /\ length r = length nbs /\ forall i nb, nth_error nbs i = Some nb -> exists q, nth_error r i = Some q /\ (q == wsum (fun p => nth (snd p) l 0 * nb_weight None K p) (closer m nb))%Q).
  { clear. intros o l L H. exists (map (fun a => match a with Fin q => q | _ => 0%Q end) o). cbn [sums]. split; [|split].
    - apply mapM_Ok. assert (A : Forall (fun a => exists q, a = Fin q) o).
      { rewrite Forall_forall. intros a Ia. apply In_nth_error in Ia as (i & Ni). assert (i < length nbs) by (rewrite <- L; apply nth_error_Some; congruence).
        destruct (nth_error nbs i) as [nb|] eqn:N; [|apply nth_error_None in N; lia]. destruct (H i nb N) as (q & Nq & _). exists q. congruence. }
      clear -A. induction A as [|a o [q ->] A IH]; cbn; constructor; auto.
    - now rewrite map_length.
    - intros i nb N. destruct (H i nb N) as (q & Nq & Q0). exists q. split; [|assumption]. rewrite nth_error_map, Nq. reflexivity. }
  destruct (S1 o1 weight (eq_trans Lo1 (eq_sym LE)) H1) as (r1 & R1 & Lr1 & K1). destruct (S1 o2 masked (eq_trans Lo2 (eq_sym LE)) H2) as (r2 & R2 & Lr2 & K2).
  rewrite R1, R2. cbn [bind f_values f_invalid]. exists nbs. split; [assumption|]. split; [rewrite BinProofs2.zipwith_length; lia|]. split.
  { destruct m; cbn [omap]; [|reflexivity]. now rewrite map_map. }
  intros i nb N. destruct (K1 i nb N) as (q1 & N1 & Q1). destruct (K2 i nb N) as (q2 & N2 & Q2).
  exists (q2 / Qmax q1 floor_)%Q. split; [apply BinProofs2.zipwith_nth; exists q2, q1; auto|].
  assert (In_ok : forall p, In p (closer m nb) -> snd p < length tr).
  { intros p Ip. assert (Inb : In p nb) by (unfold closer in Ip; destruct m; [now apply filter_In in Ip as [Ip _]|assumption]).
    pose proof (below dist tr k qs nbs (length tr) Q0 eq_refl) as Bb. rewrite Forall_forall in Bb. specialize (Bb nb (nth_error_In _ _ N)). unfold ids_below in Bb. rewrite Forall_forall in Bb. now apply Bb. }
  assert (W1 : (q1 == wsum (nb_weight w K) (closer m nb))%Q).
  { rewrite Q1. unfold wsum. apply BinProofs4.Qsum_ext. intros p Ip. unfold nb_weight, weight. destruct w as [w'|]; [ring|].
    rewrite (nth_indep _ 0%Q 1%Q) by (rewrite repeat_length; now apply In_ok). rewrite nth_repeat. ring. }
  assert (W2 : (q2 == wsum (fun p => if nth (snd p) mask false then nb_weight w K p else 0) (closer m nb))%Q).
  { rewrite Q2. unfold wsum. apply BinProofs4.Qsum_ext. intros p Ip. specialize (In_ok p Ip).
    assert (Nm : nth (snd p) masked 0%Q = ((if nth (snd p) mask false then 1 else 0) * nth (snd p) weight 0)%Q).
    { apply nth_error_nth. apply BinProofs2.zipwith_nth. exists (nth (snd p) mask false), (nth (snd p) weight 0%Q).
      split; [apply nth_error_nth'; lia|]. split; [apply nth_error_nth'; lia|reflexivity]. }
    rewrite Nm. unfold nb_weight, weight. destruct w as [w'|]; [destruct (nth (snd p) mask false); ring|].
    rewrite (nth_indep _ 0%Q 1%Q) by (rewrite repeat_length; assumption). rewrite nth_repeat. destruct (nth (snd p) mask false); ring. }
  unfold floor_. rewrite W1, W2. reflexivity.
Qed.
Print Assumptions C64_fraction.
(** For non-negative weights and kernel the fraction lies in [0,1]; it is 0 if no neighbour is masked, and exactly the
    share of the weight - 1 if all are masked - once the weights add up to the floor. *)
Theorem C64_range : forall mask w K (l : list (Q * nat)), (forall p, In p l -> 0 <= nb_weight w K p)%Q ->
  let v := (wsum (fun p => if nth (snd p) mask false then nb_weight w K p else 0) l / Qmax (wsum (nb_weight w K) l) (1 # 10000000000))%Q in
  (0 <= v /\ v <= 1)%Q /\ ((forall p, In p l -> nth (snd p) mask false = false) -> v == 0)%Q /\
  ((1 # 10000000000) <= wsum (nb_weight w K) l -> v * wsum (nb_weight w K) l == wsum (fun p => if nth (snd p) mask false then nb_weight w K p else 0) l)%Q /\
  ((1 # 10000000000) <= wsum (nb_weight w K) l -> (forall p, In p l -> nth (snd p) mask false = true) -> v == 1)%Q.
Proof.
  intros mask w K l P v. set (t := wsum (nb_weight w K) l). set (s := wsum (fun p => if nth (snd p) mask false then nb_weight w K p else 0%Q) l).
  assert (B : (0 <= s /\ s <= t)%Q).
  { unfold s, t, wsum. clear v s t. induction l as [|p l IH]; cbn [map Qsum]; [lra|]. destruct (IH (fun q I => P q (or_intror I))). pose proof (P p (or_introl eq_refl)).
    destruct (nth (snd p) mask false); split; lra. }
  assert (D : (0 < Qmax t (1 # 10000000000))%Q) by (eapply Qlt_le_trans; [|apply Q.le_max_r]; reflexivity). pose proof (Q.le_max_l t (1 # 10000000000)) as M1.
  split; [|split; [|split]].
  - change v with (s / Qmax t (1 # 10000000000))%Q. split; [apply Qle_shift_div_l; [assumption|lra]|]. apply Qle_shift_div_r; [assumption|]. lra.
  - intro Z. change v with (s / Qmax t (1 # 10000000000))%Q. assert (s == 0)%Q; [|rewrite H; field; lra]. unfold s, wsum. clear -Z. induction l as [|p l IH]; cbn [map Qsum]; [reflexivity|].
    rewrite (Z p (or_introl eq_refl)), IH by (intros; apply Z; now right). reflexivity.
  - intro F. change v with (s / Qmax t (1 # 10000000000))%Q. fold s t. fold t in F. assert (Qmax t (1 # 10000000000) == t)%Q by (apply Q.max_l; assumption). rewrite H. field. lra.
  - intros F A. change v with (s / Qmax t (1 # 10000000000))%Q. fold s t. fold t in F. assert (Qmax t (1 # 10000000000) == t)%Q by (apply Q.max_l; assumption). rewrite H.
    assert (s == t)%Q; [|rewrite H0; field; lra]. unfold s, t, wsum. clear -A. induction l as [|p l IH]; cbn [map Qsum]; [reflexivity|].
    rewrite (A p (or_introl eq_refl)), IH by (intros; apply A; now right). reflexivity.
Qed.
Print Assumptions C64_range.
(** Finding: below the floor the result is not a fraction of the weight any more: tiny weights give a fraction near 0 even if
    every neighbour is masked. *)
Theorem C64_small_weights_refuted : exists f, masked_fraction (fun a b : Q => Qabs.Qabs (a - b)) [0%Q] [true] 1 None None (Some [1 # 1000000000000]%Q) 1 [0%Q] = Ok f /\
  exists v, f_values f = [v] /\ (v == 1 # 100)%Q.
Proof. eexists. split; [vm_compute; reflexivity|]. eexists. split; [reflexivity|]. vm_compute. reflexivity. Qed.
Print Assumptions C64_small_weights_refuted.

(** Three training points on a line; the two nearest to 0 within 3/2, weights 1 and 2. *)
Definition line (a b : Q) : Q := Qabs.Qabs (a - b).
Example ex_mean : exists p u, knn_call line [0; 1; 5]%Q [10; 40; 7]%Q (Some [1; 2; 3]%Q) 2 (Some (3 # 2)%Q) None (One (SStr "mean")) [0%Q] = Ok p /\
  p_y p = [VN (V1 [Fin u])] /\ (u == 30)%Q.
Proof. do 2 eexists. split; [vm_compute; reflexivity|]. split; [reflexivity|]. vm_compute. reflexivity. Qed.
Example ex_fraction : exists f v, masked_fraction line [0; 1; 5]%Q [true; false; true] 3 (Some 2%Q) None None 2 [0%Q] = Ok f /\ f_values f = [v] /\ (v == 1 # 2)%Q /\ f_invalid f = V1 [false].
Proof. do 2 eexists. split; [vm_compute; reflexivity|]. split; [reflexivity|]. split; vm_compute; reflexivity. Qed.
Example ex_local : exists p u, local_call line [0; 1; 5]%Q [10; 40; 7]%Q None 1%Q None (Many [SStr "mean"; SStr "count"]) [0%Q] = Ok p /\
  p_y p = [[VN (S0 (Fin u))]; [VZ (S0 2%Z)]] /\ (u == 25)%Q.
Proof. do 2 eexists. split; [vm_compute; reflexivity|]. split; [reflexivity|]. vm_compute. reflexivity. Qed.
(** Every name and alias, with the filling value asked for or the default one; anything else is a KeyError. *)
Theorem C70_names : forall n f, let q := match f with Some q => q | None => (-10000000000)%Q end in
  let want := List.find (fun p => existsb (String.eqb n) (fst p))
     [(["count"; "cnt"], RCount); (["sum"], RSum); (["mean"], RMean q); (["std_dev"; "std"; "sd"], RStd q);
      (["quantile"; "qs"], RQuantile [16 # 100; 1 # 2; 84 # 100]%Q true q); (["median"], RMedian true q); (["errorbar"], RErrorbar "median+1sigma" q)]%string in
  create (STuple [IStr n; IKw f]) = match want with Some p => Ok (n, snd p) | None => Err KeyError end.
Proof.
  intros n f. cbn [create List.find existsb fst snd]. unfold construct.
  assert (F : match f with Some q => q | None => fill_default end = match f with Some q => q | None => (-10000000000)%Q end) by (destruct f; reflexivity). rewrite F.
  rewrite !Bool.orb_false_r, ?Bool.orb_assoc.
  repeat match goal with |- context [String.eqb n ?s] => destruct (String.eqb n s) end; reflexivity.
Qed.
Print Assumptions C70_names.
Example C70_names_case : create (STuple [IStr "std"; IKw (Some 0%Q)]) = Ok ("std"%string, RStd 0%Q). Proof. reflexivity. Qed.
(** What is no specification: a pair must be a name and keyword arguments; an unknown name is a KeyError first. *)
Theorem C70_spec_errors : forall l,
  (length l <> 2 -> create (STuple l) = Err ValueError) /\
  (forall a b, l = [a; b] -> (forall n, a <> IStr n) -> create (STuple l) = Err TypeError) /\
  (forall n b, l = [IStr n; b] -> (forall f, b <> IKw f) -> create (STuple l) = Err (match create (SStr n) with Ok _ => TypeError | Err _ => KeyError end)).
Proof.
  intro l. split; [|split].
  - intro N. destruct l as [|[| |] [|[| |] [|]]]; try reflexivity; exfalso; apply N; reflexivity.
  - intros a b -> N. destruct a as [n| |]; [exfalso; now apply (N n)| |]; destruct b; reflexivity.
  - intros n b -> N. assert (K : create (SStr n) = Err KeyError \/ exists r, construct n None = Ok r).
    { cbn [create]. destruct (construct n None) as [r|e] eqn:E; [right; eauto|left]. cbn [rmap]. f_equal. unfold construct in E. repeat match type of E with context [if ?c then _ else _] => destruct c end; congruence. }
    destruct b as [s|f|r]; [|exfalso; now apply (N f)|]; (destruct K as [K|(r' & K)]; [rewrite K|]; cbn [create] in *; [destruct (construct n None); [discriminate K|cbn [rmap bind] in *; congruence]|rewrite K; reflexivity]).
Qed.
Print Assumptions C70_spec_errors.
(** What each kind of reduction contributes, for any number of queries: with ys the neighbours' values, ws their weights times
    kernel values (or whichever of the two there is) and ms the distances below max_dx, the reduction of C48-C50 applied to
    (ys, ws, ms); 'mean+sd' is the mean and the standard deviation, the other error bars are made of quantiles. *)
Theorem C70_knn_values : forall X (dist : X -> X -> Q) tr y w k m K r qs p, length y = length tr -> (forall w', w = Some w' -> length w' = length tr) ->
  knn_call dist tr y w k m K (One (SObj r)) qs = Ok p ->
  exists nbs v, mapM (fun q => query Qltb dist tr q k) qs = Ok nbs /\ p_y p = [v] /\
  let ys := A2 k (map (map (fun n => nth (snd n) y 0%Q)) nbs) in
  let ws := match w, K with
            | None, None => None
            | Some w, None => Some (A2 k (map (map (fun n => nth (snd n) w 0%Q)) nbs))
            | None, Some K => Some (A2 k (map (map (fun n => K (fst n))) nbs))
            | Some w, Some K => Some (A2 k (map (map (fun n => (nth (snd n) w 0 * K (fst n))%Q)) nbs)) end in
  let ms := match m with None => None | Some m => Some (A2 k (map (map (fun n => Qltb (fst n) m)) nbs)) end in
  let fin := option_map (amap Fin) in
  match r with
  | RCount => exists o, count ys (fin ws) ms = Ok o /\ v = VZ o
  | RSum => exists o, sum (amap Fin ys) (fin ws) ms = Ok o /\ v = VN o
  | RMean f => exists o, mean (Fin f) (amap Fin ys) (fin ws) ms = Ok o /\ v = VN o
  | RStd f => exists o, std_dev (Fin f) (amap Fin ys) (fin ws) ms = Ok o /\ v = VR o
  | RQuantile ps s f => exists o, quantile ps s f ys ws ms = Ok o /\ v = VL o
  | RMedian s f => exists o, median s f ys ws ms = Ok o /\ v = VQ o
  | RErrorbar n f => (n = "mean+sd"%string -> exists mu sd, mean (Fin f) (amap Fin ys) (fin ws) ms = Ok mu /\ std_dev (Fin f) (amap Fin ys) (fin ws) ms = Ok sd /\ v = VSd mu sd) /\
      (n <> "mean+sd"%string -> exists o, errorbar n f ys ws ms = Ok o /\ v = VB o)
  end.
Proof.
  intros X dist tr y w k m K r qs p Ly Lw H. pose proof (queries dist tr k qs) as Q0.
  destruct (mapM (fun q => query Qltb dist tr q k) qs) as [nbs|e] eqn:E; [|unfold knn_call in H; rewrite E in H; discriminate].
  assert (B : Forall (ids_below (length y)) nbs) by (eapply below; eauto). assert (Lw' : forall w', w = Some w' -> length w' = length y) by (intros w' ->; rewrite Ly; now apply Lw).
  rewrite (knn_call_eq dist tr y w k m K (One (SObj r)) qs nbs E B Lw') in H. unfold apply_all in H. cbn [iter mapM create bind] in H.
  destruct (reduce r _ _ _) as [v|] eqn:R; [|discriminate]. cbn [rmap bind map snd] in H. injection H as <-. exists nbs, v. split; [reflexivity|]. split; [reflexivity|]. cbn zeta.
  assert (Ey : map (row_y y) nbs = map (fun q => map (fun n : Q * nat => nth (snd n) y 0%Q) q) nbs) by reflexivity.
  assert (Ew : option_map (A2 k) (rows_w w K nbs) = match w, K with
            | None, None => None
            | Some w, None => Some (A2 k (map (fun q => map (fun n : Q * nat => nth (snd n) w 0%Q) q) nbs))
            | None, Some K => Some (A2 k (map (fun q => map (fun n : Q * nat => K (fst n)) q) nbs))
            | Some w, Some K => Some (A2 k (map (fun q => map (fun n : Q * nat => (nth (snd n) w 0 * K (fst n))%Q) q) nbs)) end).
  { unfold rows_w, opt_rows, has_w, row_w. destruct w, K; reflexivity. }
  assert (Em : option_map (A2 k) (rows_m m nbs) = match m with None => None | Some m => Some (A2 k (map (fun q => map (fun n : Q * nat => Qltb (fst n) m) q) nbs)) end) by (destruct m; reflexivity).
  rewrite Ey, Ew, Em in R. unfold reduce, nums in R.
  destruct r as [| |f|f|ps s f|s f|n f]; try (match type of R with rmap _ ?c = _ => destruct c as [o|]; [|discriminate]; injection R as <-; exists o; split; reflexivity end).
  destruct (String.eqb_spec n "mean+sd") as [->|Nn].
  - split; [intros _|congruence]. unfold errorbar_sd in R. destruct (mean _ _ _ _) as [mu|]; [|discriminate]. cbn [bind] in R. destruct (std_dev _ _ _ _) as [sd|]; [|discriminate]. cbn [bind rmap fst snd] in R. injection R as <-. exists mu, sd. auto.
  - split; [congruence|]. intros _. match type of R with rmap _ ?c = _ => destruct c as [o|]; [|discriminate]; injection R as <-; exists o; split; reflexivity end.
Qed.
Print Assumptions C70_knn_values.
