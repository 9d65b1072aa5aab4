From Coq Require Import QArith Qminmax Lqa Lia.
From Verif Require Import Base OrderSpec BinSpec BinModel BinProofs BinProofs2 ReduSpec ReduModel ReduProofs ReduProofs2 NearSpec NearModel NearProofs RegrSpec RegrModel.
Local Open Scope list_scope. Local Open Scope nat_scope.

Definition at_ (l : list Q) (i : nat) : Q := nth i l 0%Q.
Lemma take_ok l ids : Forall (fun i => i < length l) ids -> take l ids = Ok (map (at_ l) ids).
Proof.
  intro F. unfold take. apply mapM_Ok. induction F as [|i ids H F IH]; cbn [map]; constructor; auto.
  destruct (nth_error l i) eqn:E; [|apply nth_error_None in E; lia]. unfold at_. now rewrite (nth_error_nth l i 0%Q E).
Qed.
(** the optional row of weights *)
Definition row_w (w : option (list Q)) (K : option (Q -> Q)) (nb : list (Q * nat)) : option (list Q) :=
  match w, K with
  | None, None => None
  | Some w, None => Some (map (fun p => at_ w (snd p)) nb)
  | None, Some K => Some (map (fun p => K (fst p)) nb)
  | Some w, Some K => Some (map (fun p => at_ w (snd p) * K (fst p))%Q nb)
  end.
Definition row_y (y : list Q) (nb : list (Q * nat)) : list Q := map (fun p => at_ y (snd p)) nb.
Definition row_m (m : option Q) (nb : list (Q * nat)) : option (list bool) := option_map (fun m => map (fun p => Qltb (fst p) m) nb) m.
Definition opt_rows {B} (f : list (Q * nat) -> option B) (some : bool) (nbs : list (list (Q * nat))) (d : B) : option (list B) :=
  if some then Some (map (fun nb => match f nb with Some b => b | None => d end) nbs) else None.
Definition has_w (w : option (list Q)) (K : option (Q -> Q)) : bool := match w, K with None, None => false | _, _ => true end.
Definition rows_w w K nbs := opt_rows (row_w w K) (has_w w K) nbs [].
Definition rows_m (m : option Q) nbs := option_map (fun m => map (map (fun p : Q * nat => Qltb (fst p) m)) nbs) m.

Definition ids_below (n : nat) (nb : list (Q * nat)) : Prop := Forall (fun p => snd p < n) nb.
Lemma zipwith_map {A B C D} (f : B -> C -> D) (g : A -> B) (h : A -> C) l : zipwith f (map g l) (map h l) = map (fun a => f (g a) (h a)) l.
Proof. induction l; cbn; congruence. Qed.
(** knn_call once the neighbours are known *)
Definition apply_all (y : arr Q) w m (l : list spec) :=
  mapM (fun s => bind (create s) (fun '(n, r) => rmap (pair n) (reduce r y w m))) l.
Lemma knn_call_eq {X} (dist : X -> X -> Q) tr y w k m K a qs nbs :
  mapM (fun q => query Qltb dist tr q k) qs = Ok nbs -> Forall (ids_below (length y)) nbs -> (forall w', w = Some w' -> length w' = length y) ->
  knn_call dist tr y w k m K a qs =
  bind (apply_all (A2 k (map (row_y y) nbs)) (option_map (A2 k) (rows_w w K nbs)) (option_map (A2 k) (rows_m m nbs)) (iter a)) (fun ps =>
    Ok {| p_y := map snd ps; p_named := named ps |}).
Proof.
  intros E F Hw. unfold knn_call. rewrite E. cbn [bind].
  assert (T : forall l, length l = length y -> mapM (take l) (map (map snd) nbs) = Ok (map (row_y l) nbs)).
  { intros l L. apply mapM_Ok. clear E. induction F as [|nb nbs H F IH]; cbn [map]; constructor; auto. rewrite take_ok.
    - unfold row_y. now rewrite map_map.
    - rewrite L. unfold ids_below in H. rewrite Forall_map. exact H. }
  rewrite (T y eq_refl). cbn [bind].
  assert (M : option_map (fun m => A2 k (map (map (fun d => Qltb d m)) (map (map fst) nbs))) m = option_map (A2 k) (rows_m m nbs)).
  { destruct m as [m|]; [|reflexivity]. cbn. f_equal. f_equal. rewrite map_map. apply map_ext. intro nb. now rewrite map_map. }
  rewrite M. clear M.
  assert (W : match w with None => Ok None | Some w => rmap Some (mapM (take w) (map (map snd) nbs)) end = Ok (option_map (fun w => map (row_y w) nbs) w)).
  { destruct w as [w'|]; [|reflexivity]. rewrite (T w' (Hw w' eq_refl)). reflexivity. }
  rewrite W. cbn [bind].
  assert (W2 : weights2 (option_map (fun w => map (row_y w) nbs) w) (option_map (fun K => map (map K) (map (map fst) nbs)) K) = rows_w w K nbs).
  { unfold rows_w, opt_rows, has_w, row_w, row_y, weights2. destruct w as [w'|], K as [K|]; cbn [option_map]; try reflexivity.
    - f_equal. rewrite !map_map. rewrite zipwith_map. apply map_ext. intro nb. rewrite map_map, zipwith_map. reflexivity.
    - f_equal. rewrite map_map. apply map_ext. intro nb. now rewrite map_map. }
  rewrite W2. reflexivity.
Qed.
Lemma nearest_below {X} (dist : X -> X -> Q) tr q k nb : nearest Qltb dist tr q k nb -> ids_below (length tr) nb.
Proof.
  intros (_ & (_ & N) & _). unfold ids_below. rewrite Forall_forall. intros [d i] I. destruct (N d i I) as (p & Np & _). apply nth_error_Some. cbn. congruence.
Qed.
Lemma queries {X} (dist : X -> X -> Q) tr k qs : match mapM (fun q => query Qltb dist tr q k) qs with
  | Ok nbs => Forall2 (fun q nb => nearest Qltb dist tr q k nb) qs nbs | Err e => e = ValueError /\ length tr < k end.
Proof.
  destruct (mapM (fun q => query Qltb dist tr q k) qs) as [nbs|e] eqn:E.
  - apply mapM_Ok in E. induction E; constructor; auto. pose proof (query_nearest Qltb dist tr x k Q_weak_order) as Q. now rewrite H in Q.
  - apply mapM_Err in E as (pre & q & suf & _ & _ & E). pose proof (query_nearest Qltb dist tr q k Q_weak_order) as Q. now rewrite E in Q.
Qed.
Lemma queries_ok {X} (dist : X -> X -> Q) tr k qs : k <= length tr -> exists nbs, mapM (fun q => query Qltb dist tr q k) qs = Ok nbs.
Proof.
  intro L. pose proof (queries dist tr k qs) as H. destruct (mapM (fun q => query Qltb dist tr q k) qs) as [nbs|]; [now exists nbs|]. lia.
Qed.
(** shapes *)
Lemma rows_shape {X} (dist : X -> X -> Q) tr k qs nbs y w m K : Forall2 (fun q nb => nearest Qltb dist tr q k nb) qs nbs ->
  rect k (map (row_y y) nbs) /\ fits2 k (map (row_y y) nbs) (rows_w w K nbs) /\ fits2 k (map (row_y y) nbs) (rows_m m nbs).
Proof.
  intro F. assert (L : Forall (fun nb => length nb = k) nbs) by (induction F as [|q nb qs nbs [H _] F IH]; constructor; auto).
  assert (R : forall B (f : list (Q * nat) -> list B), (forall nb, length (f nb) = length nb) -> rect k (map f nbs)).
  { intros B f Hf. unfold rect. rewrite Forall_map. rewrite Forall_forall in *. intros nb I. rewrite Hf. now apply L. }
  split; [|split].
  - apply R. intro nb. unfold row_y. apply map_length.
  - unfold rows_w, opt_rows. destruct (has_w w K) eqn:H; [|exact I]. cbn [fits2]. rewrite !map_length. split; [reflexivity|]. apply R. intro nb.
    destruct w, K; try discriminate H; cbn [row_w]; apply map_length.
  - unfold rows_m. destruct m; [|exact I]. cbn [option_map fits2]. rewrite !map_length. split; [reflexivity|]. apply R. intro nb. apply map_length.
Qed.
Lemma row_at_w w K nbs i nb : nth_error nbs i = Some nb -> row_at i (rows_w w K nbs) = row_w w K nb.
Proof.
  intro N. unfold row_at, rows_w, opt_rows, has_w. destruct w, K; cbn [option_map row_w]; try reflexivity; f_equal;
  (apply nth_error_nth; rewrite nth_error_map, N; reflexivity).
Qed.
Lemma row_at_m m nbs i nb : nth_error nbs i = Some nb -> row_at i (rows_m m nbs) = row_m m nb.
Proof.
  intro N. unfold row_at, rows_m, row_m. destruct m; cbn [option_map]; [|reflexivity]. f_equal. apply nth_error_nth. rewrite nth_error_map, N. reflexivity.
Qed.
(** one row: sums over the neighbours that count *)
Lemma sel_closer {B} (f : Q * nat -> B) m nb : sel (row_m m nb) (map f nb) = map f (closer m nb).
Proof.
  destruct m as [m|]; [|reflexivity]. cbn [row_m option_map sel closer]. induction nb as [|p nb IH]; [reflexivity|]. cbn [map selected filter].
  destruct (Qltb (fst p) m); cbn [map]; [now f_equal|assumption].
Qed.
Lemma dotp_map {A} (f g : A -> Q) l : (dotp (map f l) (map g l) == Qsum (map (fun a => f a * g a) l))%Q.
Proof. induction l; cbn [map dotp Qsum]; [reflexivity|]. now rewrite IHl. Qed.
Lemma Qsum_map_ext {A} (f g : A -> Q) l : (forall a, f a == g a)%Q -> (Qsum (map f l) == Qsum (map g l))%Q.
Proof. intro H. induction l; cbn [map Qsum]; [reflexivity|]. now rewrite IHl, H. Qed.
Definition wfun (w : option (list Q)) (K : option (Q -> Q)) : Q * nat -> Q :=
  match w, K with
  | None, None => fun _ => 1%Q
  | Some w, None => fun p => at_ w (snd p)
  | None, Some K => fun p => K (fst p)
  | Some w, Some K => fun p => (at_ w (snd p) * K (fst p))%Q
  end.
Lemma wfun_nb w K p : (wfun w K p == nb_weight w K p)%Q.
Proof. unfold wfun, nb_weight, at_. destruct w, K; ring. Qed.
Lemma repeat_map {A B} (b : B) (l : list A) : repeat b (length l) = map (fun _ => b) l.
Proof. induction l; cbn; congruence. Qed.
Lemma weights_row y w K nb : weights_of (row_y y nb) (row_w w K nb) = map (wfun w K) nb.
Proof. destruct w, K; cbn [row_w weights_of wfun]; try reflexivity. unfold row_y. rewrite map_length. apply repeat_map. Qed.
Lemma row_fits y w K m nb : fits (row_y y nb) (row_w w K nb) (row_m m nb).
Proof. unfold fits, row_y, row_w, row_m. destruct w, K, m; cbn [option_map]; rewrite ?map_length; auto. Qed.
Lemma row_dot y w K m nb :
  (dotp (sel (row_m m nb) (row_y y nb)) (sel (row_m m nb) (weights_of (row_y y nb) (row_w w K nb))) == wsum (fun p => nth (snd p) y 0 * nb_weight w K p) (closer m nb))%Q /\
  (Qsum (sel (row_m m nb) (weights_of (row_y y nb) (row_w w K nb))) == wsum (nb_weight w K) (closer m nb))%Q.
Proof.
  rewrite weights_row. unfold row_y. rewrite !sel_closer. split.
  - rewrite dotp_map. apply Qsum_map_ext. intro p. rewrite wfun_nb. reflexivity.
  - apply Qsum_map_ext. intro p. apply wfun_nb.
Qed.
Lemma nums_rows k rows : nums (A2 k rows) = A2 k (map (map Fin) rows).
Proof. reflexivity. Qed.
Lemma row_at_fin i (o : option (list (list Q))) : row_at i (option_map (map (map Fin)) o) = option_map (map Fin) (row_at i o).
Proof.
  destruct o as [l|]; [|reflexivity]. cbn. f_equal. change (@nil num) with (map Fin []). apply map_nth.
Qed.
Lemma fits2_fin k rows (o : option (list (list Q))) : fits2 k rows o -> fits2 k (map (map Fin) rows) (option_map (map (map Fin)) o).
Proof.
  destruct o as [l|]; [|tauto]. cbn [fits2 option_map]. rewrite !map_length. intros [L R]. split; [assumption|]. unfold rect in *. rewrite Forall_map.
  rewrite Forall_forall in *. intros r I. rewrite map_length. now apply R.
Qed.
Lemma fits2_len {A A' B} k (rows : list (list A)) (rows' : list (list A')) (o : option (list (list B))) : length rows = length rows' -> fits2 k rows o -> fits2 k rows' o.
Proof. destruct o; cbn [fits2]; [|auto]. intros L [H R]. split; [congruence|assumption]. Qed.
Lemma rect_fin k (rows : list (list Q)) : rect k rows -> rect k (map (map Fin) rows).
Proof. unfold rect. rewrite Forall_map, !Forall_forall. intros H r I. rewrite map_length. now apply H. Qed.
Lemma opt_A2 k (o : option (list (list Q))) : option_map nums (option_map (A2 k) o) = option_map (A2 k) (option_map (map (map Fin)) o).
Proof. destruct o; reflexivity. Qed.

(** the mean and the sum of every row *)
Lemma knn_mean {X} (dist : X -> X -> Q) tr k qs nbs y w m K fill : Forall2 (fun q nb => nearest Qltb dist tr q k nb) qs nbs ->
  exists outs, reduce (RMean fill) (A2 k (map (row_y y) nbs)) (option_map (A2 k) (rows_w w K nbs)) (option_map (A2 k) (rows_m m nbs)) = Ok (VN (V1 outs)) /\
    length outs = length qs /\ forall i nb, nth_error nbs i = Some nb -> exists v, nth_error outs i = Some v /\
      mean (Fin fill) (fin1 (row_y y nb)) (finw1 (row_w w K nb)) (m1 (row_m m nb)) = Ok (S0 v).
Proof.
  intro F. destruct (rows_shape dist tr k qs nbs y w m K F) as (R & Fw & Fm). cbn [reduce]. rewrite opt_A2, nums_rows.
  destruct (mean_2d (Fin fill) k (map (map Fin) (map (row_y y) nbs)) (option_map (map (map Fin)) (rows_w w K nbs)) (rows_m m nbs) (rect_fin _ _ R)) as (outs & E & L & H).
  { now apply fits2_fin. } { apply (fits2_len k (map (row_y y) nbs)); [now rewrite !map_length|assumption]. }
  exists outs. rewrite E. split; [reflexivity|]. split; [rewrite L, !map_length; clear -F; induction F as [|? ? ? ? ? ? IH]; [reflexivity|cbn [length]; now rewrite IH]|].
  intros i nb N. destruct (H i (map Fin (row_y y nb))) as (v & Nv & Ev).
  { rewrite nth_error_map, nth_error_map, N. reflexivity. }
  exists v. split; [assumption|]. rewrite row_at_fin, (row_at_w w K nbs i nb N), (row_at_m m nbs i nb N) in Ev. unfold fin1, finw1, m1.
  replace (option_map fin1 (row_w w K nb)) with (option_map (@A1 num) (option_map (map Fin) (row_w w K nb))) by (destruct (row_w w K nb); reflexivity). exact Ev.
Qed.
Lemma knn_sum {X} (dist : X -> X -> Q) tr k qs nbs y w m K : Forall2 (fun q nb => nearest Qltb dist tr q k nb) qs nbs ->
  exists outs, reduce RSum (A2 k (map (row_y y) nbs)) (option_map (A2 k) (rows_w w K nbs)) (option_map (A2 k) (rows_m m nbs)) = Ok (VN (V1 outs)) /\
    length outs = length qs /\ forall i nb, nth_error nbs i = Some nb -> exists q, nth_error outs i = Some (Fin q) /\
      (q == wsum (fun p => nth (snd p) y 0 * nb_weight w K p) (closer m nb))%Q.
Proof.
  intro F. destruct (rows_shape dist tr k qs nbs y w m K F) as (R & Fw & Fm). cbn [reduce]. rewrite opt_A2, nums_rows.
  assert (F1 : fits2 k (map (map Fin) (map (row_y y) nbs)) (option_map (map (map Fin)) (rows_w w K nbs))) by now apply fits2_fin.
  assert (F2 : fits2 k (map (map Fin) (map (row_y y) nbs)) (rows_m m nbs)) by (apply (fits2_len k (map (row_y y) nbs)); [now rewrite !map_length|assumption]).
  destruct (sum_2d k (map (map Fin) (map (row_y y) nbs)) (option_map (map (map Fin)) (rows_w w K nbs)) (rows_m m nbs) F1 F2) as (outs & E & L & H).
  exists outs. unfold sum. rewrite checked_2d by assumption. rewrite E. split; [reflexivity|]. split; [rewrite L, !map_length; clear -F; induction F as [|? ? ? ? ? ? IH]; [reflexivity|cbn [length]; now rewrite IH]|].
  intros i nb N. destruct (H i (map Fin (row_y y nb))) as (v & Nv & Ev).
  { rewrite nth_error_map, nth_error_map, N. reflexivity. }
  rewrite row_at_fin, (row_at_w w K nbs i nb N), (row_at_m m nbs i nb N) in Ev.
  destruct (sum_1d (row_y y nb) (row_w w K nb) (row_m m nb) (row_fits y w K m nb)) as (q & Eq & Q0). unfold fin1, finw1, m1 in Eq.
  replace (option_map fin1 (row_w w K nb)) with (option_map (@A1 num) (option_map (map Fin) (row_w w K nb))) in Eq by (destruct (row_w w K nb); reflexivity).
  assert (v = Fin q) by congruence. subst v. exists q. split; [assumption|]. rewrite Q0. apply row_dot.
Qed.
Lemma knn_count {X} (dist : X -> X -> Q) tr k qs nbs y w m K : Forall2 (fun q nb => nearest Qltb dist tr q k nb) qs nbs ->
  reduce RCount (A2 k (map (row_y y) nbs)) (option_map (A2 k) (rows_w w K nbs)) (option_map (A2 k) (rows_m m nbs)) =
  Ok (VZ (match m with None => S0 (Z.of_nat k) | Some _ => V1 (map (fun nb => Z.of_nat (length (closer m nb))) nbs) end)).
Proof.
  intro F. destruct (rows_shape dist tr k qs nbs y w m K F) as (R & Fw & Fm). cbn [reduce]. rewrite opt_A2.
  unfold count. rewrite checked_2d; [|apply (fits2_fin k (map (row_y y) nbs)) in Fw; apply (fits2_len k (map (map Fin) (map (row_y y) nbs))); [now rewrite !map_length|assumption]|assumption].
  destruct m as [m|]; [|reflexivity]. cbn [option_map rows_m count_impl rmap]. do 3 f_equal. rewrite map_map. apply map_ext. intro nb. unfold count_true. f_equal.
  cbn [closer]. induction nb as [|p nb IH]; [reflexivity|]. cbn [map filter]. destruct (Qltb (fst p) m); cbn [length]; congruence.
Qed.
(** a weighted mean lies between the extremes *)
Lemma wmean_bounds (y : list Q) (f : Q * nat -> Q) l mu lo hi : (forall p, In p l -> 0 <= f p)%Q -> (0 < wsum f l)%Q ->
  (forall p, In p l -> lo <= nth (snd p) y 0 /\ nth (snd p) y 0 <= hi)%Q -> (mu * wsum f l == wsum (fun p => nth (snd p) y 0 * f p) l)%Q -> (lo <= mu /\ mu <= hi)%Q.
Proof.
  intros P S0 B E.
  assert (G : (lo * wsum f l <= wsum (fun p => nth (snd p) y 0 * f p) l /\ wsum (fun p => nth (snd p) y 0 * f p) l <= hi * wsum f l)%Q).
  { clear S0 E. unfold wsum. induction l as [|p l IH]; cbn [map Qsum]; [lra|]. destruct (IH (fun q I => P q (or_intror I)) (fun q I => B q (or_intror I))) as [G1 G2].
    pose proof (P p (or_introl eq_refl)) as P0. destruct (B p (or_introl eq_refl)) as [B1 B2].
    assert (lo * f p <= nth (snd p) y 0 * f p)%Q by (apply Qmult_le_compat_r; assumption). assert (nth (snd p) y 0 * f p <= hi * f p)%Q by (apply Qmult_le_compat_r; assumption).
    split; [rewrite Qmult_plus_distr_r|rewrite Qmult_plus_distr_r]; lra. }
  rewrite <- E in G. destruct G as [G1 G2]. split.
  - apply (Qmult_le_r lo mu (wsum f l) S0). assumption.
  - apply (Qmult_le_r mu hi (wsum f l) S0). assumption.
Qed.
Lemma mean_row y w K m nb fill v : mean (Fin fill) (fin1 (row_y y nb)) (finw1 (row_w w K nb)) (m1 (row_m m nb)) = Ok (S0 v) ->
  (closer m nb = [] -> v = Fin fill) /\
  (closer m nb <> [] -> ~ (wsum (nb_weight w K) (closer m nb) == 0)%Q -> exists mu, v = Fin mu /\
     (mu * wsum (nb_weight w K) (closer m nb) == wsum (fun p => nth (snd p) y 0 * nb_weight w K p) (closer m nb))%Q).
Proof.
  intro E. pose proof (row_fits y w K m nb) as F. destruct (row_dot y w K m nb) as [D1 D2]. split.
  - intro Z. destruct (mean_1d (Fin fill) _ _ _ F) as [H _]. rewrite H in E; [congruence|]. unfold row_y. now rewrite sel_closer, Z.
  - intros NE NZ. destruct (mean_1d_fin (Fin fill) _ _ _ F) as (mu & E' & Q0).
    + unfold row_y. rewrite sel_closer. destruct (closer m nb); [congruence|discriminate].
    + now rewrite D2.
    + exists mu. split; [congruence|]. rewrite Q0, D1, D2. field. assumption.
Qed.
(** names *)
Lemma named_get {O} (ps : list (string * O)) n : od_get String.eqb (named ps) (append "y_" n) = option_map snd (find (fun p => String.eqb (fst p) n) (rev ps)).
Proof.
  unfold named. rewrite <- (rev_involutive ps) at 1. induction (rev ps) as [|p l IH]; [reflexivity|]. cbn [rev find].
  rewrite fold_left_app. cbn [fold_left].
  destruct (String.eqb_spec (fst p) n) as [E|E].
  - rewrite E. cbn [option_map]. apply od_get_set_same. intros a b. apply String.eqb_spec.
  - rewrite od_get_set_other; [exact IH|intros a b; apply String.eqb_spec|]. cbn. intro H. apply E. congruence.
Qed.
(** the local-kernel call, one query *)
Definition local_one {X} (dist : X -> X -> Q) (tr : list X) y w max_dx K (calls : list (string * reduction)) (q : X) : result (list value) :=
  let nb := query_radius Qle_bool dist tr q max_dx in
  bind (take y (map snd nb)) (fun ys =>
  bind (match w with None => Ok None | Some w => rmap Some (take w (map snd nb)) end) (fun ws =>
  let ws := match option_map (fun K => map (fun p => K (fst p)) nb) K, ws with
            | None, ws => ws | Some wk, None => Some wk | Some wk, Some ws => Some (zipwith Qmult ws wk) end in
  mapM (fun c => reduce (snd c) (A1 ys) (option_map A1 ws) None) calls)).
Lemma local_one_eq {X} (dist : X -> X -> Q) tr y w r K calls q : length y = length tr -> (forall w', w = Some w' -> length w' = length tr) ->
  local_one dist tr y w r K calls q = mapM (fun c => reduce (snd c) (A1 (row_y y (query_radius Qle_bool dist tr q r))) (option_map A1 (row_w w K (query_radius Qle_bool dist tr q r))) None) calls.
Proof.
  intros Ly Lw. unfold local_one. set (nb := query_radius Qle_bool dist tr q r).
  assert (B : forall l, length l = length tr -> take l (map snd nb) = Ok (row_y l nb)).
  { intros l L. rewrite take_ok; [unfold row_y; now rewrite map_map|]. rewrite L, Forall_map, Forall_forall. intros [d i] I.
    destruct (radius_spec Qle_bool dist tr q r) as [[_ N] _]. destruct (N d i I) as (p & Np & _). apply nth_error_Some. cbn. congruence. }
  rewrite (B y Ly). cbn [bind]. destruct w as [w'|].
  - rewrite (B w' (Lw w' eq_refl)). cbn [rmap bind]. destruct K; cbn [option_map row_w]; [|reflexivity]. unfold row_y at 2. now rewrite zipwith_map.
  - cbn [bind]. destruct K; reflexivity.
Qed.
Lemma local_call_eq {X} (dist : X -> X -> Q) tr y w r K a qs : local_call dist tr y w r K a qs =
  bind (mapM create (iter a)) (fun names => bind (mapM create (iter_again a)) (fun calls => bind (mapM (local_one dist tr y w r K calls) qs) (fun preds =>
  bind (mapM (fun i => mapM (fun pred => match nth_error pred i with Some v => Ok v | None => Err IndexError end) preds) (seq 0 (length names))) (fun cols =>
    Ok {| p_y := cols; p_named := named (combine (map fst names) cols) |})))).
Proof. reflexivity. Qed.
