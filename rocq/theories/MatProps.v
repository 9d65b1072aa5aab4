(** Property theorems C81: tables as matrices and lists. *)
From Verif Require Import Base MatModel.
Local Open Scope list_scope. Local Open Scope nat_scope.

Lemma list_eqb_eq a b : list_eqb a b = true <-> a = b.
Proof. unfold list_eqb. destruct (list_eq_dec Nat.eq_dec a b); split; congruence. Qed.
Lemma chunks_length n w : forall l, length (chunks n w l) = n.
Proof. induction n as [|n IH]; intros l; [reflexivity|]. cbn. rewrite IH. reflexivity. Qed.
Lemma chunks_nth w : forall n l i, i < n -> nth i (chunks n w l) [] = firstn w (skipn (i * w) l).
Proof.
  induction n as [|n IH]; intros l i Hi; [lia|]. destruct i as [|i]; [reflexivity|]. cbn [chunks nth]. rewrite IH by lia. f_equal. cbn [Nat.mul]. clear.
  revert l. induction w as [|w IHw]; intros l; [reflexivity|]. destruct l as [|x l]; [cbn; destruct (i * S w); reflexivity|]. cbn [skipn Nat.add]. 
  enough (forall a b (m : list Z), skipn a (skipn b m) = skipn (b + a) m) as X by apply X. clear. intros a b. revert a. induction b as [|b IH]; intros a m; [reflexivity|]. destruct m; [cbn; destruct a; reflexivity|]. cbn. apply IH.
Qed.
Lemma chunks_concat w : forall n l, length l = n * w -> List.concat (chunks n w l) = l /\ Forall (fun c => length c = w) (chunks n w l).
Proof.
  induction n as [|n IH]; intros l L; [destruct l; [split; [reflexivity|constructor]|discriminate]|]. cbn [chunks List.concat]. cbn [Nat.mul] in L.
  destruct (IH (skipn w l)) as [E F]; [rewrite skipn_length; lia|]. rewrite E, firstn_skipn. split; [reflexivity|]. constructor; [rewrite firstn_length; lia|exact F].
Qed.
Lemma concat_entry w : forall (ls : list (list Z)) i j, Forall (fun c => length c = w) ls -> j < w -> i < length ls -> nth_error (List.concat ls) (i * w + j) = nth_error (nth i ls []) j.
Proof.
  induction ls as [|c ls IH]; intros i j F Hj Hi; [cbn in Hi; lia|]. inversion F as [|? ? Hc F']; subst. destruct i as [|i].
  - cbn [Nat.mul Nat.add List.concat nth]. apply nth_error_app1. exact Hj.
  - cbn [List.concat nth Nat.mul]. rewrite nth_error_app2 by lia. replace (length c + i * length c + j - length c) with (i * length c + j) by lia. apply IH; [assumption|assumption|cbn in Hi; lia].
Qed.

Lemma concat1_unfold l a : hd_error l = Some a -> concat1 l =
  if forallb (fun b => Nat.eqb (length (shape b)) (length (shape a)) && (Nat.eqb (hd 0 (shape b)) (hd 0 (shape a)) && list_eqb (tl (tl (shape b))) (tl (tl (shape a))))) l
  then Ok {| shape := hd 0 (shape a) :: list_sum (map (fun b => hd 0 (tl (shape b))) l) :: tl (tl (shape a));
             elems := List.concat (map (fun i => List.concat (map (fun b => nth i (rows_of b) []) l)) (seq 0 (hd 0 (shape a)))) |} else Err ValueError.
Proof. destruct l; [discriminate|]. intros H. injection H as ->. reflexivity. Qed.
Lemma concat0_unfold l a : hd_error l = Some a -> concat0 l =
  if forallb (fun b => Nat.eqb (length (shape b)) (length (shape a)) && list_eqb (tl (shape b)) (tl (shape a))) l
  then Ok {| shape := list_sum (map (fun b => hd 0 (shape b)) l) :: tl (shape a); elems := List.concat (map elems l) |} else Err ValueError.
Proof. destruct l; [discriminate|]. intros H. injection H as ->. reflexivity. Qed.
Lemma hd_error_map {A B} (f : A -> B) l : l <> [] -> exists a, hd_error (map f l) = Some a /\ In a (map f l).
Proof. destruct l as [|x l]; [congruence|]. intros _. exists (f x). cbn. auto. Qed.
(** Columns that are vectors of [n] numbers. *)
Definition vectors (n : nat) (t : mtable) : Prop := Forall (fun c => shape (snd c) = [n] /\ nda_ok (snd c)) t.

Lemma singletons (c : list Z) i x : nth_error c i = Some x -> nth i (chunks (length c) 1 c) [] = [x].
Proof.
  intros H. assert (I : i < length c) by (apply nth_error_Some; congruence). rewrite chunks_nth by exact I. rewrite Nat.mul_1_r. clear I.
  revert i H. induction c as [|y c IH]; intros i H; [destruct i; discriminate|]. destruct i as [|i]; [cbn in *; congruence|]. cbn [skipn]. apply IH. exact H.
Qed.
(** Of a table of k vectors of length n: col_stacked is n x k with element (i, j) the i-th entry of the j-th column, row_stacked is its transpose. *)
Theorem C81_vectors : forall t n, t <> [] -> vectors n t ->
  exists mc mr, col_stacked t = Ok mc /\ row_stacked t = Ok mr /\ shape mc = [n; length t] /\ shape mr = [length t; n] /\ nda_ok mc /\ nda_ok mr /\
    (forall i j k a, i < n -> nth_error t j = Some (k, a) -> entry mc i j = nth_error (elems a) i) /\
    (forall i j, i < n -> j < length t -> entry mr j i = entry mc i j).
Proof.
  intros t n NE V. unfold vectors in V.
  assert (SUMc : list_sum (map (fun b => hd 0 (tl (shape b))) (map (fun c => as_column (snd c)) t)) = length t).
  { clear NE. induction V as [|[k a] t [S _] V IH]; [reflexivity|]. cbn [snd] in S. cbn [map list_sum fold_right length]. unfold list_sum in IH. rewrite IH. unfold as_column. cbn [snd]. rewrite S. reflexivity. }
  assert (SUMr : list_sum (map (fun b => hd 0 (shape b)) (map (fun c => as_row (snd c)) t)) = length t).
  { clear NE SUMc. induction V as [|[k a] t [S _] V IH]; [reflexivity|]. cbn [snd] in S. cbn [map list_sum fold_right length]. unfold list_sum in IH. rewrite IH. unfold as_row. cbn [snd]. rewrite S. reflexivity. }
  assert (Sc : forall c, In c t -> shape (as_column (snd c)) = [n; 1] /\ elems (as_column (snd c)) = elems (snd c)).
  { intros c H. rewrite Forall_forall in V. destruct (V c H) as [S _]. unfold as_column. rewrite S. auto. }
  assert (Sr : forall c, In c t -> shape (as_row (snd c)) = [1; n] /\ elems (as_row (snd c)) = elems (snd c)).
  { intros c H. rewrite Forall_forall in V. destruct (V c H) as [S _]. unfold as_row. rewrite S. auto. }
  assert (LE : forall c, In c t -> length (elems (snd c)) = n).
  { intros c H. rewrite Forall_forall in V. destruct (V c H) as [S O]. unfold nda_ok in O. rewrite S in O. cbn in O. lia. }
  set (lc := map (fun c => as_column (snd c)) t) in *. set (lr := map (fun c => as_row (snd c)) t) in *.
  set (rowi := fun i => List.concat (map (fun b => nth i (rows_of b) []) lc)).
  assert (Rlen : forall i, i < n -> length (rowi i) = length t).
  { intros i Hi. unfold rowi, lc. clear SUMc SUMr NE V Sr lr. clear lc rowi. induction t as [|c t IH]; [reflexivity|]. cbn [map List.concat length]. rewrite app_length, IH.
    - destruct (Sc c (or_introl eq_refl)) as [S E]. unfold rows_of. rewrite S, E. cbn [size fold_right]. rewrite chunks_nth by exact Hi.
      rewrite firstn_length, skipn_length, (LE c (or_introl eq_refl)). lia.
    - intros c' H. apply Sc. right. exact H.
    - intros c' H. apply LE. right. exact H. }
  assert (Rnth : forall i j k a, i < n -> nth_error t j = Some (k, a) -> nth_error (rowi i) j = nth_error (elems a) i).
  { intros i j k a Hi. unfold rowi, lc. clear SUMc SUMr NE V Sr lr Rlen. clear lc rowi. revert j. induction t as [|c t IH]; intros j Hj; [destruct j; discriminate|]. cbn [map List.concat].
    assert (H1 : exists x, nth_error (elems (snd c)) i = Some x /\ nth i (rows_of (as_column (snd c))) [] = [x]).
    { destruct (Sc c (or_introl eq_refl)) as [S E]. pose proof (LE c (or_introl eq_refl)) as L. destruct (nth_error (elems (snd c)) i) as [x|] eqn:X; [|apply nth_error_None in X; lia].
      exists x. split; [reflexivity|]. unfold rows_of. rewrite S, E. cbn [size fold_right]. rewrite <- L. apply singletons. exact X. }
    destruct H1 as (x & Hx & ->). destruct j as [|j].
    - cbn in Hj. injection Hj as ->. cbn [snd] in Hx. cbn [app nth_error]. congruence.
    - cbn [app nth_error]. apply IH; [intros c' H; apply Sc; right; exact H|intros c' H; apply LE; right; exact H|exact Hj]. }
  assert (CC : concat1 lc = Ok {| shape := [n; length t]; elems := List.concat (map rowi (seq 0 n)) |}).
  { destruct (hd_error_map (fun c : string * nda => as_column (snd c)) t NE) as (a & Ha & Ia). fold lc in Ha, Ia. rewrite (concat1_unfold lc a Ha). assert (AllS : forall b, In b lc -> shape b = [n; 1]).
    { intros b H. unfold lc in H. apply in_map_iff in H. destruct H as (c & <- & H). apply Sc. exact H. }
    rewrite (proj2 (forallb_forall _ _)).
    - rewrite SUMc, (AllS a Ia). reflexivity.
    - intros b H. rewrite (AllS b H), (AllS a Ia). cbn. rewrite !Nat.eqb_refl. cbn. reflexivity. }
  assert (CR : concat0 lr = Ok {| shape := [length t; n]; elems := List.concat (map elems lr) |}).
  { destruct (hd_error_map (fun c : string * nda => as_row (snd c)) t NE) as (a & Ha & Ia). fold lr in Ha, Ia. rewrite (concat0_unfold lr a Ha). assert (AllS : forall b, In b lr -> shape b = [1; n]).
    { intros b H. unfold lr in H. apply in_map_iff in H. destruct H as (c & <- & H). apply Sr. exact H. }
    rewrite (proj2 (forallb_forall _ _)).
    - rewrite SUMr, (AllS a Ia). reflexivity.
    - intros b H. rewrite (AllS b H), (AllS a Ia). cbn. apply list_eqb_eq. reflexivity. }
  assert (Fc : Forall (fun c => length c = length t) (map rowi (seq 0 n))).
  { apply Forall_forall. intros c H. apply in_map_iff in H. destruct H as (i & <- & H). apply in_seq in H. apply Rlen. lia. }
  assert (Fr : Forall (fun c => length c = n) (map elems lr)).
  { apply Forall_forall. intros c H. apply in_map_iff in H. destruct H as (b & <- & H). unfold lr in H. apply in_map_iff in H. destruct H as (c & <- & H). destruct (Sr c H) as [_ ->]. apply LE. exact H. }
  assert (CL : forall w ls, Forall (fun c : list Z => length c = w) ls -> length (List.concat ls) = length ls * w).
  { intros w ls F. induction F as [|c ls Hc F IH]; [reflexivity|]. cbn [List.concat length Nat.mul]. rewrite app_length, IH, Hc. reflexivity. }
  assert (Ec : forall i j k a, i < n -> nth_error t j = Some (k, a) -> entry {| shape := [n; length t]; elems := List.concat (map rowi (seq 0 n)) |} i j = nth_error (elems a) i).
  { intros i j k a Hi Hj. assert (J : j < length t) by (apply nth_error_Some; congruence). unfold entry. cbn [shape elems]. destruct (Nat.ltb_spec i n); [|lia]. destruct (Nat.ltb_spec j (length t)); [|lia]. cbn [andb].
    rewrite (concat_entry (length t)); [|exact Fc|exact J|rewrite map_length, seq_length; exact Hi]. rewrite (nth_indep _ [] (rowi 0)) by (rewrite map_length, seq_length; exact Hi).
    rewrite map_nth, seq_nth by exact Hi. exact (Rnth i j k a Hi Hj). }
  eexists _, _. split; [exact CC|]. split; [exact CR|]. cbn [shape]. split; [reflexivity|]. split; [reflexivity|]. split; [|split; [|split]].
  - unfold nda_ok. cbn [shape elems size fold_right]. rewrite (CL _ _ Fc), map_length, seq_length. lia.
  - unfold nda_ok. cbn [shape elems size fold_right]. rewrite (CL _ _ Fr). unfold lr. rewrite !map_length. lia.
  - exact Ec.
  - intros i j Hi Hj. destruct (nth_error t j) as [[k a]|] eqn:T; [|apply nth_error_None in T; lia]. rewrite (Ec i j k a Hi T). unfold entry. cbn [shape elems].
    destruct (Nat.ltb_spec j (length t)); [|lia]. destruct (Nat.ltb_spec i n); [|lia]. cbn [andb]. rewrite (concat_entry n); [|exact Fr|exact Hi|unfold lr; rewrite !map_length; exact Hj].
    f_equal. unfold lr. rewrite map_map. apply nth_error_nth with (d := []). 
    change (elems a) with ((fun c : string * nda => elems (snd c)) (k, a)). rewrite (map_nth_error (fun x => elems (as_row (snd x))) j t T). f_equal. cbn [snd]. destruct (Sr (k, a) (nth_error_In _ _ T)) as [_ E]. exact E.
Qed.
Print Assumptions C81_vectors.

(** Columns of any dimension side by side: col_stacked joins the rows (a vector counts as one element per row), row by row. *)
Theorem C81_col_stacked : forall t m, Forall (fun c => nda_ok (snd c)) t -> col_stacked t = Ok m ->
  exists n, Forall (fun c => hd 1 (shape (snd c)) = n) t /\ hd 0 (shape m) = n /\ nda_ok m /\
    forall i, i < n -> nth i (rows_of m) [] = List.concat (map (fun c => match shape (snd c) with [] => elems (snd c) | _ => nth i (rows_of (snd c)) [] end) t).
Proof.
  intros t m OK H. unfold col_stacked in H. set (l := map (fun c => as_column (snd c)) t) in H. assert (NEt : t <> []) by (intros X; unfold l in H; rewrite X in H; discriminate).
  destruct (hd_error_map (fun c : string * nda => as_column (snd c)) t NEt) as (a & Ha & Ia). fold l in Ha, Ia. rewrite (concat1_unfold l a Ha) in H.
  set (n := hd 0 (shape a)) in H. destruct (forallb _ l) eqn:FB; [|discriminate]. inversion H; subst m; clear H. rewrite forallb_forall in FB.
  assert (D : forall b, In b l -> exists w, shape b = n :: w :: tl (tl (shape a)) /\ nda_ok b).
  { intros b Hb. specialize (FB b Hb). apply andb_true_iff in FB. destruct FB as [F1 F2]. apply andb_true_iff in F2. destruct F2 as [F2 F3]. apply Nat.eqb_eq in F1, F2. apply list_eqb_eq in F3.
    unfold l in Hb. apply in_map_iff in Hb. destruct Hb as (c & <- & Hc). rewrite Forall_forall in OK. specialize (OK c Hc). unfold nda_ok, as_column in *.
    destruct (shape (snd c)) as [|x [|y s]] eqn:S; cbn [shape hd tl] in *; try rewrite S in *; cbn [hd tl] in *; subst n.
    - exists 1. rewrite F2, <- F3. split; [reflexivity|]. cbn in *. lia.
    - exists 1. rewrite F2, <- F3. split; [reflexivity|]. cbn in *. lia.
    - exists y. rewrite F2, <- F3. split; [reflexivity|]. rewrite <- F2. exact OK. }
  set (rest := tl (tl (shape a))) in *. set (W := list_sum (map (fun b => hd 0 (tl (shape b))) l)) in *.
  assert (ROW : forall b i, In b l -> i < n -> length (nth i (rows_of b) []) = hd 0 (tl (shape b)) * size rest).
  { intros b i Hb Hi. destruct (D b Hb) as (w & S & O). unfold rows_of. rewrite S. cbn [hd tl]. unfold nda_ok in O. rewrite S in O. cbn [size fold_right] in O. fold (size rest) in O.
    destruct (chunks_concat (size (w :: rest)) n (elems b)) as [_ F]; [cbn [size fold_right]; fold (size rest); exact O|]. rewrite Forall_forall in F. apply F. apply nth_In. rewrite chunks_length. exact Hi. }
  assert (RL : forall i, i < n -> length (List.concat (map (fun b => nth i (rows_of b) []) l)) = W * size rest).
  { intros i Hi. subst W. clear Ha Ia FB D. clearbody l. induction l as [|b l IH]; [reflexivity|]. cbn [map List.concat list_sum fold_right]. rewrite app_length.
    unfold list_sum in IH. rewrite IH; [|intros b' i' Hb' Hi'; apply ROW; [right; exact Hb'|exact Hi']]. rewrite (ROW b i (or_introl eq_refl) Hi). lia. }
  assert (F : Forall (fun c => length c = W * size rest) (map (fun i => List.concat (map (fun b => nth i (rows_of b) []) l)) (seq 0 n))).
  { apply Forall_forall. intros c Hc. apply in_map_iff in Hc. destruct Hc as (i & <- & Hi). apply in_seq in Hi. apply RL. lia. }
  assert (CL : forall w ls, Forall (fun c : list Z => length c = w) ls -> length (List.concat ls) = length ls * w /\ forall k, k = length ls -> chunks k w (List.concat ls) = ls).
  { intros w ls F'. induction F' as [|c ls Hc F' IH]; [split; [reflexivity|intros k ->; reflexivity]|]. destruct IH as [IH1 IH2]. split.
    - cbn [List.concat length Nat.mul]. rewrite app_length, IH1, Hc. reflexivity.
    - intros k ->. cbn [length chunks List.concat]. rewrite <- Hc. rewrite firstn_app, firstn_all, Nat.sub_diag, firstn_O, app_nil_r. rewrite skipn_app, skipn_all, Nat.sub_diag, skipn_O. cbn [app]. rewrite Hc. f_equal. apply IH2. reflexivity. }
  exists n. split; [|split; [reflexivity|split]].
  - apply Forall_forall. intros c Hc. assert (Hb : In (as_column (snd c)) l) by (unfold l; apply in_map_iff; exists c; auto). destruct (D _ Hb) as (w & S & _). unfold as_column in S.
    destruct (shape (snd c)) as [|x [|y s]] eqn:E; cbn [shape hd] in *; try congruence.
  - unfold nda_ok. cbn [shape elems size fold_right]. fold (size rest). destruct (CL _ _ F) as [-> _]. rewrite map_length, seq_length. reflexivity.
  - intros i Hi. unfold rows_of at 1. cbn [shape elems]. cbn [size fold_right]. fold (size rest). destruct (CL _ _ F) as [_ C2]. rewrite (C2 n) by (rewrite map_length, seq_length; reflexivity).
    rewrite (nth_indep _ [] (List.concat (map (fun b => nth 0 (rows_of b) []) l))) by (rewrite map_length, seq_length; exact Hi).
    rewrite (map_nth (fun i => List.concat (map (fun b => nth i (rows_of b) []) l))), seq_nth by exact Hi. cbn [Nat.add]. unfold l. rewrite map_map. f_equal. apply map_ext_in. intros c Hc.
    assert (Hb : In (as_column (snd c)) l) by (unfold l; apply in_map_iff; exists c; auto). destruct (D _ Hb) as (w & S & O). unfold as_column in *. rewrite Forall_forall in OK. specialize (OK c Hc). unfold nda_ok in OK.
    destruct (shape (snd c)) as [|x [|y s]] eqn:E; cbn [shape] in S; unfold rows_of; rewrite ?E; cbn [shape elems]; try reflexivity.
    injection S as S1 S2 S3. assert (i = 0) by lia. subst i. cbn in OK |- *. destruct (elems (snd c)) as [|e [|e2 es]]; cbn in OK |- *; try lia; reflexivity.
Qed.
Print Assumptions C81_col_stacked.

(** What is refused (always ValueError): the empty table; vectors of different lengths. *)
Theorem C81_refused : col_stacked [] = Err ValueError /\ row_stacked [] = Err ValueError /\
  forall t, Forall (fun c => exists n, shape (snd c) = [n]) t -> (exists c d, In c t /\ In d t /\ shape (snd c) <> shape (snd d)) -> col_stacked t = Err ValueError /\ row_stacked t = Err ValueError.
Proof.
  split; [reflexivity|]. split; [reflexivity|]. intros t F (c & d & Hc & Hd & N). rewrite Forall_forall in F. destruct (F c Hc) as [n Hn]. destruct (F d Hd) as [m Hm]. assert (NM : n <> m) by congruence.
  split; [unfold col_stacked|unfold row_stacked].
  - set (l := map (fun c => as_column (snd c)) t). assert (Ic : In (as_column (snd c)) l) by (unfold l; apply in_map_iff; eauto). assert (Id : In (as_column (snd d)) l) by (unfold l; apply in_map_iff; eauto).
    assert (X : exists a, hd_error l = Some a) by (destruct l; [destruct Ic|eexists; reflexivity]). destruct X as [a Ha]. rewrite (concat1_unfold l a Ha). destruct (forallb _ l) eqn:FB; [|reflexivity]. exfalso. rewrite forallb_forall in FB.
    pose proof (FB _ Ic) as H1. pose proof (FB _ Id) as H2. unfold as_column in H1, H2. rewrite Hn in H1. rewrite Hm in H2. cbn [shape hd] in H1, H2. apply andb_true_iff in H1, H2. destruct H1 as [_ H1], H2 as [_ H2]. apply andb_true_iff in H1, H2. destruct H1 as [H1 _], H2 as [H2 _]. apply Nat.eqb_eq in H1, H2. congruence.
  - set (l := map (fun c => as_row (snd c)) t). assert (Ic : In (as_row (snd c)) l) by (unfold l; apply in_map_iff; eauto). assert (Id : In (as_row (snd d)) l) by (unfold l; apply in_map_iff; eauto).
    assert (X : exists a, hd_error l = Some a) by (destruct l; [destruct Ic|eexists; reflexivity]). destruct X as [a Ha]. rewrite (concat0_unfold l a Ha). destruct (forallb _ l) eqn:FB; [|reflexivity]. exfalso. rewrite forallb_forall in FB.
    pose proof (FB _ Ic) as H1. pose proof (FB _ Id) as H2. unfold as_row in H1, H2. rewrite Hn in H1. rewrite Hm in H2. cbn [shape tl] in H1, H2. apply andb_true_iff in H1, H2. destruct H1 as [_ H1], H2 as [_ H2]. apply list_eqb_eq in H1, H2. congruence.
Qed.
Print Assumptions C81_refused.
(** Columns of any dimension on top of each other: row_stacked succeeds exactly when there is a column and all columns agree in the shape of one row (a number
    is one row of one entry, a vector is one row), and it lists the columns' elements one after another; anything else is a ValueError. *)
Definition row_shape (s : list nat) : list nat := match s with [] => [1] | [n] => [n] | _ :: s' => s' end.
Definition row_count (s : list nat) : nat := match s with [] => 1 | [_] => 1 | n :: _ => n end.
Theorem C81_row_stacked : forall t,
  (forall w, t <> [] -> Forall (fun c => row_shape (shape (snd c)) = w) t ->
     row_stacked t = Ok {| shape := list_sum (map (fun c => row_count (shape (snd c))) t) :: w; elems := List.concat (map (fun c => elems (snd c)) t) |}) /\
  ((t = [] \/ exists c d, In c t /\ In d t /\ row_shape (shape (snd c)) <> row_shape (shape (snd d))) -> row_stacked t = Err ValueError).
Proof.
  assert (AR : forall a, tl (shape (as_row a)) = row_shape (shape a) /\ hd 0 (shape (as_row a)) = row_count (shape a) /\ elems (as_row a) = elems a /\
                         length (shape (as_row a)) = S (length (row_shape (shape a)))).
  { intros [s e]. unfold as_row. cbn [shape elems]. destruct s as [|n [|m s]]; cbn; auto. }
  intros t. split.
  - intros w NE F. destruct t as [|c0 t0]; [congruence|]. unfold row_stacked, concat0. cbn [map].
    set (t := c0 :: t0) in *. change (as_row (snd c0) :: map (fun c => as_row (snd c)) t0) with (map (fun c : string * nda => as_row (snd c)) t).
    assert (W0 : row_shape (shape (snd c0)) = w) by (inversion F; assumption).
    match goal with |- (if ?b then _ else _) = _ => assert (B : b = true) end.
    { apply forallb_forall. intros b Hb. apply in_map_iff in Hb. destruct Hb as (c & <- & Hc). rewrite Forall_forall in F. pose proof (F c Hc) as Wc.
      destruct (AR (snd c)) as (A1 & _ & _ & A4), (AR (snd c0)) as (B1 & _ & _ & B4). rewrite A1, B1, A4, B4, Wc, W0. rewrite Nat.eqb_refl. unfold list_eqb. destruct (list_eq_dec Nat.eq_dec w w); [reflexivity|congruence]. }
    rewrite B. rewrite !map_map. destruct (AR (snd c0)) as (B1 & B2 & B3 & _). rewrite B1, W0. cbn [map]. rewrite B2, B3.
    rewrite (map_ext (fun x : string * nda => hd 0 (shape (as_row (snd x)))) (fun c => row_count (shape (snd c))) (fun c => proj1 (proj2 (AR (snd c))))).
    rewrite (map_ext (fun x : string * nda => elems (as_row (snd x))) (fun c => elems (snd c)) (fun c => proj1 (proj2 (proj2 (AR (snd c)))))). reflexivity.
  - intros [->|(c & d & Hc & Hd & N)]; [reflexivity|]. unfold row_stacked, concat0. destruct t as [|c0 t0]; [destruct Hc|]. cbn [map].
    set (t := c0 :: t0) in *. change (as_row (snd c0) :: map (fun c => as_row (snd c)) t0) with (map (fun c : string * nda => as_row (snd c)) t).
    match goal with |- (if ?b then _ else _) = _ => destruct b eqn:B; [exfalso|reflexivity] end.
    rewrite forallb_forall in B. assert (K : forall c, In c t -> row_shape (shape (snd c)) = row_shape (shape (snd c0))).
    { intros e He. specialize (B (as_row (snd e)) (in_map _ _ _ He)). apply andb_true_iff in B. destruct B as [_ B]. apply list_eqb_eq in B.
      rewrite (proj1 (AR (snd e))), (proj1 (AR (snd c0))) in B. exact B. }
    apply N. rewrite (K c Hc), (K d Hd). reflexivity.
Qed.
Print Assumptions C81_row_stacked.
(** Non-vacuity: a number, a vector of one entry and a 2 x 1 array stack to four rows. *)
Example row_stacked_ex : row_stacked [("a", {| shape := []; elems := [5%Z] |}); ("b", {| shape := [1]; elems := [6%Z] |}); ("c", {| shape := [2; 1]; elems := [7%Z; 8%Z] |})]%string
  = Ok {| shape := [4; 1]; elems := [5%Z; 6%Z; 7%Z; 8%Z] |}.
Proof. reflexivity. Qed.

(** Finding: row_stacked takes a vector as one row even when the other columns have one row per object, so that with as many objects as components the
    call succeeds with objects and components mixed up. *)
Theorem C81_row_stacked_mixed : forall k1 k2 n v p, length v = n -> length p = n * n -> n <> 0 ->
  row_stacked [(k1, {| shape := [n]; elems := v |}); (k2, {| shape := [n; n]; elems := p |})] = Ok {| shape := [1 + n; n]; elems := v ++ p |} /\
  (forall m, m <> n -> forall q, row_stacked [(k1, {| shape := [n]; elems := v |}); (k2, {| shape := [n; m]; elems := q |})] = Err ValueError).
Proof.
  intros k1 k2 n v p Lv Lp N. unfold row_stacked, as_row, concat0. cbn [map snd shape elems forallb length tl hd]. split.
  - replace (list_eqb [n] [n]) with true by (symmetry; apply list_eqb_eq; reflexivity). cbn. rewrite app_nil_r, Nat.add_0_r. reflexivity.
  - intros m M q. replace (list_eqb [m] [n]) with false by (symmetry; apply not_true_is_false; rewrite list_eqb_eq; congruence). cbn. rewrite andb_false_r. reflexivity.
Qed.
Print Assumptions C81_row_stacked_mixed.

(** A table made from to_dict_of_list of a table is the same table: same names, order, elements and shapes.  Only what follows a zero dimension is lost
    (an array of shape (0, 3) comes back as (0,)). *)
Fixpoint np_array_list (l : list pylist) : result (list nda) := match l with [] => Ok [] | x :: l' => bind (np_array x) (fun a => bind (np_array_list l') (fun r => Ok (a :: r))) end.
Lemma np_array_eq l : np_array (PList l) = bind (np_array_list l) (fun l' => match l' with [] => Ok {| shape := [0]; elems := [] |} | a :: _ => if forallb (fun b => list_eqb (shape b) (shape a)) l' then Ok {| shape := length l' :: shape a; elems := List.concat (map elems l') |} else Err ValueError end).
Proof.
  cbn [np_array]. f_equal. 
Qed.
Lemma tolist_back : forall s l, length l = size s -> np_array (tolist s l) = Ok {| shape := listed_shape s; elems := l |}.
Proof.
  induction s as [|n s IH]; intros l L.
  - cbn in L. destruct l as [|x [|y l]]; try discriminate. reflexivity.
  - cbn [tolist]. rewrite np_array_eq. cbn [size fold_right] in L. fold (size s) in L. destruct (chunks_concat (size s) n l L) as [E F].
    assert (M : np_array_list (map (tolist s) (chunks n (size s) l)) = Ok (map (fun c => {| shape := listed_shape s; elems := c |}) (chunks n (size s) l))).
    { revert F. generalize (chunks n (size s) l) as cs. induction cs as [|c cs IHc]; intros F; [reflexivity|]. inversion F; subst. cbn [map np_array_list]. rewrite IH by assumption. cbn [bind]. rewrite IHc by assumption. reflexivity. }
    rewrite M. cbn [bind]. destruct n as [|n]; [cbn in L; destruct l; [reflexivity|discriminate]|].
    assert (Lc : length (chunks (S n) (size s) l) = S n) by apply chunks_length. destruct (chunks (S n) (size s) l) as [|c cs] eqn:Ec; [discriminate|]. cbn [map].
    rewrite (proj2 (forallb_forall _ _)).
    + f_equal. f_equal; [cbn [listed_shape length shape]; rewrite map_length; cbn in Lc; congruence|]. change ({| shape := listed_shape s; elems := c |} :: map (fun c0 => {| shape := listed_shape s; elems := c0 |}) cs) with (map (fun c0 => {| shape := listed_shape s; elems := c0 |}) (c :: cs)).
      rewrite map_map. cbn [elems]. rewrite map_id. exact E.
    + intros b [<-|Hb]; [apply list_eqb_eq; reflexivity|]. apply in_map_iff in Hb. destruct Hb as (c' & <- & _). apply list_eqb_eq. reflexivity.
Qed.
Theorem C81_lists : forall t, Forall (fun c => nda_ok (snd c)) t ->
  mtable_of_lists (to_dict_of_list t) = Ok (map (fun c => (fst c, {| shape := listed_shape (shape (snd c)); elems := elems (snd c) |})) t) /\
  (Forall (fun c => forall i, nth_error (shape (snd c)) i = Some 0 -> S i = length (shape (snd c))) t -> mtable_of_lists (to_dict_of_list t) = Ok t).
Proof.
  intros t OK.
  assert (M : mtable_of_lists (to_dict_of_list t) = Ok (map (fun c => (fst c, {| shape := listed_shape (shape (snd c)); elems := elems (snd c) |})) t)).
  { induction OK as [|[k a] t O OK IH]; [reflexivity|]. unfold mtable_of_lists, to_dict_of_list in *. cbn [map mapM fst snd]. rewrite tolist_back by exact O. cbn [rmap bind]. rewrite IH. reflexivity. }
  split; [exact M|]. intros Z. rewrite M. f_equal. transitivity (map (fun x => x) t); [|apply map_id]. apply map_ext_in. intros [k [s e]] Hin. rewrite Forall_forall in Z. specialize (Z _ Hin). cbn [fst snd shape elems] in *.
  do 2 f_equal. clear - Z. induction s as [|n s IH]; [reflexivity|]. destruct n as [|n]; [specialize (Z 0 eq_refl); destruct s; [reflexivity|discriminate]|]. cbn [listed_shape]. f_equal. apply IH. intros i Hi. specialize (Z (S i) Hi). cbn in Z. lia.
Qed.
Print Assumptions C81_lists.

Definition ex_t : mtable := [("x", {| shape := [3]; elems := [1; 2; 3]%Z |}); ("pos", {| shape := [3; 2]; elems := [10; 11; 20; 21; 30; 31]%Z |})]%string.
Example ex_col : col_stacked ex_t = Ok {| shape := [3; 3]; elems := [1; 10; 11; 2; 20; 21; 3; 30; 31]%Z |}. Proof. reflexivity. Qed.
Example ex_row : row_stacked ex_t = Err ValueError. Proof. reflexivity. Qed.
Example ex_list : np_array (tolist [0; 3] []) = Ok {| shape := [0]; elems := [] |} /\ np_array (tolist [2; 0] []) = Ok {| shape := [2; 0]; elems := [] |}. Proof. split; reflexivity. Qed.
