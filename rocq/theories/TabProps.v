(** Property theorems C80: tabulated halo quantities and the interpolator of lg sigma. *)
From Coq Require Import Reals Lra Lia Permutation.
From Verif Require Import Base OrderSpec InterpModel InterpProofs LinModel LinProofs CosmModel CosmProps PowModel PowProps HaloModel HaloProofs TabModel.
Local Open Scope list_scope. Local Open Scope R_scope.

(** [v] is on the straight line between the two neighbouring points of the table around [q]. *)
Definition on_line (xs ys : list R) (q v : R) : Prop := exists i xl xr yl yr,
  nth_error xs i = Some xl /\ nth_error xs (S i) = Some xr /\ nth_error ys i = Some yl /\ nth_error ys (S i) = Some yr /\
  xl <= q <= xr /\ v = yl + (yr - yl) * (q - xl) / (xr - xl).

Lemma nth_combine {A B} : forall (xs : list A) (ys : list B) i p, nth_error (combine xs ys) i = Some p -> nth_error xs i = Some (fst p) /\ nth_error ys i = Some (snd p).
Proof.
  induction xs as [|x xs IH]; intros ys i p H; [destruct i; discriminate|]. destruct ys as [|y ys]; [destruct i; discriminate|].
  destruct i as [|i]; [injection H as <-; auto|exact (IH ys i p H)].
Qed.
Lemma combine_nth_some {A B} : forall (xs : list A) (ys : list B) i x y, nth_error xs i = Some x -> nth_error ys i = Some y -> nth_error (combine xs ys) i = Some (x, y).
Proof.
  induction xs as [|x xs IH]; intros ys i a b Ha Hb; [destruct i; discriminate|]. destruct ys as [|y ys]; [destruct i; discriminate|].
  destruct i as [|i]; [cbn in *; congruence|exact (IH ys i a b Ha Hb)].
Qed.
Lemma last_nth {A} : forall (l : list A) d, l <> [] -> nth_error l (length l - 1) = Some (last l d).
Proof.
  induction l as [|x l IH]; intros d N; [congruence|]. destruct l as [|y l]; [reflexivity|].
  change (last (x :: y :: l) d) with (last (y :: l) d). rewrite <- (IH d) by discriminate. cbn [length]. replace (S (S (length l)) - 1)%nat with (S (S (length l) - 1)) by lia. reflexivity.
Qed.
Lemma interp1d_good xs ys : length xs = length ys -> (2 <= length xs)%nat -> climbing xs ->
  exists f x0 xn, interp1d xs ys false = Ok f /\ nth_error xs 0 = Some x0 /\ nth_error xs (length xs - 1) = Some xn /\
    (forall q, q < x0 \/ xn < q -> f q = Err ValueError) /\ (forall q, x0 <= q <= xn -> exists v, f q = Ok v /\ on_line xs ys q v) /\
    (forall i x y, nth_error xs i = Some x -> nth_error ys i = Some y -> f x = Ok y).
Proof.
  intros E L C. rewrite (interp1d_sorted xs ys false E L C). assert (S : sorted (combine xs ys)) by (unfold sorted; rewrite combine_fst; assumption).
  assert (LC : length (combine xs ys) = length xs) by (rewrite combine_length; lia).
  assert (NE : combine xs ys <> []) by (intros X; rewrite X in LC; cbn in LC; lia).
  pose proof (last_nth _ (0, 0) NE) as HL. rewrite LC in HL. set (pl := last (combine xs ys) (0, 0)) in *. apply nth_combine in HL. destruct HL as [HL1 HL2].
  destruct xs as [|x0 xs]; [cbn in L; lia|]. destruct ys as [|y0 ys]; [discriminate|]. cbn [combine hd fst].
  eexists _, x0, (fst pl). split; [reflexivity|]. split; [reflexivity|]. split; [exact HL1|].
  assert (IN : forall q, x0 <= q <= fst pl -> (if Rlt_dec q x0 then Err ValueError else if Rlt_dec (fst pl) q then Err ValueError else Ok (pwl (combine (x0 :: xs) (y0 :: ys)) q)) = Ok (pwl (combine (x0 :: xs) (y0 :: ys)) q)).
  { intros q Hq. destruct (Rlt_dec q x0); [lra|]. destruct (Rlt_dec (fst pl) q); [lra|reflexivity]. }
  split; [|split].
  - intros q [Hq|Hq]; destruct (Rlt_dec q x0); try lra; destruct (Rlt_dec (fst pl) q); try lra; reflexivity.
  - intros q Hq. exists (pwl (combine (x0 :: xs) (y0 :: ys)) q). split; [apply IN; exact Hq|].
    destruct (valid_exists (combine (x0 :: xs) (y0 :: ys)) q ltac:(lia)) as (i & p & p' & V). rewrite (pwl_valid _ _ _ _ _ S V).
    pose proof (valid_diff _ _ _ _ _ S V) as D. destruct V as (H1 & H2 & H3 & H4). apply nth_combine in H1, H2. destruct H1 as [A1 A2], H2 as [B1 B2].
    exists i, (fst p), (fst p'), (snd p), (snd p'). split; [exact A1|]. split; [exact B1|]. split; [exact A2|]. split; [exact B2|]. split.
    + split.
      * destruct H3 as [->|H3]; [cbn in A1; injection A1 as <-; lra|exact H3].
      * destruct H4 as [H4|H4]; [|exact H4]. rewrite LC in H4. replace (Datatypes.S i) with (length (x0 :: xs) - 1)%nat in B1 by (rewrite <- H4; lia). rewrite HL1 in B1. injection B1 as B1. lra.
    + unfold lerp. field. lra.
  - intros i x y Hx Hy. pose proof (combine_nth_some _ _ _ _ _ Hx Hy) as Hp. pose proof (pwl_node _ _ _ S ltac:(lia) Hp) as PN. cbn [fst snd] in PN. rewrite <- PN. apply IN.
    assert (I : (i < length (x0 :: xs))%nat) by (apply nth_error_Some; congruence). split.
    + destruct i as [|i]; [cbn in Hx; injection Hx as <-; lra|]. left. apply (C 0%nat (Datatypes.S i) x0 x); [lia|reflexivity|exact Hx].
    + destruct (Nat.eq_dec i (length (x0 :: xs) - 1)) as [->|N]; [rewrite HL1 in Hx; injection Hx as <-; lra|]. left. apply (C i (length (x0 :: xs) - 1)%nat x (fst pl)); [lia|exact Hx|exact HL1].
Qed.

(** A complete data file with increasing masses and redshifts. *)
Definition good_table (t : table) (z dc m s ds : list R) : Prop :=
  t = {| t_z := Some z; t_delta_c := Some dc; t_m := Some m; t_sigma := Some s; t_dsigma := Some ds |} /\
  length z = length dc /\ (2 <= length z)%nat /\ climbing z /\ length m = length s /\ length m = length ds /\ (2 <= length m)%nat /\ climbing m.
Lemma find_info_ok xs : xs <> [] -> exists i, find_info xs = Ok i.
Proof. destruct xs; [congruence|]. intros _. eexists. reflexivity. Qed.
Lemma long_ne {A} (l : list A) n : (2 <= n)%nat -> n = length l -> l <> [].
Proof. intros H E ->. cbn in E. lia. Qed.

(** The three quantities are the linear interpolations of their tables (each of the table of that name), exact at the tabulated points; a query out of
    the table's range, alone or in an array, is a ValueError. *)
Theorem C80_values : forall t z dc m s ds, good_table t z dc m s ds ->
  exists i, read_interps (Some t) = Ok i /\
  forall qty, let xs := match qty with LgDeltaC => z | _ => m end in let ys := match qty with LgSigma => s | DLgSigma => ds | LgDeltaC => dc end in
  exists x0 xn, nth_error xs 0 = Some x0 /\ nth_error xs (length xs - 1) = Some xn /\
    (forall qs, (forall q, In q qs -> x0 <= q <= xn) -> exists vs, fst (ask None (Some t) qty qs) = Ok vs /\ Forall2 (on_line xs ys) qs vs) /\
    (forall qs, (exists q, In q qs /\ (q < x0 \/ xn < q)) -> fst (ask None (Some t) qty qs) = Err ValueError) /\
    (forall k x y, nth_error xs k = Some x -> nth_error ys k = Some y -> fst (ask None (Some t) qty [x]) = Ok [y]).
Proof.
  intros t z dc m s ds (-> & E1 & L1 & C1 & E2 & E3 & L2 & C2).
  destruct (interp1d_good m s E2 L2 C2) as (fs & ms0 & msn & Is & Hms0 & Hmsn & Ps).
  destruct (interp1d_good m ds E3 L2 C2) as (fd & md0 & mdn & Id & Hmd0 & Hmdn & Pd).
  destruct (interp1d_good z dc E1 L1 C1) as (fc & z0 & zn & Ic & Hz0 & Hzn & Pc).
  destruct (find_info_ok z) as [i1 I1]; [eapply long_ne; [exact L1|reflexivity]|].
  destruct (find_info_ok dc) as [i2 I2]; [eapply long_ne; [exact L1|exact E1]|].
  destruct (find_info_ok m) as [i3 I3]; [eapply long_ne; [exact L2|reflexivity]|].
  destruct (find_info_ok s) as [i4 I4]; [eapply long_ne; [exact L2|exact E2]|].
  destruct (find_info_ok ds) as [i5 I5]; [eapply long_ne; [exact L2|exact E3]|].
  eexists. assert (RD : read_interps (Some {| t_z := Some z; t_delta_c := Some dc; t_m := Some m; t_sigma := Some s; t_dsigma := Some ds |}) =
    Ok {| n_z := i1; n_delta_c := i2; n_m := i3; n_sigma := i4; n_dsigma := i5; f_sigma := fs; f_dsigma := fd; f_delta_c := fc |}).
  { unfold read_interps. cbn [t_z t_delta_c t_m t_sigma t_dsigma item bind]. rewrite Is, Id, Ic. cbn [bind]. rewrite I1, I2, I3, I4, I5. reflexivity. }
  split; [exact RD|]. intros qty xs ys. unfold ask. rewrite RD. cbn [fst]. set (ii := {| n_z := i1; n_delta_c := i2; n_m := i3; n_sigma := i4; n_dsigma := i5; f_sigma := fs; f_dsigma := fd; f_delta_c := fc |}).
  assert (W : exists x0 xn, nth_error xs 0 = Some x0 /\ nth_error xs (length xs - 1) = Some xn /\
    (forall q, q < x0 \/ xn < q -> pick ii qty q = Err ValueError) /\ (forall q, x0 <= q <= xn -> exists v, pick ii qty q = Ok v /\ on_line xs ys q v) /\
    (forall i x y, nth_error xs i = Some x -> nth_error ys i = Some y -> pick ii qty x = Ok y)).
  { subst xs ys. destruct qty; cbn [pick f_sigma f_dsigma f_delta_c ii]; [exists ms0, msn|exists md0, mdn|exists z0, zn]; auto. }
  destruct W as (x0 & xn & H0 & Hn & Hout & Hin & Hnode). exists x0, xn. split; [exact H0|]. split; [exact Hn|]. split; [|split].
  - induction qs as [|q qs IH]; intros Hq; [exists []; split; [reflexivity|constructor]|]. destruct IH as (vs & V1 & V2); [intros q' Hq'; apply Hq; right; exact Hq'|].
    destruct (Hin q (Hq q (or_introl eq_refl))) as (v & Hv & Hl). exists (v :: vs). split; [|constructor; assumption]. cbn [mapM]. rewrite Hv. cbn [bind]. rewrite V1. reflexivity.
  - intros qs (q & Hq & Ho). induction qs as [|q' qs IH]; [destruct Hq|]. cbn [mapM]. destruct Hq as [->|Hq]; [rewrite (Hout q Ho); reflexivity|]. specialize (IH Hq).
    destruct (Rlt_dec q' x0) as [A|A]; [rewrite (Hout q') by auto; reflexivity|]. destruct (Rlt_dec xn q') as [B|B]; [rewrite (Hout q') by auto; reflexivity|].
    destruct (Hin q') as (v & -> & _); [lra|]. cbn [bind]. rewrite IH. reflexivity.
  - intros k x y Hx Hy. cbn [mapM]. rewrite (Hnode k x y Hx Hy). reflexivity.
Qed.
Print Assumptions C80_values.

(** The order of the rows of the file does not matter: rows in any order give the same interpolator, or the same refusal. *)
Lemma ins_perm p : forall l, Permutation (ins p l) (p :: l).
Proof.
  induction l as [|q l IH]; [apply Permutation_refl|]. cbn [ins]. destruct (Rlt_dec (fst q) (fst p)); [|apply Permutation_refl].
  eapply Permutation_trans; [apply perm_skip; exact IH|apply perm_swap].
Qed.
Lemma isort_perm : forall l, Permutation (isort l) l.
Proof. induction l as [|p l IH]; [constructor|]. cbn [isort]. eapply Permutation_trans; [apply ins_perm|apply perm_skip; exact IH]. Qed.
Fixpoint weakly (l : list (R * R)) : Prop := match l with p :: ((q :: _) as l') => fst p <= fst q /\ weakly l' | _ => True end.
Lemma ins_weakly p : forall l, weakly l -> weakly (ins p l).
Proof.
  induction l as [|q l IH]; intros W; [exact I|]. cbn [ins]. destruct (Rlt_dec (fst q) (fst p)) as [H|H].
  - assert (W' : weakly l) by (destruct l; [exact I|apply W]). specialize (IH W'). destruct l as [|q' l].
    + cbn. split; [lra|exact I].
    + cbn [ins] in *. destruct (Rlt_dec (fst q') (fst p)).
      * destruct W as [W1 _]. split; [exact W1|exact IH].
      * split; [lra|exact IH].
  - split; [lra|exact W].
Qed.
Lemma isort_weakly : forall l, weakly (isort l).
Proof. induction l as [|p l IH]; [exact I|]. cbn [isort]. apply ins_weakly, IH. Qed.
Lemma weakly_all p : forall l, weakly (p :: l) -> forall q, In q l -> fst p <= fst q.
Proof.
  intros l. revert p. induction l as [|a l IH]; intros p W q Hq; [destruct Hq|]. destruct W as [W1 W2]. destruct Hq as [->|Hq]; [exact W1|]. specialize (IH a W2 q Hq). lra.
Qed.
Lemma weakly_tail p l : weakly (p :: l) -> weakly l.
Proof. destruct l; [intros; exact I|intros [_ H]; exact H]. Qed.
Lemma distinct_iff : forall l, weakly l -> (distinct l = true <-> NoDup (map fst l)).
Proof.
  induction l as [|p l IH]; intros W; [split; [constructor|reflexivity]|]. specialize (IH (weakly_tail _ _ W)). cbn [map]. rewrite NoDup_cons_iff. rewrite <- IH. clear IH.
  destruct l as [|q l]; [cbn; tauto|]. change (distinct (p :: q :: l)) with ((if Rlt_dec (fst p) (fst q) then true else false) && distinct (q :: l)).
  rewrite andb_true_iff. assert (X : (if Rlt_dec (fst p) (fst q) then true else false) = true <-> ~ In (fst p) (map fst (q :: l))); [|tauto].
  split.
  - destruct (Rlt_dec (fst p) (fst q)) as [H|H]; [|discriminate]. intros _ [HI|HI]; [lra|]. apply in_map_iff in HI. destruct HI as (a & Ea & Ha).
    pose proof (weakly_all q l (weakly_tail _ _ W) a Ha). lra.
  - intros N. destruct (Rlt_dec (fst p) (fst q)) as [H|H]; [reflexivity|]. exfalso. apply N. left. destruct W as [W _]. lra.
Qed.
Lemma sort_unique : forall l l', weakly l -> weakly l' -> NoDup (map fst l) -> Permutation l l' -> l = l'.
Proof.
  induction l as [|p l IH]; intros l' W W' N P; [symmetry; apply Permutation_nil; exact P|]. destruct l' as [|p' l']; [apply Permutation_sym, Permutation_nil in P; discriminate|].
  cbn [map] in N. apply NoDup_cons_iff in N. destruct N as [N1 N2].
  assert (E : p = p').
  { assert (I1 : In p' (p :: l)) by (eapply Permutation_in; [apply Permutation_sym; exact P|left; reflexivity]).
    assert (I2 : In p (p' :: l')) by (eapply Permutation_in; [exact P|left; reflexivity]).
    destruct I1 as [->|I1]; [reflexivity|]. destruct I2 as [->|I2]; [reflexivity|]. pose proof (weakly_all _ _ W _ I1). pose proof (weakly_all _ _ W' _ I2).
    exfalso. apply N1. replace (fst p) with (fst p') by lra. apply in_map. exact I1. }
  subst p'. f_equal. apply IH; [eapply weakly_tail; exact W|eapply weakly_tail; exact W'|exact N2|eapply Permutation_cons_inv; exact P].
Qed.
Lemma isort_any l l' : Permutation l l' -> distinct (isort l) = distinct (isort l') /\ (distinct (isort l) = true -> isort l = isort l').
Proof.
  intros P. assert (Q : Permutation (isort l) (isort l')) by (eapply Permutation_trans; [apply isort_perm|]; eapply Permutation_trans; [exact P|apply Permutation_sym, isort_perm]).
  assert (X : distinct (isort l) = true <-> distinct (isort l') = true).
  { rewrite !distinct_iff by apply isort_weakly. split; intros N; (eapply Permutation_NoDup; [|exact N]); apply Permutation_map; [exact Q|apply Permutation_sym; exact Q]. }
  split; [destruct (distinct (isort l)), (distinct (isort l')); intuition congruence|].
  intros D. apply sort_unique; [apply isort_weakly|apply isort_weakly|apply distinct_iff; [apply isort_weakly|exact D]|exact Q].
Qed.
Theorem C80_row_order : forall xs ys xs' ys' ex, length xs = length ys -> length xs' = length ys' -> Permutation (combine xs ys) (combine xs' ys') ->
  interp1d xs ys ex = interp1d xs' ys' ex.
Proof.
  intros xs ys xs' ys' ex E E' P. unfold interp1d. rewrite E, E', !Nat.eqb_refl. cbn [negb]. destruct (isort_any _ _ P) as [D S].
  assert (L : length (isort (combine xs ys)) = length (isort (combine xs' ys'))).
  { apply Permutation_length. eapply Permutation_trans; [apply isort_perm|]. eapply Permutation_trans; [exact P|apply Permutation_sym, isort_perm]. }
  rewrite <- L, <- D. destruct (Nat.ltb _ 2); [reflexivity|]. destruct (distinct (isort (combine xs ys))) eqn:DD; [|reflexivity]. cbn [negb]. rewrite (S eq_refl). reflexivity.
Qed.
Print Assumptions C80_row_order.

(** Which data files are refused, whatever is asked for: no file (FileNotFoundError), any of the five tables missing (KeyError), columns of unequal
    length, fewer than two rows or a repeated mass or redshift (ValueError). *)
Definition bad_pair (xs ys : list R) : Prop := length xs <> length ys \/ (length xs < 2)%nat \/ ~ NoDup xs.
Lemma interp1d_bad xs ys : bad_pair xs ys <-> interp1d xs ys false = Err ValueError.
Proof.
  unfold bad_pair, interp1d. destruct (Nat.eqb_spec (length xs) (length ys)) as [E|E]; cbn [negb]; [|split; [reflexivity|auto]].
  assert (L : length (isort (combine xs ys)) = length xs) by (rewrite (Permutation_length (isort_perm _)), combine_length; lia). rewrite L.
  destruct (Nat.ltb_spec (length xs) 2) as [H|H]; [split; [reflexivity|auto]|].
  assert (D : distinct (isort (combine xs ys)) = true <-> NoDup xs).
  { rewrite distinct_iff by apply isort_weakly. rewrite <- (combine_fst xs ys E) at 2. split; apply Permutation_NoDup; apply Permutation_map; [apply isort_perm|apply Permutation_sym, isort_perm]. }
  destruct (distinct (isort (combine xs ys))) eqn:DD; cbn [negb]; split; intros HH; try reflexivity; try discriminate.
  - exfalso. destruct HH as [HH|[HH|HH]]; [contradiction|lia|apply HH, D; reflexivity].
  - right; right. intros N. apply D in N. discriminate.
Qed.
Lemma interp1d_total xs ys : (exists f, interp1d xs ys false = Ok f) \/ interp1d xs ys false = Err ValueError.
Proof. unfold interp1d. destruct (negb _); [auto|]. destruct (Nat.ltb _ _); [auto|]. destruct (negb _); [auto|]. left. eexists. reflexivity. Qed.
Theorem C80_refused : forall qty qs,
  fst (ask None None qty qs) = Err FileNotFoundError /\
  (forall t, t_z t = None \/ t_delta_c t = None \/ t_m t = None \/ t_sigma t = None \/ t_dsigma t = None -> ask None (Some t) qty qs = (Err KeyError, None)) /\
  (forall z dc m s ds, let t := {| t_z := Some z; t_delta_c := Some dc; t_m := Some m; t_sigma := Some s; t_dsigma := Some ds |} in
     (bad_pair m s \/ bad_pair m ds \/ bad_pair z dc -> ask None (Some t) qty qs = (Err ValueError, None)) /\
     (~ (bad_pair m s \/ bad_pair m ds \/ bad_pair z dc) -> exists i, read_interps (Some t) = Ok i)).
Proof.
  intros qty qs. split; [reflexivity|]. split.
  - intros [z dc m s ds] H. cbn [t_z t_delta_c t_m t_sigma t_dsigma] in H. unfold ask, read_interps. cbn [t_z t_delta_c t_m t_sigma t_dsigma].
    destruct z; cbn [item bind]; [|reflexivity]. destruct dc; cbn [item bind]; [|reflexivity]. destruct m; cbn [item bind]; [|reflexivity].
    destruct s; cbn [item bind]; [|reflexivity]. destruct ds; cbn [item bind]; [|reflexivity]. intuition discriminate.
  - intros z dc m s ds t. unfold ask, read_interps, t. cbn [t_z t_delta_c t_m t_sigma t_dsigma item bind]. rewrite !interp1d_bad. split.
    + intros H. destruct (interp1d_total m s) as [[f1 E1]|E1]; rewrite E1; cbn [bind]; [|reflexivity].
      destruct (interp1d_total m ds) as [[f2 E2]|E2]; rewrite E2; cbn [bind]; [|reflexivity].
      destruct (interp1d_total z dc) as [[f3 E3]|E3]; rewrite E3; cbn [bind]; [|reflexivity]. rewrite E1, E2, E3 in H. intuition discriminate.
    + intros N. destruct (interp1d_total m s) as [[f1 E1]|E1]; [|tauto]. destruct (interp1d_total m ds) as [[f2 E2]|E2]; [|tauto]. destruct (interp1d_total z dc) as [[f3 E3]|E3]; [|tauto].
      rewrite E1, E2, E3. cbn [bind].
      assert (NE : forall xs ys f, interp1d xs ys false = Ok f -> xs <> [] /\ ys <> []).
      { intros xs ys f E. split; intros ->; unfold interp1d in E; cbn [length] in E; [destruct ys; discriminate|destruct xs; discriminate]. }
      destruct (NE _ _ _ E1) as [Nm Ns]. destruct (NE _ _ _ E2) as [_ Nd]. destruct (NE _ _ _ E3) as [Nz Nc].
      destruct (find_info_ok _ Nz) as [? ->]. destruct (find_info_ok _ Nc) as [? ->]. destruct (find_info_ok _ Nm) as [? ->]. destruct (find_info_ok _ Ns) as [? ->]. destruct (find_info_ok _ Nd) as [? ->].
      eexists. reflexivity.
Qed.
Print Assumptions C80_refused.

(** Any history of calls: as long as the file cannot be read every call fails as reading it then fails; from the first call that can read it on,
    every answer comes from the tables read at that moment, whatever later happens to the file. *)
Theorem C80_read_once : forall calls, exists early late, calls = early ++ late /\
  (forall c, In c early -> exists e, read_interps (fst (fst c)) = Err e) /\
  firstn (length early) (asks None calls) = map (fun c => match read_interps (fst (fst c)) with Err e => Err e | Ok _ => Ok [] end) early /\
  match late with
  | [] => True
  | (file, _, _) :: _ => exists i, read_interps file = Ok i /\ skipn (length early) (asks None calls) = map (fun c => mapM (pick i (snd (fst c))) (snd c)) late
  end.
Proof.
  assert (C : forall i calls, asks (Some i) calls = map (fun c => mapM (pick i (snd (fst c))) (snd c)) calls).
  { intros i. induction calls as [|[[f q] xs] calls IH]; [reflexivity|]. cbn [asks ask map fst snd]. rewrite IH. reflexivity. }
  induction calls as [|[[f q] xs] calls IH].
  - exists [], []. repeat split. intros c [].
  - destruct (read_interps f) as [i|e] eqn:E.
    + exists [], ((f, q, xs) :: calls). split; [reflexivity|]. split; [intros c []|]. split; [reflexivity|]. exists i. split; [exact E|].
      cbn [length skipn asks ask map fst snd]. unfold ask. rewrite E, C. reflexivity.
    + destruct IH as (early & late & Hc & He & Hf & Hl). exists ((f, q, xs) :: early), late. split; [rewrite Hc at 1; reflexivity|].
      split; [intros c [<-|Hin]; [exists e; exact E|apply He; exact Hin]|]. cbn [asks]. unfold ask. rewrite E. cbn [length firstn skipn map fst snd]. rewrite E, Hf. split; [reflexivity|exact Hl].
Qed.
Print Assumptions C80_read_once.

(** The ranges shown in the object's representation: first, last, and mean step = (last - first) / (number of steps). *)
Lemma diffs_sum x0 : forall xs, fold_right Rplus 0 (diffs (x0 :: xs)) = last (x0 :: xs) x0 - x0 /\ length (diffs (x0 :: xs)) = length xs.
Proof.
  intros xs. revert x0. induction xs as [|x1 xs IH]; intros x0; [split; [cbn; lra|reflexivity]|].
  destruct (IH x1) as [S L]. change (diffs (x0 :: x1 :: xs)) with (x1 - x0 :: diffs (x1 :: xs)). cbn [fold_right length]. rewrite S, L. split; [|reflexivity].
  change (last (x0 :: x1 :: xs) x0) with (last (x1 :: xs) x0). assert (X : forall l (a b c : R), last (c :: l) a = last (c :: l) b).
  { induction l as [|y l IHl]; intros a b c; [reflexivity|]. change (last (y :: l) a = last (y :: l) b). apply IHl. }
  rewrite (X xs x0 x1 x1). lra.
Qed.
Theorem C80_info : forall xs x0 xn, (2 <= length xs)%nat -> nth_error xs 0 = Some x0 -> nth_error xs (length xs - 1) = Some xn ->
  find_info xs = Ok {| i_first := x0; i_last := xn; i_step := (xn - x0) / INR (length xs - 1) |}.
Proof.
  intros [|x xs] x0 xn L H0 Hn; [cbn in L; lia|]. cbn in H0. injection H0 as ->. rewrite (last_nth _ x0) in Hn by discriminate. injection Hn as Hn. unfold find_info, mean.
  destruct (diffs_sum x0 xs) as [D1 D2]. rewrite D1, D2. change (match xs with [] => x0 | _ :: _ => last xs x0 end) with (last (x0 :: xs) x0) in Hn. rewrite Hn. cbn [length]. replace (S (length xs) - 1)%nat with (length xs) by lia. reflexivity.
Qed.
Print Assumptions C80_info.

(** ** The interpolator of lg sigma *)
Lemma Rltb_lt a b : Rltb a b = true <-> a < b.
Proof. unfold Rltb. destruct (Rlt_dec a b); split; intros; try discriminate; try contradiction; auto. Qed.
Lemma Rltb_ge a b : Rltb a b = false <-> b <= a.
Proof. unfold Rltb. destruct (Rlt_dec a b); split; intros; try discriminate; try lra; auto. Qed.
Lemma R_weak_order : weak_order Rltb.
Proof. constructor; intros *; rewrite ?Rltb_lt, ?Rltb_ge; intros; lra. Qed.
Lemma climbing_ascending xs : climbing xs -> ascending Rltb xs.
Proof. intros C i j a b L Ha Hb. apply Rltb_ge. left. exact (C i j a b L Ha Hb). Qed.
Lemma at_ok {A} (xs : list A) i x : nth_error xs i = Some x -> at_ xs i = Ok x.
Proof. intros H. unfold at_. rewrite H. reflexivity. Qed.
Lemma linear_regions xs ys x0 xn y0 yn : climbing xs -> length ys = length xs -> nth_error xs 0 = Some x0 -> nth_error xs (length xs - 1) = Some xn ->
  nth_error ys 0 = Some y0 -> nth_error ys (length xs - 1) = Some yn ->
  forall q, (q < x0 -> linear_value xs ys q = Ok y0) /\ (xn <= q -> linear_value xs ys q = Ok yn) /\
    (x0 <= q < xn -> exists v, linear_value xs ys q = Ok v /\ on_line xs ys q v).
Proof.
  intros C E H0 Hn Hy0 Hyn q. assert (NE : xs <> []) by (intros ->; discriminate).
  destruct (bisearch_spec Rltb xs q R_weak_order (climbing_ascending _ C) NE) as (i & B & Hr & H1 & H2). unfold linear_value. rewrite B. cbn [bind].
  assert (LE : (0 < length xs)%nat) by (destruct xs; [congruence|cbn; lia]).
  destruct (Z.ltb_spec i 0) as [L|L].
  - pose proof (H2 0%nat x0 H0 ltac:(lia)) as Q0. pose proof (H2 _ xn Hn ltac:(lia)) as Qn. apply Rltb_lt in Q0, Qn. cbn [bind]. rewrite (at_ok _ _ _ Hy0). cbn [bind].
    split; [intros _; f_equal; ring|]. split; intros; exfalso; lra.
  - pose proof (H1 0%nat x0 H0 ltac:(lia)) as Q0. apply Rltb_ge in Q0. split; [intros; exfalso; lra|].
    destruct (Z.ltb_spec (Z.of_nat (length xs) - 1) (i + 1)) as [M|M].
    + pose proof (H1 _ xn Hn ltac:(lia)) as Qn. apply Rltb_ge in Qn. cbn [bind]. rewrite (at_ok _ _ _ Hyn). cbn [bind]. split; [intros _; f_equal; ring|intros; exfalso; lra].
    + pose proof (H2 _ xn Hn ltac:(lia)) as Qn. apply Rltb_lt in Qn. split; [intros; exfalso; lra|]. intros _.
      destruct (nth_error xs (Z.to_nat i)) as [xl|] eqn:Xl; [|apply nth_error_None in Xl; lia]. destruct (nth_error xs (Z.to_nat (i + 1))) as [xr|] eqn:Xr; [|apply nth_error_None in Xr; lia].
      destruct (nth_error ys (Z.to_nat i)) as [yl|] eqn:Yl; [|apply nth_error_None in Yl; lia]. destruct (nth_error ys (Z.to_nat (i + 1))) as [yr|] eqn:Yr; [|apply nth_error_None in Yr; lia].
      rewrite (at_ok _ _ _ Xl), (at_ok _ _ _ Xr). cbn [bind]. cbv zeta. rewrite (at_ok _ _ _ Yl), (at_ok _ _ _ Yr). cbn [bind].
      pose proof (H1 _ xl Xl ltac:(lia)) as Ql. pose proof (H2 _ xr Xr ltac:(lia)) as Qr. apply Rltb_ge in Ql. apply Rltb_lt in Qr.
      eexists. split; [reflexivity|]. exists (Z.to_nat i), xl, xr, yl, yr. replace (S (Z.to_nat i)) with (Z.to_nat (i + 1)) by lia. repeat split; try assumption; [lra|]. field. lra.
Qed.
Lemma climbing_differ : forall xs, climbing xs -> all_differ xs = true.
Proof.
  induction xs as [|a xs IH]; intros C; [reflexivity|]. destruct xs as [|b xs]; [reflexivity|].
  change (all_differ (a :: b :: xs)) with ((if Req_EM_T (b - a) 0 then false else true) && all_differ (b :: xs)). rewrite IH.
  - pose proof (C 0%nat 1%nat a b ltac:(lia) eq_refl eq_refl). destruct (Req_EM_T (b - a) 0); [lra|reflexivity].
  - intros i j x y L Hx Hy. exact (C (S i) (S j) x y ltac:(lia) Hx Hy).
Qed.
Lemma linspace_length a b n : length (linspace a b n) = n.
Proof. unfold linspace. rewrite map_length, seq_length. reflexivity. Qed.
Lemma linspace_get a b n i : (2 <= n)%nat -> (i < n)%nat -> nth_error (linspace a b n) i = Some (a + INR i * ((b - a) / INR (n - 1))).
Proof.
  intros N I. destruct (nth_error (linspace a b n) i) as [x|] eqn:E; [|apply nth_error_None in E; rewrite linspace_length in E; lia].
  apply linspace_nth in E. destruct E as [_ ->]. destruct n as [|[|n]]; [lia|lia|reflexivity].
Qed.
Lemma linspace_ends a b n : (2 <= n)%nat -> nth_error (linspace a b n) 0 = Some a /\ nth_error (linspace a b n) (n - 1) = Some b.
Proof.
  intros N. rewrite !linspace_get by lia. split; f_equal; [cbn [INR]; ring|]. field. apply not_0_INR. lia.
Qed.

(** lg sigma at present, of the mass whose lg is given. *)
Definition lg_sigma_now (T : R -> R) (c : cosm) (lm : R) : R := lg (sqrt (sigma_sqr_at_mass T c (Rpower 10 lm) 0)).
(** For at least two nodes and an increasing range the interpolator takes the exact value at each of the n equally spaced nodes, is linear between neighbouring
    nodes and constant outside the range.  Fewer nodes, or an empty range, are an AssertionError. *)
Theorem C80_sigma_interpolator : forall T c lm1 lm2 n,
  ((n < 2)%nat \/ lm1 = lm2 -> interp_lg_sigma T c lm1 lm2 n = Err AssertionError) /\
  ((2 <= n)%nat -> lm1 < lm2 -> exists f, interp_lg_sigma T c lm1 lm2 n = Ok f /\
    let node i := lm1 + INR i * ((lm2 - lm1) / INR (n - 1)) in
    (forall q, q <= lm1 -> f q = Ok (lg_sigma_now T c lm1)) /\ (forall q, lm2 <= q -> f q = Ok (lg_sigma_now T c lm2)) /\
    (forall i, (i < n)%nat -> f (node i) = Ok (lg_sigma_now T c (node i))) /\
    (forall q, lm1 <= q <= lm2 -> exists i v, (S i < n)%nat /\ node i <= q <= node (S i) /\ f q = Ok v /\
       let yl := lg_sigma_now T c (node i) in let yr := lg_sigma_now T c (node (S i)) in
       v = yl + (yr - yl) * (q - node i) / (node (S i) - node i) /\ Rmin yl yr <= v <= Rmax yl yr)).
Proof.
  intros T c lm1 lm2 n. set (Y := lg_sigma_now T c). assert (DEF : interp_lg_sigma T c lm1 lm2 n = linear_checked (linspace lm1 lm2 n) (map Y (linspace lm1 lm2 n))) by reflexivity.
  rewrite DEF. clear DEF. split.
  - intros H. unfold linear_checked. rewrite map_length, Nat.eqb_refl, linspace_length. destruct (Nat.leb_spec 2 n) as [L|L].
    + destruct H as [H|H]; [lia|]. subst lm2. assert (X : all_differ (linspace lm1 lm1 n) = false); [|rewrite X; reflexivity].
      destruct (linspace lm1 lm1 n) as [|a [|b l]] eqn:E; [apply (f_equal (@length _)) in E; rewrite linspace_length in E; cbn in E; lia|apply (f_equal (@length _)) in E; rewrite linspace_length in E; cbn in E; lia|].
      pose proof (linspace_get lm1 lm1 n 0 L ltac:(lia)) as A. pose proof (linspace_get lm1 lm1 n 1 L ltac:(lia)) as B. rewrite E in A, B. cbn in A, B. injection A as A. injection B as B.
      change (all_differ (a :: b :: l)) with ((if Req_EM_T (b - a) 0 then false else true) && all_differ (b :: l)). destruct (Req_EM_T (b - a) 0) as [Z|Z]; [reflexivity|]. exfalso. apply Z. rewrite A, B. unfold Rdiv. ring.
    + destruct (true && _); reflexivity.
  - intros L LT. set (node := fun i => lm1 + INR i * ((lm2 - lm1) / INR (n - 1))). set (xs := linspace lm1 lm2 n).
    assert (C : climbing xs) by (apply linspace_climb; exact LT). assert (LX : length xs = n) by apply linspace_length.
    destruct (linspace_ends lm1 lm2 n L) as [E0 En]. fold xs in E0, En.
    assert (ND : forall i, (i < n)%nat -> nth_error xs i = Some (node i)) by (intros i I; apply linspace_get; assumption).
    exists (linear_value xs (map Y xs)). split.
    { unfold linear_checked. rewrite map_length, Nat.eqb_refl, (climbing_differ xs C), LX. cbn [andb]. destruct (Nat.leb_spec 2 n); [reflexivity|lia]. }
    pose proof (linear_regions xs (map Y xs) lm1 lm2 (Y lm1) (Y lm2) C ltac:(apply map_length) E0) as RG. rewrite LX in RG. specialize (RG En (map_nth_error Y _ _ E0) (map_nth_error Y _ _ En)).
    assert (MID : forall q, lm1 <= q < lm2 -> exists i v, (S i < n)%nat /\ node i <= q <= node (S i) /\ linear_value xs (map Y xs) q = Ok v /\ v = Y (node i) + (Y (node (S i)) - Y (node i)) * (q - node i) / (node (S i) - node i)).
    { intros q Hq. destruct (RG q) as (_ & _ & R3). destruct (R3 Hq) as (v & Ev & i & xl & xr & yl & yr & A1 & A2 & A3 & A4 & A5 & A6).
      assert (I : (S i < n)%nat) by (rewrite <- LX; apply nth_error_Some; congruence). rewrite (ND i) in A1 by lia. rewrite (ND (S i)) in A2 by lia. injection A1 as <-. injection A2 as <-.
      rewrite (map_nth_error Y _ _ (ND i ltac:(lia))) in A3. rewrite (map_nth_error Y _ _ (ND (S i) ltac:(lia))) in A4. injection A3 as <-. injection A4 as <-.
      exists i, v. auto. }
    assert (INC : forall i j, (i < j)%nat -> (j < n)%nat -> node i < node j) by (intros i j I J; apply (C i j); [exact I|apply ND; lia|apply ND; exact J]).
    assert (NODE : forall i, (i < n)%nat -> linear_value xs (map Y xs) (node i) = Ok (Y (node i))).
    { intros i I. destruct (Nat.eq_dec i (n - 1)) as [->|N].
      - assert (EE : node (n - 1)%nat = lm2) by (pose proof (ND (n - 1)%nat ltac:(lia)); congruence). rewrite EE. destruct (RG lm2) as (_ & R2 & _). apply R2. lra.
      - assert (B0 : lm1 <= node i).
        { assert (E00 : node 0%nat = lm1) by (pose proof (ND 0%nat ltac:(lia)); congruence). destruct i; [lra|]. rewrite <- E00. left. apply INC; lia. }
        assert (Bn : node i < lm2).
        { assert (EE : node (n - 1)%nat = lm2) by (pose proof (ND (n - 1)%nat ltac:(lia)); congruence). rewrite <- EE. apply INC; lia. }
        destruct (MID (node i)) as (j & v & J & JJ & Ev & Hv); [lra|]. rewrite Ev. f_equal. rewrite Hv. clear Hv Ev.
        pose proof (INC j (S j) ltac:(lia) J). assert (W : i = j \/ i = S j).
        { destruct (Nat.lt_trichotomy i j) as [A|[A|A]]; [exfalso; pose proof (INC i j A ltac:(lia)); lra|auto|]. destruct (Nat.eq_dec i (S j)) as [|A2]; [auto|]. exfalso. pose proof (INC (S j) i ltac:(lia) I). lra. }
        destruct W as [->| ->]; field; lra. }
    split; [|split; [|split]].
    + intros q Hq. destruct (Rle_lt_or_eq_dec _ _ Hq) as [H|H]; [destruct (RG q) as (R1 & _); apply R1; exact H|]. subst q.
      assert (E00 : node 0%nat = lm1) by (pose proof (ND 0%nat ltac:(lia)); congruence). rewrite <- E00. apply NODE. lia.
    + intros q Hq. destruct (RG q) as (_ & R2 & _). apply R2. exact Hq.
    + exact NODE.
    + intros q Hq. assert (X : exists i v, (S i < n)%nat /\ node i <= q <= node (S i) /\ linear_value xs (map Y xs) q = Ok v /\ v = Y (node i) + (Y (node (S i)) - Y (node i)) * (q - node i) / (node (S i) - node i)).
      { destruct (Req_dec q lm2) as [->|N]; [|apply MID; lra]. destruct (RG lm2) as (_ & R2 & _). assert (EE : node (n - 1)%nat = lm2) by (pose proof (ND (n - 1)%nat ltac:(lia)); congruence).
        pose proof (INC (n - 2)%nat (n - 1)%nat ltac:(lia) ltac:(lia)). exists (n - 2)%nat, (Y lm2). replace (S (n - 2)) with (n - 1)%nat by lia. rewrite EE in *. split; [lia|]. split; [lra|]. split; [apply R2; lra|]. field. lra. }
      destruct X as (i & v & I & B & Ev & Hv). exists i, v. split; [exact I|]. split; [exact B|]. split; [exact Ev|]. split; [exact Hv|].
      pose proof (INC i (S i) ltac:(lia) I) as D. set (w := (q - node i) / (node (S i) - node i)). assert (W0 : 0 <= w) by (apply Rmult_le_pos; [lra|left; apply Rinv_0_lt_compat; lra]).
      assert (W1 : w <= 1) by (unfold w; apply Rmult_le_reg_r with (node (S i) - node i); [lra|]; unfold Rdiv; rewrite Rmult_assoc, Rinv_l by lra; lra).
      assert (V : v = Y (node i) + (Y (node (S i)) - Y (node i)) * w) by (rewrite Hv; unfold w, Rdiv; ring). rewrite V. unfold Rmin, Rmax. destruct (Rle_dec (Y (node i)) (Y (node (S i)))); split; nra.
Qed.
Print Assumptions C80_sigma_interpolator.

(** A range that contains the mass of the 8 Mpc/h sphere as a node gives lg sigma_8 there. *)
Theorem C80_sigma_8 : forall c b lm1 lm2 n i, sane c -> (b = true -> 0 < omega_b0 c) -> 0 < sigma_8 c -> (2 <= n)%nat -> lm1 < lm2 -> (i < n)%nat ->
  let node := lm1 + INR i * ((lm2 - lm1) / INR (n - 1)) in Rpower 10 node = r_to_m c 8 ->
  exists f, interp_lg_sigma (nr_tf c b) c lm1 lm2 n = Ok f /\ f node = Ok (ln (sigma_8 c) / ln 10).
Proof.
  intros c b lm1 lm2 n i S Hb Hs N L I node Hm. destruct (C80_sigma_interpolator (nr_tf c b) c lm1 lm2 n) as [_ H]. destruct (H N L) as (f & Ef & _ & _ & Hn & _).
  exists f. split; [exact Ef|]. specialize (Hn i I). cbv beta in Hn. fold node in Hn. rewrite Hn. unfold lg_sigma_now, lg. rewrite Hm. assert (U : usual c) by (destruct S as (A & B & D); split; lra).
  destruct (C56_at_mass (nr_tf c b) c U) as [A _]. rewrite A by lra. destruct (C56_sigma_8 c b S Hb) as [-> _]. rewrite sqrt_pow2 by lra. reflexivity.
Qed.
Print Assumptions C80_sigma_8.

(** Finding: a range given the wrong way round is accepted, and the value returned at its first end is the one of the other end. *)
Theorem C80_reversed_range : forall T c lm1 lm2 n, (2 <= n)%nat -> lm2 < lm1 ->
  exists f, interp_lg_sigma T c lm1 lm2 n = Ok f /\ forall q, lm1 <= q -> f q = Ok (lg_sigma_now T c lm2).
Proof.
  intros T c lm1 lm2 n L LT. set (Y := lg_sigma_now T c). change (interp_lg_sigma T c lm1 lm2 n) with (linear_checked (linspace lm1 lm2 n) (map Y (linspace lm1 lm2 n))).
  set (xs := linspace lm1 lm2 n). assert (LX : length xs = n) by apply linspace_length. destruct (linspace_ends lm1 lm2 n L) as [E0 En]. fold xs in E0, En.
  assert (NP : 0 < INR (n - 1)) by (apply lt_0_INR; lia). assert (ST : (lm2 - lm1) / INR (n - 1) < 0) by (unfold Rdiv; pose proof (Rinv_0_lt_compat _ NP); nra).
  assert (F : forall i j x y, (i < j)%nat -> nth_error xs i = Some x -> nth_error xs j = Some y -> y < x).
  { intros i j x y IJ Hx Hy. assert (J : (j < n)%nat) by (rewrite <- LX; apply nth_error_Some; congruence). unfold xs in Hx, Hy. rewrite linspace_get in Hx, Hy by lia. injection Hx as <-. injection Hy as <-. apply lt_INR in IJ. nra. }
  assert (D : forall l, (forall i j x y, (i < j)%nat -> nth_error l i = Some x -> nth_error l j = Some y -> y < x) -> all_differ l = true).
  { induction l as [|a l IH]; intros H; [reflexivity|]. destruct l as [|b l]; [reflexivity|]. change (all_differ (a :: b :: l)) with ((if Req_EM_T (b - a) 0 then false else true) && all_differ (b :: l)).
    rewrite IH; [|intros i j x y IJ Hx Hy; exact (H (S i) (S j) x y ltac:(lia) Hx Hy)]. pose proof (H 0%nat 1%nat a b ltac:(lia) eq_refl eq_refl). destruct (Req_EM_T (b - a) 0); [lra|reflexivity]. }
  exists (linear_value xs (map Y xs)). split.
  - unfold linear_checked. rewrite map_length, Nat.eqb_refl, (D xs F), LX. cbn [andb]. destruct (Nat.leb_spec 2 n); [reflexivity|lia].
  - intros q Hq. assert (NE : xs <> []) by (intros X; rewrite X in LX; cbn in LX; lia). destruct (bisearch_local Rltb xs q NE) as (i & B & Hr & H0 & H1).
    assert (UP : forall j x, nth_error xs j = Some x -> x <= lm1).
    { intros [|j] x Hx; [rewrite E0 in Hx; injection Hx as <-; lra|]. left. apply (F 0%nat (S j)); [lia|exact E0|exact Hx]. }
    destruct (Z_lt_le_dec i 0) as [M|M].
    + exfalso. destruct H0 as (x & Hx & Hlt); [lia|]. apply Rltb_lt in Hlt. pose proof (UP _ _ Hx). lra.
    + destruct (H1 M) as (_ & _ & Ab). assert (I : i = (Z.of_nat n - 1)%Z).
      { destruct Ab as [A|(x & Hx & Hlt)]; [lia|]. exfalso. apply Rltb_lt in Hlt. pose proof (UP _ _ Hx). lra. }
      unfold linear_value. rewrite B. cbn [bind]. destruct (Z.ltb_spec i 0); [lia|]. rewrite LX. destruct (Z.ltb_spec (Z.of_nat n - 1) (i + 1)); [|lia]. cbn [bind].
      rewrite (at_ok _ _ _ (map_nth_error Y _ _ En)). cbn [bind]. f_equal. fold Y. ring.
Qed.
Print Assumptions C80_reversed_range.

(** Witness: a table of three rows (in falling order of mass) and two redshifts. *)
Definition ex_table : table := {| t_z := Some [0; 1]; t_delta_c := Some [2; 3]; t_m := Some [0; 1; 3]; t_sigma := Some [5; 4; 0]; t_dsigma := Some [1; 1; 2] |}.
Example ex_table_good : good_table ex_table [0; 1] [2; 3] [0; 1; 3] [5; 4; 0] [1; 1; 2].
Proof.
  split; [reflexivity|]. repeat split; try (cbn; lia); intros [|[|[|i]]] [|[|[|j]]] a b IJ Ha Hb; cbn in Ha, Hb; try lia; try (destruct i; discriminate); try (destruct j; discriminate); try congruence; injection Ha as <-; injection Hb as <-; lra.
Qed.
Example ex_table_value : fst (ask None (Some ex_table) LgSigma [2]) = Ok [2].
Proof.
  destruct (C80_values _ _ _ _ _ _ ex_table_good) as (i & _ & H). destruct (H LgSigma) as (x0 & xn & E0 & En & V & _). cbn in E0, En. injection E0 as <-. injection En as <-.
  destruct (V [2]) as (vs & -> & F); [intros q [<-|[]]; lra|]. inversion F as [|? v ? ? L F']; subst. inversion F'; subst. do 2 f_equal.
  destruct L as (k & xl & xr & yl & yr & A1 & A2 & A3 & A4 & A5 & ->). destruct k as [|[|[|k]]]; cbn in A1, A2, A3, A4; try discriminate; try (destruct k; discriminate); injection A1 as <-; injection A2 as <-; injection A3 as <-; injection A4 as <-; lra.
Qed.
