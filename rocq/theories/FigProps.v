(** Theorems about figures, arrays of axes, colour bars and colour sequences (C82). *)
From Coq Require Import QArith Qround Qminmax Lqa.
From Verif Require Import Base OrderSpec FmtModel LayModel LayProps FigModel.
Local Open Scope list_scope. Local Open Scope nat_scope.

(** An array holds as many objects as its shape says. *)
Definition arr_wf (a : arr) : Prop := length (objs a) = prod (shp a).

Lemma wrap_all_objs h os : wrap_all h (map EObj os) = (h, os).
Proof. induction os as [|o os IH]; [reflexivity|]. cbn [map wrap_all]. rewrite IH. reflexivity. Qed.
Lemma mk_arr_objs h sh os : mk_arr h sh (map EObj os) = (h, {| shp := sh; objs := os |}).
Proof. unfold mk_arr. rewrite wrap_all_objs. reflexivity. Qed.

Lemma wrap_all_spec : forall l h h' os, wrap_all h l = (h', os) ->
  length os = length l /\ (exists new, h' = h ++ new) /\
  (forall i o, nth_error l i = Some (EObj o) -> nth_error os i = Some o) /\
  (forall i r, nth_error l i = Some (ERaw r) -> exists o, nth_error os i = Some o /\ length h <= o /\ nth_error h' o = Some {| wraw := r; wdraws := [] |}) /\
  (forall i j r o, nth_error l i = Some (ERaw r) -> nth_error os i = Some o -> nth_error os j = Some o ->
     (forall o', nth_error l j = Some (EObj o') -> o' < length h) -> i = j).
Proof.
  induction l as [|e l IH]; intros h h' os E.
  { cbn in E. injection E as <- <-. repeat split; try (exists []; rewrite app_nil_r; reflexivity); intros [|i]; discriminate. }
  destruct e as [r|o]; cbn [wrap_all] in E.
  - destruct (wrap_all (h ++ [{| wraw := r; wdraws := [] |}]) l) as [h1 os1] eqn:W. injection E as <- <-.
    destruct (IH _ _ _ W) as (L & (new & ->) & O & R & D). 
    assert (Hj : forall j o', nth_error os1 j = Some o' -> (forall o2, nth_error l j = Some (EObj o2) -> o2 < length h) -> o' <> length h).
    { intros j o' Hj Hold -> . destruct (nth_error l j) as [[r'|o2]|] eqn:Ej.
      - destruct (R j r' Ej) as (o2 & E2 & B2 & _). rewrite Hj in E2. injection E2 as <-. rewrite app_length in B2. cbn in B2. lia.
      - rewrite (O j o2 Ej) in Hj. injection Hj as ->. specialize (Hold _ eq_refl). lia.
      - apply nth_error_None in Ej. assert (nth_error os1 j = None) by (apply nth_error_None; lia). congruence. }
    split; [cbn; lia|]. split; [exists ([{| wraw := r; wdraws := [] |}] ++ new); rewrite app_assoc; reflexivity|].
    split; [intros [|i] o; [discriminate|]; apply O|]. split.
    + intros [|i] r' Hi.
      * injection Hi as <-. exists (length h). split; [reflexivity|]. split; [lia|]. rewrite <- app_assoc, nth_error_app2, Nat.sub_diag by lia. reflexivity.
      * destruct (R i r' Hi) as (o & A & B & C). rewrite app_length in B. cbn in B. exists o. split; [exact A|]. split; [lia|exact C].
    + intros [|i] [|j] r' o Hi Ho Hj' Hold; try reflexivity.
      * cbn in Ho, Hj'. injection Ho as <-. exfalso. exact (Hj j _ Hj' Hold eq_refl).
      * cbn in Ho, Hj'. injection Hj' as <-. cbn in Hi. destruct (R i r' Hi) as (o2 & A & B & _). rewrite app_length in B. cbn in B. rewrite Ho in A. injection A as <-. lia.
      * cbn in Hi, Ho, Hj', Hold. f_equal. apply (D i j r' o Hi Ho Hj'). intros o' Ho'. rewrite app_length. specialize (Hold o' Ho'). lia.
  - destruct (wrap_all h l) as [h1 os1] eqn:W. injection E as <- <-. destruct (IH _ _ _ W) as (L & N & O & R & D).
    split; [cbn; lia|]. split; [exact N|]. split; [intros [|i] o' Hi; [injection Hi as ->; reflexivity|exact (O i o' Hi)]|].
    split; [intros [|i] r' Hi; [discriminate|exact (R i r' Hi)]|].
    intros [|i] [|j] r' o' Hi Ho Hj' Hold; try reflexivity; try discriminate.
    + cbn in Hi, Ho, Hj', Hold. injection Hj' as ->. destruct (R i r' Hi) as (o2 & A & B & _). rewrite Ho in A. injection A as ->. specialize (Hold _ eq_refl). lia.
    + f_equal. exact (D i j r' o' Hi Ho Hj' Hold).
Qed.

(** Building an AxesArray: an Axes is kept as it is, every matplotlib axes gets a new Axes of its own with nothing drawn, and no
    existing Axes changes. *)
Theorem C82_wrap : forall h sh l h' a, mk_arr h sh l = (h', a) -> length l = prod sh ->
  arr_wf a /\ shp a = sh /\ (forall o w, nth_error h o = Some w -> nth_error h' o = Some w) /\
  (forall i o, nth_error l i = Some (EObj o) -> nth_error (objs a) i = Some o) /\
  (forall i r, nth_error l i = Some (ERaw r) -> exists o, nth_error (objs a) i = Some o /\ nth_error h o = None /\
      (exists w, nth_error h' o = Some w /\ wraw w = r /\ last_draw w = Err IndexError) /\
      forall j, nth_error (objs a) j = Some o -> (forall o', nth_error l j = Some (EObj o') -> nth_error h o' <> None) -> j = i).
Proof.
  intros h sh l h' a E Ln. unfold mk_arr in E. destruct (wrap_all h l) as [h1 os] eqn:W. injection E as <- <-.
  destruct (wrap_all_spec _ _ _ _ W) as (L & (new & ->) & O & R & D). unfold arr_wf. cbn [shp objs].
  split; [lia|]. split; [reflexivity|].
  split; [intros o w Ho; rewrite nth_error_app1; [exact Ho|apply nth_error_Some; congruence]|]. split; [exact O|].
  intros i r Hi. destruct (R i r Hi) as (o & A & B & C). exists o. split; [exact A|]. split; [apply nth_error_None; exact B|].
  split; [exists {| wraw := r; wdraws := [] |}; repeat split; assumption|].
  intros j Hj Hold. symmetry. apply (D i j r o Hi A Hj). intros o' Ho'. apply nth_error_Some. exact (Hold o' Ho').
Qed.
Print Assumptions C82_wrap.

(** Wrapping the same matplotlib axes again gives other Axes, with nothing of what the first ones know. *)
Theorem C82_rewrap : forall h sh rs h1 a1 h2 a2, mk_arr h sh (map ERaw rs) = (h1, a1) -> mk_arr h1 sh (map ERaw rs) = (h2, a2) ->
  (forall o, In o (objs a1) -> ~ In o (objs a2)) /\
  (forall i r, nth_error rs i = Some r -> exists o1 o2, nth_error (objs a1) i = Some o1 /\ nth_error (objs a2) i = Some o2 /\ raw_of h2 o1 = r /\ raw_of h2 o2 = r).
Proof.
  intros h sh rs h1 a1 h2 a2 E1 E2. unfold mk_arr in E1, E2.
  destruct (wrap_all h (map ERaw rs)) as [g1 os1] eqn:W1. injection E1 as <- <-.
  destruct (wrap_all g1 (map ERaw rs)) as [g2 os2] eqn:W2. injection E2 as <- <-. cbn [objs].
  destruct (wrap_all_spec _ _ _ _ W1) as (L1 & _ & _ & R1 & _). destruct (wrap_all_spec _ _ _ _ W2) as (L2 & (new & N2) & _ & R2 & _).
  rewrite map_length in L1, L2.
  assert (Q : forall i r, nth_error rs i = Some r -> nth_error (map ERaw rs) i = Some (ERaw r)).
  { intros i r Hi. rewrite nth_error_map, Hi. reflexivity. }
  split.
  - intros o H1 H2. apply In_nth_error in H1 as (i & Hi). apply In_nth_error in H2 as (j & Hj).
    destruct (nth_error rs i) as [r|] eqn:Ei; [|apply nth_error_None in Ei; assert (nth_error os1 i = None) by (apply nth_error_None; lia); congruence].
    destruct (nth_error rs j) as [s|] eqn:Ej; [|apply nth_error_None in Ej; assert (nth_error os2 j = None) by (apply nth_error_None; lia); congruence].
    destruct (R1 i r (Q _ _ Ei)) as (o1 & A1 & _ & C1). destruct (R2 j s (Q _ _ Ej)) as (o2 & A2 & B2 & _).
    rewrite Hi in A1. injection A1 as <-. rewrite Hj in A2. injection A2 as <-.
    assert (o < length g1) by (apply nth_error_Some; congruence). lia.
  - intros i r Hi. destruct (R1 i r (Q _ _ Hi)) as (o1 & A1 & _ & C1). destruct (R2 i r (Q _ _ Hi)) as (o2 & A2 & _ & C2).
    exists o1, o2. split; [exact A1|]. split; [exact A2|]. unfold raw_of. rewrite C2. split; [|reflexivity].
    rewrite N2, nth_error_app1, C1; [reflexivity|apply nth_error_Some; congruence].
Qed.
Print Assumptions C82_rewrap.

Lemma nth_error_firstn_skipn {A} (l : list A) : forall k n i, i < k -> nth_error (firstn k (skipn n l)) i = nth_error l (n + i).
Proof.
  intros k n i Hi. revert l. induction n as [|n IH]; intros l.
  - cbn [skipn Nat.add]. revert k i Hi l. induction k as [|k IHk]; intros i Hi l; [lia|]. destruct l as [|x l]; [destruct i; reflexivity|].
    destruct i as [|i]; [reflexivity|]. cbn. apply IHk. lia.
  - destruct l as [|x l]; [cbn [skipn]; rewrite firstn_nil; destruct i; destruct n; reflexivity|]. cbn [skipn Nat.add nth_error]. apply IH.
Qed.

(** Indexing an array gives the very objects of the array, and makes none: self[i] of a one-dimensional array is the i-th Axes
    (counted from the end if i < 0), of a larger one the i-th row; outside the range IndexError. *)
Theorem C82_index : forall h a n sh i, arr_wf a -> shp a = n :: sh ->
  ((i < - Z.of_nat n)%Z \/ (Z.of_nat n <= i)%Z -> getitem h a (KInt i) = Err IndexError) /\
  (forall j, j < n -> i = Z.of_nat j \/ (i = Z.of_nat j - Z.of_nat n)%Z ->
     (sh = [] -> exists o, getitem h a (KInt i) = Ok (h, IObj o) /\ nth_error (objs a) j = Some o) /\
     (sh <> [] -> exists b, getitem h a (KInt i) = Ok (h, IArr b) /\ arr_wf b /\ shp b = sh /\
        forall m, m < prod sh -> nth_error (objs b) m = nth_error (objs a) (j * prod sh + m))).
Proof.
  intros h a n sh i W S. unfold arr_wf in W. rewrite S in W. cbn in W. fold (prod sh) in W. unfold getitem. rewrite S. split.
  - intros H. assert (B : ((if (i <? 0)%Z then (i + Z.of_nat n)%Z else i) <? 0)%Z = true \/ (Z.of_nat n <=? (if (i <? 0)%Z then (i + Z.of_nat n)%Z else i))%Z = true).
    { destruct (i <? 0)%Z eqn:Q; [apply Z.ltb_lt in Q|apply Z.ltb_ge in Q].
      - left. apply Z.ltb_lt. lia.
      - right. apply Z.leb_le. lia. }
    cbv zeta. destruct B as [-> | ->]; rewrite ?orb_true_r; reflexivity.
  - intros j Hj Hi.
    assert (J : (if (i <? 0)%Z then (i + Z.of_nat n)%Z else i) = Z.of_nat j).
    { destruct (i <? 0)%Z eqn:Q; [apply Z.ltb_lt in Q|apply Z.ltb_ge in Q]; lia. }
    cbv zeta. rewrite J, Nat2Z.id. rewrite (proj2 (Z.ltb_ge (Z.of_nat j) 0)) by lia. rewrite (proj2 (Z.leb_gt (Z.of_nat n) (Z.of_nat j))) by lia. cbn [orb].
    assert (P : j * prod sh + prod sh <= length (objs a)) by nia. split.
    + intros ->. unfold sub. cbn [prod fold_right] in *. destruct (nth_error (objs a) j) as [o|] eqn:E; [|apply nth_error_None in E; lia].
      exists o. split; [|reflexivity]. pose proof (nth_error_firstn_skipn (objs a) 1 (j * 1) 0 ltac:(lia)) as F. rewrite Nat.add_0_r, Nat.mul_1_r in F. rewrite Nat.mul_1_r.
      rewrite E in F. destruct (firstn 1 (skipn j (objs a))); [discriminate|]. injection F as ->. reflexivity.
    + intros Hs. exists {| shp := sh; objs := sub sh (objs a) j |}. split.
      * destruct sh as [|s sh]; [congruence|]. rewrite mk_arr_objs. reflexivity.
      * unfold arr_wf. cbn [shp objs]. unfold sub. split; [rewrite firstn_length, skipn_length; lia|]. split; [reflexivity|].
        intros m Hm. apply nth_error_firstn_skipn. exact Hm.
Qed.
Print Assumptions C82_index.

(** Slices, .flat, .T and AxesArray(array) also consist of the array's own objects. *)
Theorem C82_views : forall h a n sh, arr_wf a -> shp a = n :: sh ->
  of_arr h a = (h, a) /\ flat h a = (h, {| shp := [prod (shp a)]; objs := to_list a |}) /\
  (forall s e, exists b, getitem h a (KSlice s e) = Ok (h, IArr b) /\ arr_wf b /\
     let lo := bound n 0 s in let hi := bound n n e in shp b = (hi - lo) :: sh /\
     forall m, m < (hi - lo) * prod sh -> nth_error (objs b) m = nth_error (objs a) (lo * prod sh + m)) /\
  (forall c, sh = [c] -> exists b, arr_T h a = (h, b) /\ shp b = [c; n] /\ forall i j, i < n -> j < c -> nth (j * n + i) (objs b) 0 = nth (i * c + j) (objs a) 0).
Proof.
  intros h a n sh W S. pose proof W as W0. unfold arr_wf in W. rewrite S in W. cbn in W. fold (prod sh) in W.
  split; [unfold of_arr; rewrite mk_arr_objs; destruct a; reflexivity|].
  split; [unfold flat; rewrite mk_arr_objs; rewrite W0; reflexivity|]. split.
  - intros s e. unfold getitem. rewrite S. rewrite mk_arr_objs. eexists. split; [reflexivity|]. unfold arr_wf. cbn [shp objs].
    assert (B : bound n n e <= n). { unfold bound. destruct e as [z|]; [|lia]. destruct (z <? 0)%Z eqn:Q; [apply Z.ltb_lt in Q|]; lia. }
    split; [|split; [reflexivity|intros m Hm; apply nth_error_firstn_skipn; exact Hm]].
    rewrite firstn_length, skipn_length. cbn. fold (prod sh). rewrite W.
    destruct (le_lt_dec (bound n 0 s) (bound n n e)); [nia|]. replace (bound n n e - bound n 0 s) with 0 by lia. reflexivity.
  - intros c ->. cbn in W. rewrite Nat.mul_1_r in W. destruct (C60_transpose n c (objs a) W) as (t & E & _ & G & _).
    unfold arr_T. rewrite S, E, mk_arr_objs. eexists. split; [reflexivity|]. split; [reflexivity|exact G].
Qed.
Print Assumptions C82_views.

(** The bounds of a slice: absent ones are the ends; z >= 0 counts from the front, z < 0 from the back, both stop at the ends. *)
Theorem C82_slice_bounds : forall n d z, bound n d None = d /\ ((0 <= z <= Z.of_nat n)%Z -> Z.of_nat (bound n d (Some z)) = z) /\ ((Z.of_nat n <= z)%Z -> bound n d (Some z) = n) /\
  ((- Z.of_nat n <= z < 0)%Z -> Z.of_nat (bound n d (Some z)) = (Z.of_nat n + z)%Z) /\ ((z <= - Z.of_nat n)%Z -> (z < 0)%Z -> bound n d (Some z) = 0).
Proof.
  intros n d z. unfold bound. split; [reflexivity|]. destruct (z <? 0)%Z eqn:Q; [apply Z.ltb_lt in Q|apply Z.ltb_ge in Q]; repeat split; intros; lia.
Qed.
Print Assumptions C82_slice_bounds.

Example two_by_two : getitem [] {| shp := [2; 2]; objs := [5; 6; 7; 8] |} (KInt (-1)) = Ok ([], IArr {| shp := [2]; objs := [7; 8] |}) /\
  getitem [] {| shp := [3]; objs := [5; 6; 7] |} (KSlice (Some (-2)%Z) None) = Ok ([], IArr {| shp := [2]; objs := [6; 7] |}).
Proof. split; reflexivity. Qed.

(** What matplotlib returned for a call, in order. *)
Definition returned (c : call) : list nat :=
  match c with
  | Draw (Ok a) => [a]
  | ErrorFill None (Ok a) (Ok b) => [a; b]
  | ErrorFill None (Ok a) (Err _) => [a]
  | _ => []
  end.
(** What matplotlib returned for the calls made on one Axes. *)
Definition returned_to (o : nat) (cs : list (nat * call)) : list nat := flat_map (fun p => if Nat.eqb (fst p) o then returned (snd p) else []) cs.

Lemma run_call_spec c w : snd (run_call c w) = {| wraw := wraw w; wdraws := wdraws w ++ returned c |}.
Proof.
  destruct w as [r d]. destruct c as [[a|e]|[e|] [a|e1] [b|e2]|q]; cbn; rewrite ?app_nil_r, <- ?app_assoc; reflexivity.
Qed.
Lemma nth_error_upd_nth {A} (l : list A) : forall i j x, nth_error (upd_nth l i x) j = if Nat.eqb i j then match nth_error l j with Some _ => Some x | None => None end else nth_error l j.
Proof.
  induction l as [|y l IH]; intros i j x; [cbn; destruct j; cbn; destruct (Nat.eqb i _); reflexivity|].
  destruct i as [|i], j as [|j]; try reflexivity. cbn [upd_nth nth_error]. rewrite IH. reflexivity.
Qed.
Lemma run_calls_spec : forall cs h o, nth_error (run_calls h cs) o = option_map (fun w => {| wraw := wraw w; wdraws := wdraws w ++ returned_to o cs |}) (nth_error h o).
Proof.
  induction cs as [|[p c] cs IH]; intros h o.
  - cbn. destruct (nth_error h o) as [[r d]|]; cbn; rewrite ?app_nil_r; reflexivity.
  - cbn [run_calls]. rewrite IH. unfold returned_to at 2. cbn [flat_map fst snd].
    destruct (nth_error h p) as [w|] eqn:E.
    + rewrite nth_error_upd_nth. destruct (Nat.eqb_spec p o) as [->|N]; [|reflexivity]. rewrite E. cbn [option_map]. rewrite run_call_spec. cbn [wraw wdraws].
      rewrite <- app_assoc. reflexivity.
    + destruct (Nat.eqb_spec p o) as [->|N]; [|reflexivity]. rewrite E. reflexivity.
Qed.

(** After any history of calls on any number of Axes, failed ones included, last_draw of an Axes is what matplotlib last returned to it:
    after a successful errorfill the band; IndexError as long as nothing was drawn.  The matplotlib axes behind it never changes. *)
Theorem C82_last_draw : forall h cs o w, nth_error h o = Some w -> exists w', nth_error (run_calls h cs) o = Some w' /\ wraw w' = wraw w /\
  (forall pre a, wdraws w ++ returned_to o cs = pre ++ [a] -> last_draw w' = Ok a) /\ (wdraws w ++ returned_to o cs = [] -> last_draw w' = Err IndexError).
Proof.
  intros h cs o w E. rewrite run_calls_spec, E. cbn [option_map]. eexists. split; [reflexivity|]. unfold last_draw. cbn [wraw wdraws]. split; [reflexivity|].
  split; [intros pre a ->; rewrite rev_app_distr; reflexivity|intros ->; reflexivity].
Qed.
Print Assumptions C82_last_draw.
Example draw_history : let h := run_calls [{| wraw := 1; wdraws := [] |}; {| wraw := 2; wdraws := [] |}]
    [(0, Draw (Ok 10)); (1, ErrorFill None (Ok 11) (Ok 12)); (0, Draw (Err ValueError)); (0, ErrorFill None (Ok 13) (Err ValueError)); (0, Quiet (Ok tt))] in
  map last_draw h = [Ok 13; Ok 12].
Proof. reflexivity. Qed.

(** No Axes, AxesArray or other wrapper inside a value. *)
Fixpoint plain (v : pyval) : Prop :=
  match v with PNone | PRaw _ => True | PIter l => (fix all l := match l with [] => True | x :: l' => plain x /\ all l' end) l | _ => False end.
(** A value, or an Axes. *)
Definition plain_or_axes (v : pyval) : Prop := match v with PAxes _ => True | v => plain v end.
Lemma plain_iter l : plain (PIter l) <-> Forall plain l.
Proof. induction l as [|x l IH]; [split; intros; [constructor|exact I]|]. cbn in IH |- *. rewrite Forall_cons_iff. tauto. Qed.

(** colorbar hands matplotlib its own objects: for an Axes the axes behind it, for an AxesArray those of all its Axes in row-major order, for an
    iterable those of its elements in order; a mappable from last_draw is unwrapped; other values are passed on.  The artist
    becomes the figure's last_draw; if matplotlib raises, nothing changes. *)
Theorem C82_colorbar : forall mpl h m cax ax draws,
  (forall r, plain m -> cb_mappable h m = m /\ cb_mappable h (PMpl r) = PRaw r) /\
  (forall o, cb_ax h (PAxes o) = PRaw (raw_of h o) /\ cb_cax h (PAxes o) = PRaw (raw_of h o) /\ cb_mappable h (PAxes o) = PRaw (raw_of h o)) /\
  (forall a, cb_ax h (PArr a) = PIter (map (fun o => PRaw (raw_of h o)) (objs a))) /\
  (forall os, cb_ax h (PIter (map PAxes os)) = PIter (map (fun o => PRaw (raw_of h o)) os)) /\
  (plain ax -> cb_ax h ax = ax) /\ (plain cax -> cb_cax h cax = cax) /\
  (plain (cb_ax h ax) <-> match ax with PArr _ | PAxes _ => True | PIter l => Forall plain_or_axes l | v => plain v end) /\
  match mpl (cb_mappable h m) (cb_cax h cax) (cb_ax h ax) with
  | Ok art => colorbar mpl h m cax ax draws = (Ok tt, draws ++ [art]) /\ last_draw {| wraw := 0; wdraws := snd (colorbar mpl h m cax ax draws) |} = Ok art
  | Err e => colorbar mpl h m cax ax draws = (Err e, draws)
  end.
Proof.
  intros mpl h m cax ax draws.
  assert (Id : forall v, plain v -> cb_cax h v = v) by (intros [] H; try reflexivity; destruct H).
  split; [intros r H; split; [destruct m; try reflexivity; destruct H|reflexivity]|].
  split; [intros o; repeat split|]. split; [reflexivity|].
  split; [intros os; cbn; f_equal; rewrite map_map; reflexivity|].
  split; [intros H; destruct ax; try reflexivity; try (destruct H; fail); cbn [cb_ax]; f_equal; apply plain_iter in H; rewrite <- (map_id l) at 2; apply map_ext_in;
          intros v Hv; rewrite Forall_forall in H; exact (Id v (H v Hv))|].
  split; [exact (Id cax)|]. split.
  - destruct ax as [|r|o|r|a|l]; cbn [cb_ax]; try (cbn; tauto).
    + rewrite plain_iter. split; [tauto|]. intros _. apply Forall_forall. intros v Hv. apply in_map_iff in Hv as (o & <- & _). exact I.
    + rewrite plain_iter, Forall_map. split; intros H; rewrite Forall_forall in H |- *; intros v Hv; specialize (H v Hv); destruct v; exact H || exact I.
  - unfold colorbar. destruct (mpl _ _ _) as [art|e]; [|reflexivity]. split; [reflexivity|]. unfold last_draw. cbn [snd wdraws]. rewrite rev_app_distr. reflexivity.
Qed.
Print Assumptions C82_colorbar.

(** A list of AxesArrays is not unwrapped: matplotlib is handed pyhipp's arrays.  The same for an AxesArray as cax. *)
Theorem C82_nested_axes_refuted : forall h a, ~ plain (cb_ax h (PIter [PArr a])) /\ ~ plain (cb_cax h (PArr a)).
Proof. intros h a. split; cbn; tauto. Qed.
Print Assumptions C82_nested_axes_refuted.

Lemma mapM_app {A B} (f : A -> result B) l l' : mapM f (l ++ l') = bind (mapM f l) (fun x => bind (mapM f l') (fun y => Ok (x ++ y))).
Proof.
  induction l as [|a l IH]; cbn; [destruct (mapM f l'); reflexivity|]. destruct (f a); [|reflexivity]. cbn. rewrite IH. destruct (mapM f l); [|reflexivity].
  cbn. destruct (mapM f l'); reflexivity.
Qed.
Lemma mapM_blocks {A B} (f : A -> result B) (data : list A) k : forall m n, length data = (n + m) * k ->
  rmap (@concat B) (mapM (fun i => mapM f (firstn k (skipn (i * k) data))) (seq n m)) = mapM f (skipn (n * k) data).
Proof.
  induction m as [|m IH]; intros n L.
  - cbn [seq mapM rmap concat]. rewrite skipn_all2 by lia. reflexivity.
  - cbn [seq mapM]. specialize (IH (S n) ltac:(lia)).
    assert (E : skipn (n * k) data = firstn k (skipn (n * k) data) ++ skipn (S n * k) data).
    { rewrite <- (firstn_skipn k (skipn (n * k) data)) at 1. f_equal. clear. replace (S n * k) with (k + n * k) by lia. generalize (n * k) as j.
      intros j. revert data. induction j as [|j IHj]; intros data; [rewrite Nat.add_0_r; reflexivity|]. destruct data; [rewrite !skipn_nil; reflexivity|].
      rewrite Nat.add_succ_r. cbn [skipn]. apply IHj. }
    transitivity (mapM f (firstn k (skipn (n * k) data) ++ skipn (S n * k) data)); [|rewrite <- E; reflexivity]. rewrite mapM_app. destruct (mapM f (firstn k _)) as [x|e]; [|reflexivity]. cbn [bind]. rewrite <- IH.
    destruct (mapM _ (seq (S n) m)); reflexivity.
Qed.

(** subplots on an array of sub-figures of any shape: subplots is called on every sub-figure exactly once in row-major order, and the results
    are found at the sub-figures' positions; the first exception escapes. *)
Theorem C82_subfigures : forall S R (f : S -> result R) shape data, shape <> [] -> length data = prod shape -> sf_subplots f shape data = mapM f data.
Proof.
  intros S R f shape. induction shape as [|n sh IH]; intros data H L; [congruence|]. destruct sh as [|s sh].
  - cbn [sf_subplots]. cbn in L. rewrite firstn_all2 by lia. reflexivity.
  - change (sf_subplots f (n :: s :: sh) data) with (rmap (@concat R) (mapM (fun i => sf_subplots f (s :: sh) (sub (s :: sh) data i)) (seq 0 n))).
    change (prod (n :: s :: sh)) with (n * prod (s :: sh)) in L.
    assert (E : forall l, (forall i, In i l -> i < n) -> mapM (fun i => sf_subplots f (s :: sh) (sub (s :: sh) data i)) l = mapM (fun i => mapM f (firstn (prod (s :: sh)) (skipn (i * prod (s :: sh)) data))) l).
    { induction l as [|i l IHl]; intros Hl; [reflexivity|]. cbn [mapM]. rewrite IH; [|discriminate|unfold sub; rewrite firstn_length, skipn_length; specialize (Hl i (or_introl eq_refl)); nia].
      rewrite IHl by (intros; apply Hl; right; assumption). reflexivity. }
    rewrite E by (intros i Hi; apply in_seq in Hi; lia). rewrite (mapM_blocks f data (prod (s :: sh)) n 0) by (cbn [Nat.add]; exact L). reflexivity.
Qed.
Print Assumptions C82_subfigures.
(** A zero-dimensional array of sub-figures has no elements to visit. *)
Theorem C82_subfigures_scalar : forall S R (f : S -> result R) data, sf_subplots f [] data = Err TypeError.
Proof. reflexivity. Qed.
Print Assumptions C82_subfigures_scalar.
Example subfigures_2d : sf_subplots (fun s => if Nat.eqb s 9 then Err ValueError else Ok (10 * s)) [2; 2] [1; 2; 3; 4] = Ok [10; 20; 30; 40].
Proof. reflexivity. Qed.

(** ColorSeq(colors).get_rgba(): every colour in order; an Axes colour is taken over as it is; the first bad one raises. *)
Theorem C82_color_seq : forall named l, (forall out, color_seq named l = Ok out <-> Forall2 (fun c r => to_rgba named c = Ok r) l out) /\
  (forall cs, color_seq named (map CColor cs) = Ok cs) /\
  (forall e, color_seq named l = Err e <-> exists pre c post, l = pre ++ c :: post /\ (forall x, In x pre -> exists r, to_rgba named x = Ok r) /\ to_rgba named c = Err e).
Proof.
  intros named l. unfold color_seq, color.
  assert (Q : forall c r, rmap (fun c : rgba => c) (to_rgba named c) = Ok r <-> to_rgba named c = Ok r) by (intros c r; destruct (to_rgba named c); cbn; reflexivity).
  assert (Q' : forall c e, rmap (fun c : rgba => c) (to_rgba named c) = Err e <-> to_rgba named c = Err e) by (intros c r; destruct (to_rgba named c); cbn; reflexivity).
  split; [|split].
  - intros out. rewrite mapM_Ok. split; intros H; induction H as [|c r l' out' H1 H2 IH]; constructor; try assumption; apply Q; exact H1.
  - intros cs. apply mapM_Ok. induction cs as [|c cs IH]; constructor; [reflexivity|exact IH].
  - intros e. rewrite mapM_Err. split; intros (pre & c & post & E & P & X); exists pre, c, post; (split; [exact E|]); (split; [|apply Q'; exact X]); intros x Hx;
    destruct (P x Hx) as (r & Hr); exists r; apply Q; exact Hr.
Qed.
Print Assumptions C82_color_seq.

Lemma color_seq_rows named rows : color_seq named (map row4 rows) = Ok rows.
Proof. apply mapM_Ok. induction rows as [|[[[r g] b] a] rows IH]; constructor; [reflexivity|exact IH]. Qed.
Lemma cm_level_in m x : (0 <= x)%Q -> (x < 1)%Q -> exists k, k < length (table m) /\ (Z.of_nat k = Qfloor (x * inject_Z (Z.of_nat (length (table m)))))%Z /\ nth_error (table m) k = Some (cm_level m x) \/ table m = [].
Proof.
  intros H0 H1. destruct (table m) as [|c t] eqn:T; [exists 0; right; reflexivity|]. rewrite <- T. set (N := length (table m)).
  assert (HN : 0 < N) by (unfold N; rewrite T; cbn; lia).
  assert (P0 : (0 <= x * inject_Z (Z.of_nat N))%Q) by (apply Qmult_le_0_compat; [exact H0|change 0%Q with (inject_Z 0); rewrite <- Zle_Qle; lia]).
  assert (P1 : (x * inject_Z (Z.of_nat N) < inject_Z (Z.of_nat N))%Q).
  { rewrite <- (Qmult_1_l (inject_Z (Z.of_nat N))) at 2. apply Qmult_lt_compat_r; [change 0%Q with (inject_Z 0); rewrite <- Zlt_Qlt; lia|exact H1]. }
  set (F := Qfloor (x * inject_Z (Z.of_nat N))).
  assert (F0 : (0 <= F)%Z) by (unfold F; change 0%Z with (Qfloor (inject_Z 0)); apply Qfloor_resp_le; exact P0).
  assert (F1 : (F < Z.of_nat N)%Z). { rewrite Zlt_Qlt. eapply Qle_lt_trans; [apply Qfloor_le|exact P1]. }
  exists (Z.to_nat F). left. rewrite T, <- T. fold N. split; [lia|]. split; [lia|]. unfold cm_level. fold N. destruct (Qeq_bool x 1) eqn:E1; [apply Qeq_bool_iff in E1; lra|].
  destruct (Qltb (x * inject_Z (Z.of_nat N)) 0) eqn:EL; [apply Qltb_lt in EL; lra|]. fold F. unfold cm_index. fold N.
  rewrite (proj2 (Z.ltb_ge F 0)) by lia. rewrite (proj2 (Z.leb_gt (Z.of_nat N) F)) by lia. apply nth_error_nth'. fold N. lia.
Qed.

(** A level in [0, 1) picks entry floor(x N) of the map's N colours, 1 the last, other levels the colours below and above the range; an integer k picks entry k. *)
Theorem C82_level : forall m x, table m <> [] ->
  ((0 <= x)%Q -> (x < 1)%Q -> nth_error (table m) (Z.to_nat (Qfloor (x * inject_Z (Z.of_nat (length (table m)))))) = Some (cm_level m x)) /\
  ((x == 1)%Q -> nth_error (table m) (length (table m) - 1) = Some (cm_level m x)) /\ ((x < 0)%Q -> cm_level m x = under m) /\ ((1 < x)%Q -> cm_level m x = over m) /\
  (forall k, k < length (table m) -> nth_error (table m) k = Some (cm_index m (Z.of_nat k))).
Proof.
  intros m x NE.
  assert (HN : 0 < length (table m)) by (destruct (table m); [congruence|cbn; lia]).
  assert (I : forall k, k < length (table m) -> nth_error (table m) k = Some (cm_index m (Z.of_nat k))).
  { intros k Hk. unfold cm_index. rewrite (proj2 (Z.ltb_ge (Z.of_nat k) 0)) by lia. rewrite (proj2 (Z.leb_gt _ (Z.of_nat k))) by lia. rewrite Nat2Z.id. apply nth_error_nth'. exact Hk. }
  assert (NP : (0 < inject_Z (Z.of_nat (length (table m))))%Q) by (change 0%Q with (inject_Z 0); rewrite <- Zlt_Qlt; lia).
  split; [|split; [|split; [|split; [|exact I]]]].
  - intros H0 H1. destruct (cm_level_in m x H0 H1) as (k & [(A & B & C)|T]); [|congruence]. rewrite <- B, Nat2Z.id. exact C.
  - intros E. unfold cm_level. rewrite (proj2 (Qeq_bool_iff x 1) E). replace (Z.of_nat (length (table m)) - 1)%Z with (Z.of_nat (length (table m) - 1)) by lia. apply I. lia.
  - intros L. unfold cm_level. destruct (Qeq_bool x 1) eqn:E1; [apply Qeq_bool_iff in E1; lra|].
    destruct (Qltb (x * inject_Z (Z.of_nat (length (table m)))) 0) eqn:EL; [reflexivity|]. exfalso.
    assert (x * inject_Z (Z.of_nat (length (table m))) < 0)%Q. { setoid_replace 0%Q with (0 * inject_Z (Z.of_nat (length (table m))))%Q by ring. apply Qmult_lt_compat_r; assumption. }
    apply Qltb_lt in H. congruence.
  - intros L. unfold cm_level. destruct (Qeq_bool x 1) eqn:E1; [apply Qeq_bool_iff in E1; lra|].
    assert (G : (inject_Z (Z.of_nat (length (table m))) < x * inject_Z (Z.of_nat (length (table m))))%Q).
    { rewrite <- (Qmult_1_l (inject_Z (Z.of_nat (length (table m))))) at 1. apply Qmult_lt_compat_r; assumption. }
    destruct (Qltb (x * inject_Z (Z.of_nat (length (table m)))) 0) eqn:EL; [apply Qltb_lt in EL; lra|]. unfold cm_index.
    assert (Z.of_nat (length (table m)) <= Qfloor (x * inject_Z (Z.of_nat (length (table m)))))%Z.
    { rewrite <- (Qfloor_Z (Z.of_nat (length (table m)))) at 1. apply Qfloor_resp_le. lra. }
    rewrite (proj2 (Z.ltb_ge _ 0)) by lia. rewrite (proj2 (Z.leb_le _ _)) by lia. reflexivity.
Qed.
Print Assumptions C82_level.

(** from_cmap(cmap, n): n colours at equally spaced levels from 0 to 1, the first and the last being the two ends of the map (only the first for n = 1);
    ValueError for a negative n; for a sequence one colour per level.  An alpha replaces that of every colour. *)
Theorem C82_from_cmap : forall maps m n, table m <> [] ->
  ((n < 0)%Z -> from_cmap maps (inr m) (LCount n) None = Err ValueError) /\
  ((0 <= n)%Z -> exists out, from_cmap maps (inr m) (LCount n) None = Ok out /\ Z.of_nat (length out) = n /\
     (forall i, (2 <= n)%Z -> (Z.of_nat i < n)%Z -> exists x, (x * inject_Z (n - 1) == inject_Z (Z.of_nat i))%Q /\ nth_error out i = Some (cm_level m x)) /\
     ((1 <= n)%Z -> hd_error out = hd_error (table m)) /\ ((2 <= n)%Z -> nth_error out (length out - 1) = nth_error (table m) (length (table m) - 1))) /\
  (forall l, from_cmap maps (inr m) (LNums l) None = Ok (map (cm_level m) l)) /\ (forall l, from_cmap maps (inr m) (LInts l) None = Ok (map (cm_index m) l)) /\
  (forall s l a, from_cmap maps (inl s) l a = match maps s with Ok m' => from_cmap maps (inr m') l a | Err e => Err e end) /\
  (forall l a out, (0 <= a <= 1)%Q -> from_cmap maps (inr m) l None = Ok out -> exists a', (a' == a)%Q /\ from_cmap maps (inr m) l (Some a) = Ok (map (fun c => with_alpha c a') out)).
Proof.
  intros maps m n NE.
  assert (L0 : forall x, (x == 0)%Q -> hd_error (table m) = Some (cm_level m x)).
  { intros x Hx. destruct (C82_level m x NE) as (A & _). specialize (A ltac:(lra) ltac:(lra)). rewrite <- A.
    assert (Hz : (x * inject_Z (Z.of_nat (length (table m))) == inject_Z 0)%Q) by (rewrite Hx; ring). rewrite (Qfloor_comp _ _ Hz), Qfloor_Z. destruct (table m); reflexivity. }
  unfold from_cmap, cm_call. split; [|split; [|split; [|split; [|split]]]].
  - intros H. unfold linspace01. rewrite (proj2 (Z.ltb_lt n 0) H). reflexivity.
  - intros H. unfold linspace01. rewrite (proj2 (Z.ltb_ge n 0) H). cbn [bind rmap]. rewrite color_seq_rows. eexists. split; [reflexivity|].
    rewrite map_map. rewrite map_length, seq_length. split; [lia|]. split; [|split].
    + intros i H2 Hi. rewrite nth_error_map, (nth_error_nth' (seq 0 (Z.to_nat n)) 0) by (rewrite seq_length; lia). rewrite seq_nth by lia. cbn [option_map Nat.add].
      destruct (Nat.eqb_spec (Z.to_nat n) 1); [lia|]. eexists. split; [|reflexivity]. replace (Z.of_nat (Z.to_nat n - 1)) with (n - 1)%Z by lia.
      field. intros Q. assert (n - 1 = 0)%Z by (apply (proj1 (inject_Z_injective (n - 1) 0)); exact Q). lia.
    + intros H1. destruct (Z.to_nat n) as [|k] eqn:K; [lia|]. cbn [seq map hd_error]. symmetry. apply L0. destruct (Nat.eqb (S k) 1); [reflexivity|]. cbn [Z.of_nat]. unfold Qdiv. apply Qmult_0_l.
    + intros H2. rewrite nth_error_map, (nth_error_nth' (seq 0 (Z.to_nat n)) 0) by (rewrite seq_length; lia). rewrite seq_nth by lia. cbn [option_map Nat.add].
      destruct (Nat.eqb_spec (Z.to_nat n) 1); [lia|]. destruct (C82_level m (inject_Z (Z.of_nat (Z.to_nat n - 1)) / inject_Z (Z.of_nat (Z.to_nat n - 1))) NE) as (_ & B & _).
      symmetry. apply B. field. intros Q. assert (Z.of_nat (Z.to_nat n - 1) = 0)%Z by (apply (proj1 (inject_Z_injective _ 0)); exact Q). lia.
  - intros l. cbn [bind]. rewrite color_seq_rows. reflexivity.
  - intros l. cbn [bind]. rewrite color_seq_rows. reflexivity.
  - intros s l a. destruct (maps s); reflexivity.
  - intros l a out Ha H. exists (Qmax 0 (Qmin 1 a)). split; [rewrite Q.min_r by lra; apply Q.max_r; lra|].
    destruct l as [k|l|l]; cbn [bind] in H |- *.
    + destruct (linspace01 k) as [xs|e]; [|discriminate]. cbn [rmap bind] in H |- *. rewrite color_seq_rows in H |- *. injection H as <-. rewrite map_map. reflexivity.
    + rewrite color_seq_rows in H |- *. injection H as <-. rewrite map_map. reflexivity.
    + rewrite color_seq_rows in H |- *. injection H as <-. rewrite map_map. reflexivity.
Qed.
Print Assumptions C82_from_cmap.
Definition grey3 : cmap := {| table := [(0, 0, 0, 1); (1 # 2, 1 # 2, 1 # 2, 1); (1, 1, 1, 1)]%Q; under := (0, 0, 0, 0)%Q; over := (1, 0, 0, 1)%Q |}.
Example grey3_from : from_cmap (fun _ => Err ValueError) (inr grey3) (LCount 2) None = Ok [(0, 0, 0, 1); (1, 1, 1, 1)]%Q.
Proof. reflexivity. Qed.

(** The levels [0, 1] written as integers are the first two colours of the map, not its ends. *)
Theorem C82_integer_levels_refuted : exists m, table m <> [] /\ from_cmap (fun _ => Err ValueError) (inr m) (LInts [0; 1]%Z) None <> from_cmap (fun _ => Err ValueError) (inr m) (LNums [0; 1]%Q) None.
Proof. exists grey3. split; discriminate. Qed.
Print Assumptions C82_integer_levels_refuted.

(** ColorSeq.predefined: ten names, KeyError for any other; map_k is from_cmap(map, k). *)
Theorem C82_predefined : forall listed maps named name,
  (~ In name ["dark2"; "tab10"; "set1"; "set2"; "rainbow_5"; "rainbow_10"; "gnuplot_5"; "gnuplot_10"; "gnuplot2_5"; "gnuplot2_10"]%string -> predefined listed maps named name = Err KeyError) /\
  (forall m k, In (name, (m, k)) [("rainbow_5", ("rainbow", 5%Z)); ("rainbow_10", ("rainbow", 10%Z)); ("gnuplot_5", ("gnuplot", 5%Z)); ("gnuplot_10", ("gnuplot", 10%Z));
      ("gnuplot2_5", ("gnuplot2", 5%Z)); ("gnuplot2_10", ("gnuplot2", 10%Z))]%string ->
     predefined listed maps named name = from_cmap maps (inl m) (LCount k) None) /\
  (forall m, In (name, m) [("dark2", "Dark2"); ("tab10", "tab10"); ("set1", "Set1"); ("set2", "Set2")]%string -> predefined listed maps named name = color_seq named (listed m)).
Proof.
  intros listed maps named name. unfold predefined. split; [|split].
  - intros H. assert (N : od_get String.eqb predefined_names name = None); [|rewrite N; reflexivity].
    destruct (od_get String.eqb predefined_names name) as [v|] eqn:E; [|reflexivity]. exfalso. apply H.
    unfold predefined_names in E. cbn [od_get] in E.
    repeat match type of E with (if String.eqb ?k name then _ else _) = _ => destruct (String.eqb_spec k name) as [<-|]; [cbn; tauto|] | (if String.eqb name ?k then _ else _) = _ => destruct (String.eqb_spec name k) as [->|]; [cbn; tauto|] end.
    discriminate.
  - intros m k H. assert (C : forall l, color_seq named (map CColor l) = Ok l) by (intros l; exact (proj1 (proj2 (C82_color_seq named [])) l)).
    assert (D : forall m k, bind (from_cmap maps (inl m) (LCount k) None) (fun l => color_seq named (map CColor l)) = from_cmap maps (inl m) (LCount k) None).
    { intros m' k'. destruct (from_cmap maps (inl m') (LCount k') None) as [l|e]; [apply C|reflexivity]. }
    cbn [In] in H. repeat (destruct H as [H|H]; [injection H as <- <- <-; apply D|]). destruct H.
  - intros m H. cbn [In] in H. repeat (destruct H as [H|H]; [injection H as <- <-; reflexivity|]). destruct H.
Qed.
Print Assumptions C82_predefined.

(** The keywords plt.figure gets: from figure(), figsize (a number is squared), dpi None and layout 'tight' unless the caller says otherwise; from
    subplots() and subfigures(), the size computed from n and subsize and the layout, figure_kw winning over both. *)
Theorem C82_figure_kw : forall tight n figsize subsize layout space user w h, figsize_of n figsize subsize = Ok (w, h) -> od_wf user ->
  (forall s kw k, figure_kw s user = Ok kw -> od_get String.eqb kw k = match od_get String.eqb user k with Some v => Some v | None =>
      if String.eqb k "figsize" then match square s with Ok v => Some v | Err _ => None end else if String.eqb k "dpi" then Some FNone else if String.eqb k "layout" then Some (FStr "tight") else None end) /\
  (forall a, square (AScalar a) = Ok (FSize a a)) /\ square ANone = Ok FNone /\ (forall a b, square (ASeq [a; b]) = Ok (FSize a b)) /\ (forall l, length l <> 2 -> square (ASeq l) = Err ValueError) /\
  exists kw, shortcut_figure tight n figsize subsize layout space user = Ok kw /\
    forall k, od_get String.eqb kw k = match od_get String.eqb user k with Some v => Some v | None =>
      if String.eqb k "figsize" then Some (FSize w h) else if String.eqb k "dpi" then Some FNone else if String.eqb k "layout" then
        Some (match layout with Some l => FStr l | None => if tight then match space with ANone => FStr "tight" | _ => FNone end else FNone end) else None end.
Proof.
  intros tight n figsize subsize layout space user w h E W.
  assert (G : forall (d : list (string * fval)) k, od_get String.eqb (od_update String.eqb d user) k = match od_get String.eqb user k with Some v => Some v | None => od_get String.eqb d k end).
  { intros d k. rewrite (od_get_update _ String.eqb_spec), (last_get_wf _ String.eqb_spec) by exact W. reflexivity. }
  split; [|split; [reflexivity|split; [reflexivity|split; [reflexivity|split; [intros [|a [|b [|c l]]] L; cbn in L; try reflexivity; lia|]]]]].
  - intros s kw k H. unfold figure_kw in H. destruct (square s) as [v|e]; [|discriminate]. cbn [rmap] in H. injection H as <-. rewrite G.
    destruct (od_get String.eqb user k); [reflexivity|]. cbn [od_get]. rewrite ?(String.eqb_sym _ k). reflexivity.
  - unfold shortcut_figure. rewrite E. cbn [bind fst snd]. unfold figure_kw. cbn [square rmap]. eexists. split; [reflexivity|].
    intros k. rewrite (od_get_update _ String.eqb_spec), (last_get_wf _ String.eqb_spec).
    2:{ apply (od_wf_update _ String.eqb_spec). repeat constructor; cbn; intuition discriminate. }
    rewrite G. destruct (od_get String.eqb user k); [reflexivity|]. cbn [od_get]. rewrite ?(String.eqb_sym _ k).
    destruct (String.eqb_spec k "figsize") as [->|]; [reflexivity|]. destruct (String.eqb_spec k "layout") as [->|]; [|destruct (String.eqb k "dpi"); reflexivity].
    cbn. destruct tight, layout, space; reflexivity.
Qed.
Print Assumptions C82_figure_kw.

(** Gridspec (sub-figure) keywords given by the caller win over those computed from extent, space, ... *)
Theorem C82_gridspec_kw : forall V (computed user : list (string * V)) k, od_wf user ->
  od_get String.eqb (gridspec_kw computed user) k = match od_get String.eqb user k with Some v => Some v | None => od_get String.eqb computed k end.
Proof. intros V computed user k W. unfold gridspec_kw. rewrite (od_get_update _ String.eqb_spec), (last_get_wf _ String.eqb_spec) by exact W. reflexivity. Qed.
Print Assumptions C82_gridspec_kw.
