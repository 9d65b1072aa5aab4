(** C60: subplot layout and axes arrays. *)
From Coq Require Import QArith Lqa Permutation.
From Verif Require Import Base OrderSpec LayModel.
Local Open Scope list_scope. Local Open Scope nat_scope.

(** The number of panels: n alone is one row of n, (r, c) is r rows of c; any other number of values is a ValueError. *)
Theorem C60_grid : forall n share extent space ratios margin kw, get_subplots_kw n share extent space ratios margin = Ok kw ->
  (forall k, n = AScalar k -> nrows kw = 1%Z /\ ncols kw = k) /\ (forall r c, n = ASeq [r; c] -> nrows kw = r /\ ncols kw = c) /\
  (forall b, share = AScalar b -> sharex kw = b /\ sharey kw = b) /\ (forall x y, share = ASeq [x; y] -> sharex kw = x /\ sharey kw = y) /\
  (space = ANone -> wspace kw = None /\ hspace kw = None) /\ (forall s, space = AScalar s -> wspace kw = Some s /\ hspace kw = Some s) /\
  (forall w h, space = ASeq [w; h] -> wspace kw = Some w /\ hspace kw = Some h) /\
  (ratios = None -> width_ratios kw = None /\ height_ratios kw = None) /\ (forall w h, ratios = Some [w; h] -> width_ratios kw = w /\ height_ratios kw = h).
Proof.
  intros n share extent space ratios margin kw E. unfold get_subplots_kw in E.
  destruct (grid_of n) as [[r c]|] eqn:G; [|discriminate]. cbn [bind] in E. destruct (share_of share) as [[sx sy]|] eqn:S; [|discriminate]. cbn [bind] in E.
  destruct (extent_of extent) as [e|]; [|discriminate]. cbn [bind] in E. destruct (margin_of margin e) as [[[[t rt] bo] le]|]; [|discriminate]. cbn [bind] in E.
  destruct (space_of space) as [[w h]|] eqn:P; [|discriminate]. cbn [bind] in E. destruct (ratios_of ratios) as [[wr hr]|] eqn:Q; [|discriminate]. cbn [bind fst snd] in E.
  inversion E; subst kw; clear E. cbn [nrows ncols sharex sharey wspace hspace width_ratios height_ratios].
  repeat split; intros; subst; cbn in *; congruence.
Qed.
Print Assumptions C60_grid.

(** The borders.  In fractions of the figure: extent=(lo, hi) puts left and bottom at lo, right and top at hi; four values are top,
    right, bottom, left; margins are measured from the nearest edge and take precedence over the extent. *)
Theorem C60_borders : forall n share extent space ratios margin kw, get_subplots_kw n share extent space ratios margin = Ok kw ->
  (margin = ANone -> extent = ANone -> left kw = None /\ right kw = None /\ bottom kw = None /\ top kw = None) /\
  (forall lo hi, margin = ANone -> extent = ASeq [lo; hi] -> left kw = Some lo /\ bottom kw = Some lo /\ right kw = Some hi /\ top kw = Some hi) /\
  (forall t r b l, margin = ANone -> extent = ASeq [t; r; b; l] -> top kw = Some t /\ right kw = Some r /\ bottom kw = Some b /\ left kw = Some l) /\
  (forall m, margin = AScalar m -> left kw = Some m /\ bottom kw = Some m /\ exists q, (q == 1 - m)%Q /\ right kw = Some q /\ top kw = Some q) /\
  (forall m1 m2, margin = ASeq [m1; m2] -> left kw = Some m1 /\ bottom kw = Some m1 /\ exists q, (q == 1 - m2)%Q /\ right kw = Some q /\ top kw = Some q) /\
  (forall t r b l, margin = ASeq [t; r; b; l] -> bottom kw = Some b /\ left kw = Some l /\ exists t' r', (t' == 1 - t)%Q /\ (r' == 1 - r)%Q /\ top kw = Some t' /\ right kw = Some r').
Proof.
  intros n share extent space ratios margin kw E. unfold get_subplots_kw in E.
  destruct (grid_of n) as [[r c]|] eqn:G; [|discriminate]. cbn [bind] in E. destruct (share_of share) as [[sx sy]|] eqn:S; [|discriminate]. cbn [bind] in E.
  destruct (extent_of extent) as [e|] eqn:Ex; [|discriminate]. cbn [bind] in E. destruct (margin_of margin e) as [[[[t rt] bo] le]|] eqn:M; [|discriminate]. cbn [bind] in E.
  destruct (space_of space) as [[w h]|] eqn:P; [|discriminate]. cbn [bind] in E. destruct (ratios_of ratios) as [[wr hr]|] eqn:Q; [|discriminate]. cbn [bind fst snd] in E.
  inversion E; subst kw; clear E. cbn [top right bottom left].
  split; [|split; [|split; [|split; [|split]]]]; intros; subst; cbn in *.
  - assert (e = (None, None, None, None)) by congruence. subst. inversion M; subst. auto.
  - inversion Ex; subst. inversion M; subst. auto.
  - inversion Ex; subst. inversion M; subst. auto.
  - inversion M; subst. split; [reflexivity|]. split; [reflexivity|]. eexists. split; [|split; reflexivity]. reflexivity.
  - inversion M; subst. split; [reflexivity|]. split; [reflexivity|]. eexists. split; [|split; reflexivity]. reflexivity.
  - inversion M; subst. split; [reflexivity|]. split; [reflexivity|]. do 2 eexists. split; [|split; [|split; reflexivity]]; reflexivity.
Qed.
Print Assumptions C60_borders.

(** What subplots gives back: one Axes exactly if there is one panel, otherwise an array holding every panel once, in row-major
    order, one-dimensional if there is one row or one column; no panels, or borders that leave no room, are a ValueError. *)
Theorem C60_subplots : forall f kw, let r := Z.to_nat (nrows kw) in let c := Z.to_nat (ncols kw) in
  ((0 < nrows kw)%Z -> (0 < ncols kw)%Z -> accepted_borders f kw = true ->
     (r * c = 1 -> subplots f kw = Ok (OneAxes 0)) /\
     (r * c <> 1 -> exists sh ax, subplots f kw = Ok (AxesArr sh ax) /\ ax = seq 0 (r * c) /\ prod sh = r * c /\
        (r = 1 \/ c = 1 -> length sh = 1) /\ (r <> 1 -> c <> 1 -> sh = [r; c]))) /\
  ((nrows kw <= 0)%Z \/ (ncols kw <= 0)%Z \/ accepted_borders f kw = false -> subplots f kw = Err ValueError).
Proof.
  intros f kw r c. unfold subplots. split.
  - intros Hr Hc A. destruct (Z.leb_spec (nrows kw) 0); [lia|]. destruct (Z.leb_spec (ncols kw) 0); [lia|]. rewrite A. cbn [orb negb].
    fold r c. assert (P : Z.of_nat (r * c) = (nrows kw * ncols kw)%Z) by (unfold r, c; lia).
    destruct (Z.eqb_spec (nrows kw * ncols kw) 1) as [E|E].
    + split; [reflexivity|]. intros N. exfalso. lia.
    + split; [intros N; exfalso; lia|]. intros N. exists (squeezed r c), (seq 0 (r * c)). split; [reflexivity|]. split; [reflexivity|]. unfold squeezed.
      destruct (Nat.eqb_spec r 1) as [R1|R1]; [|destruct (Nat.eqb_spec c 1) as [C1|C1]]; cbn [prod fold_right length].
      * split; [lia|]. split; [reflexivity|]. intros; contradiction.
      * split; [lia|]. split; [reflexivity|]. intros; contradiction.
      * split; [lia|]. split; [intros [|]; contradiction|]. reflexivity.
  - intros [H|[H|H]].
    + destruct (Z.leb_spec (nrows kw) 0); [reflexivity|lia].
    + destruct (Z.leb_spec (ncols kw) 0); [|lia]. rewrite orb_true_r. reflexivity.
    + rewrite H. destruct ((nrows kw <=? 0) || (ncols kw <=? 0))%Z; reflexivity.
Qed.
Print Assumptions C60_subplots.

(** Which borders leave room: margins below a half each (their sum below one), an extent whose low end is below its high end. *)
Theorem C60_room : forall f n share extent space ratios margin kw, get_subplots_kw n share extent space ratios margin = Ok kw ->
  (forall m, margin = AScalar m -> accepted_borders f kw = true <-> (m < 1 # 2)%Q) /\
  (forall m1 m2, margin = ASeq [m1; m2] -> accepted_borders f kw = true <-> (m1 + m2 < 1)%Q) /\
  (forall lo hi, margin = ANone -> extent = ASeq [lo; hi] -> accepted_borders f kw = true <-> (lo < hi)%Q).
Proof.
  intros f n share extent space ratios margin kw E. destruct (C60_borders _ _ _ _ _ _ _ E) as (_ & B2 & _ & B4 & B5 & _). unfold accepted_borders.
  assert (T : forall a b, Qltb a b = true <-> (a < b)%Q).
  { intros a b. split; [apply Qltb_lt|]. intros H. destruct (Qltb a b) eqn:Q; [reflexivity|]. apply Qltb_ge in Q. lra. }
  split; [|split].
  - intros m Hm. destruct (B4 m Hm) as (-> & -> & q & Hq & -> & ->). cbn [or_default]. rewrite andb_true_iff, !T. lra.
  - intros m1 m2 Hm. destruct (B5 m1 m2 Hm) as (-> & -> & q & Hq & -> & ->). cbn [or_default]. rewrite andb_true_iff, !T. lra.
  - intros lo hi Hm He. destruct (B2 lo hi Hm He) as (-> & -> & -> & ->). cbn [or_default]. rewrite andb_true_iff, !T. lra.
Qed.
Print Assumptions C60_room.

(** A single number as the extent never works: left and right coincide. *)
Theorem C60_scalar_extent_refuted : forall f n share e space ratios kw, get_subplots_kw n share (AScalar e) space ratios ANone = Ok kw -> subplots f kw = Err ValueError.
Proof.
  intros f n share e space ratios kw E. apply C60_subplots. right. right. unfold get_subplots_kw in E.
  destruct (grid_of n) as [g|]; [|discriminate]. destruct (share_of share) as [s|]; [|discriminate]. cbn [bind extent_of margin_of] in E.
  destruct (space_of space) as [sp|]; [|discriminate]. destruct (ratios_of ratios) as [r|]; [|discriminate]. cbn [bind] in E. inversion E; subst kw.
  unfold accepted_borders. cbn [left right or_default]. destruct (Qltb e e) eqn:Q; [|reflexivity]. apply Qltb_lt in Q. lra.
Qed.
Print Assumptions C60_scalar_extent_refuted.

(** Figure size: without figsize every panel gets subsize (width, height), so r rows of c panels make a figure c widths wide and
    r heights high; the layout engine is 'tight' exactly if neither a layout nor a space was asked for. *)
Theorem C60_figsize : forall n subsize w h r c, grid_of n = Ok (r, c) -> size_of subsize = Ok (w, h) ->
  (exists fw fh, figsize_of n ANone subsize = Ok (fw, fh) /\ fw == inject_Z c * w /\ fh == inject_Z r * h)%Q /\
  (forall s, figsize_of n (AScalar s) subsize = Ok (s, s)) /\ (forall a b, figsize_of n (ASeq [a; b]) subsize = Ok (a, b)).
Proof.
  intros n subsize w h r c G S. unfold figsize_of. rewrite G, S. cbn [bind rmap fst snd size_of two]. split; [|split; reflexivity].
  do 2 eexists. split; [reflexivity|]. split; apply Qmult_comm.
Qed.
Print Assumptions C60_figsize.
(** Refused arguments: a sequence of the wrong length is a ValueError, None where a value is needed a TypeError; the first bad argument
    decides. *)
Theorem C60_refused : forall n share extent space ratios margin,
  (n = ANone -> get_subplots_kw n share extent space ratios margin = Err TypeError) /\
  (forall l, n = ASeq l -> length l <> 2 -> get_subplots_kw n share extent space ratios margin = Err ValueError) /\
  (forall g, grid_of n = Ok g -> share = ANone -> get_subplots_kw n share extent space ratios margin = Err TypeError) /\
  (forall g l, grid_of n = Ok g -> share = ASeq l -> length l <> 2 -> get_subplots_kw n share extent space ratios margin = Err ValueError) /\
  (forall g s l, grid_of n = Ok g -> share_of share = Ok s -> extent = ASeq l -> length l <> 2 -> length l <> 4 -> get_subplots_kw n share extent space ratios margin = Err ValueError) /\
  (forall g s e l, grid_of n = Ok g -> share_of share = Ok s -> extent_of extent = Ok e -> margin = ASeq l -> length l <> 2 -> length l <> 4 ->
     get_subplots_kw n share extent space ratios margin = Err ValueError) /\
  (forall g s e b l, grid_of n = Ok g -> share_of share = Ok s -> extent_of extent = Ok e -> margin_of margin e = Ok b -> space = ASeq l -> length l <> 2 ->
     get_subplots_kw n share extent space ratios margin = Err ValueError) /\
  (forall g s e b sp l, grid_of n = Ok g -> share_of share = Ok s -> extent_of extent = Ok e -> margin_of margin e = Ok b -> space_of space = Ok sp -> ratios = Some l -> length l <> 2 ->
     get_subplots_kw n share extent space ratios margin = Err ValueError).
Proof.
  assert (T : forall A (l : list A), length l <> 2 -> two l = Err ValueError) by (intros A [|a [|b [|c l]]] H; try reflexivity; cbn in H; congruence).
  assert (F : forall A (l : list A), length l <> 4 -> four l = Err ValueError) by (intros A [|a [|b [|c [|d [|e l]]]]] H; try reflexivity; cbn in H; congruence).
  intros. unfold get_subplots_kw. split; [|split; [|split; [|split; [|split; [|split; [|split]]]]]].
  - intros ->. reflexivity.
  - intros l -> H. cbn [grid_of]. rewrite T by exact H. reflexivity.
  - intros g -> ->. reflexivity.
  - intros g l -> -> H. cbn [share_of bind]. rewrite T by exact H. reflexivity.
  - intros g s l -> -> -> H2 H4. cbn [bind]. pose proof (F _ _ H4) as F4. destruct l as [|a [|b [|c l]]]; cbn [extent_of] in *; try (rewrite F4; reflexivity). cbn in H2. congruence.
  - intros g s e l -> -> -> -> H2 H4. cbn [bind]. pose proof (F _ _ H4) as F4. destruct l as [|a [|b [|c l]]]; cbn [margin_of] in *; try (rewrite F4; reflexivity). cbn in H2. congruence.
  - intros g s e b l -> -> -> E -> H2. cbn [bind]. rewrite E. cbn [bind space_of]. rewrite T by exact H2. reflexivity.
  - intros g s e b sp l -> -> -> E -> -> H2. cbn [bind]. rewrite E. cbn [bind ratios_of]. rewrite T by exact H2. destruct b as [[[? ?] ?] ?]. reflexivity.
Qed.
Print Assumptions C60_refused.
Theorem C60_figsize_refused : forall n figsize subsize,
  (n = ANone -> figsize_of n figsize subsize = Err TypeError) /\ (forall l, n = ASeq l -> length l <> 2 -> figsize_of n figsize subsize = Err ValueError) /\
  (forall g, grid_of n = Ok g -> figsize = ANone -> subsize = ANone -> figsize_of n figsize subsize = Err TypeError) /\
  (forall g l, grid_of n = Ok g -> length l <> 2 -> figsize = ASeq l \/ (figsize = ANone /\ subsize = ASeq l) -> figsize_of n figsize subsize = Err ValueError).
Proof.
  assert (T : forall A (l : list A), length l <> 2 -> two l = Err ValueError) by (intros A [|a [|b [|c l]]] H; try reflexivity; cbn in H; congruence).
  intros. unfold figsize_of. split; [|split; [|split]].
  - intros ->. reflexivity.
  - intros l -> H. cbn [grid_of]. rewrite T by exact H. reflexivity.
  - intros g -> -> ->. reflexivity.
  - intros g l -> H [->|[-> ->]]; cbn [bind size_of]; rewrite T by exact H; reflexivity.
Qed.
Print Assumptions C60_figsize_refused.
Theorem C60_layout : forall l space, layout_of l space = Some "tight"%string <-> (l = Some "tight"%string \/ (l = None /\ space = ANone)).
Proof. intros [l|] space; destruct space; cbn; split; intros H; try tauto; try discriminate; destruct H as [H|[H1 H2]]; congruence. Qed.
Print Assumptions C60_layout.

(** Broadcasting over an array of axes of any shape: the method is called on every Axes exactly once, in row-major order. *)
Lemma sub_app {A} (data : list A) k : forall n m, length data = (n + m) * k -> flat_map (fun i => firstn k (skipn (i * k) data)) (seq n m) = skipn (n * k) data.
Proof.
  intros n m. revert n. induction m as [|m IH]; intros n L; cbn [seq flat_map].
  - rewrite skipn_all2 by lia. reflexivity.
  - rewrite IH by lia.
    replace (S n * k) with (k + n * k) by lia. rewrite <- (firstn_skipn k (skipn (n * k) data)) at 2. f_equal.
    clear. revert k n. intros k n. generalize (n * k) as a. clear n. revert k. induction data as [|x data IH]; intros k a; [rewrite !skipn_nil; reflexivity|].
    destruct a as [|a]; [rewrite Nat.add_0_r; reflexivity|]. rewrite Nat.add_succ_r. cbn [skipn]. apply IH.
Qed.
Theorem C60_broadcast_order : forall A shape (data : list A), length data = prod shape -> visit shape data = data.
Proof.
  intros A. induction shape as [|n sh IH]; intros data L; [reflexivity|]. cbn [visit]. change (prod (n :: sh)) with (n * prod sh) in L.
  transitivity (flat_map (fun i => firstn (prod sh) (skipn (i * prod sh) data)) (seq 0 n)); [|rewrite sub_app by lia; reflexivity]. rewrite !flat_map_concat_map. f_equal. apply map_ext_in. intros i Hi. apply in_seq in Hi. apply IH.
  unfold sub. rewrite firstn_length, skipn_length. rewrite L. nia.
Qed.
Print Assumptions C60_broadcast_order.

(** Its effect: if the method succeeds on all of them, each Axes of the array has been changed by it once and all others are as
    they were; otherwise exactly those before the failing one have, and the exception reaches the caller. *)
Definition ok_before {S} (f : S -> result unit * S) (st : list S) (axes : list nat) : Prop := forall a s, In a axes -> nth_error st a = Some s -> fst (f s) = Ok tt.
Theorem C60_broadcast : forall S (f : S -> result unit * S) st shape axes, length axes = prod shape -> NoDup axes -> Forall (fun a => a < length st) axes ->
  (ok_before f st axes -> exists st', broadcast f st shape axes = (Ok tt, st') /\ length st' = length st /\
     forall a, nth_error st' a = if in_dec Nat.eq_dec a axes then option_map (fun s => snd (f s)) (nth_error st a) else nth_error st a) /\
  (forall pre b post s e, axes = pre ++ b :: post -> ok_before f st pre -> nth_error st b = Some s -> fst (f s) = Err e ->
     exists st', broadcast f st shape axes = (Err e, st') /\ length st' = length st /\
     forall a, nth_error st' a = if in_dec Nat.eq_dec a (pre ++ [b]) then option_map (fun s => snd (f s)) (nth_error st a) else nth_error st a).
Proof.
  intros S f st shape axes L ND B. unfold broadcast. rewrite C60_broadcast_order by exact L. clear L shape. split.
  - revert st B. induction axes as [|a axes IH]; intros st B H; cbn [each].
    + exists st. split; [reflexivity|]. split; [reflexivity|]. intros a. destruct (in_dec Nat.eq_dec a []) as [[]|]; reflexivity.
    + inversion ND as [|a' l' Hn Hd]; subst. inversion B as [|a' l' Ha Hb]; subst. destruct (nth_error st a) as [s|] eqn:E; [|apply nth_error_None in E; lia].
      pose proof (H a s (or_introl eq_refl) E) as F. destruct (f s) as [r s'] eqn:Fs. cbn [fst] in F. subst r.
      destruct (IH Hd (upd_nth st a s')) as (st' & R & L' & G).
      * rewrite Forall_forall in *. intros x Hx. rewrite upd_nth_length. auto.
      * intros x sx Hx Ex. rewrite upd_nth_other in Ex by congruence. exact (H x sx (or_intror Hx) Ex).
      * exists st'. rewrite upd_nth_length in L'. split; [exact R|]. split; [exact L'|]. intros x. rewrite G.
        destruct (in_dec Nat.eq_dec x axes) as [I|I]; destruct (in_dec Nat.eq_dec x (a :: axes)) as [J|J]; cbn [In] in J; try tauto.
        -- rewrite upd_nth_other by congruence. reflexivity.
        -- destruct J as [<-|J]; [|tauto]. rewrite upd_nth_same by exact Ha. rewrite E. cbn [option_map]. rewrite Fs. reflexivity.
        -- rewrite upd_nth_other by tauto. reflexivity.
  - intros pre b post s e ->. revert st B. induction pre as [|a pre IH]; intros st B H Eb F; cbn [app each] in *.
    + rewrite Eb. destruct (f s) as [r s'] eqn:Fs. cbn [fst] in F. subst r. exists (upd_nth st b s'). split; [reflexivity|]. split; [apply upd_nth_length|].
      assert (Hb : b < length st) by (apply nth_error_Some; congruence). intros x. destruct (in_dec Nat.eq_dec x [b]) as [[<-|[]]|J].
      * rewrite upd_nth_same by exact Hb. rewrite Eb. cbn [option_map]. rewrite Fs. reflexivity.
      * rewrite upd_nth_other; [reflexivity|]. intros ->. apply J. left. reflexivity.
    + inversion ND as [|a' l' Hn Hd]; subst. inversion B as [|a' l' Ha Hb]; subst. destruct (nth_error st a) as [sa|] eqn:E; [|apply nth_error_None in E; lia].
      pose proof (H a sa (or_introl eq_refl) E) as Fa. destruct (f sa) as [r s'] eqn:Fs. cbn [fst] in Fa. subst r.
      assert (Nb : a <> b) by (intros ->; apply Hn; apply in_or_app; right; left; reflexivity).
      destruct (IH Hd (upd_nth st a s')) as (st' & R & L' & G).
      * rewrite Forall_forall in *. intros x Hx. rewrite upd_nth_length. auto.
      * intros x sx Hx Ex. rewrite upd_nth_other in Ex; [exact (H x sx (or_intror Hx) Ex)|]. intros ->. apply Hn. apply in_or_app. left. exact Hx.
      * rewrite upd_nth_other by exact Nb. exact Eb.
      * exact F.
      * exists st'. rewrite upd_nth_length in L'. split; [exact R|]. split; [exact L'|]. intros x. rewrite G.
        destruct (in_dec Nat.eq_dec x (pre ++ [b])) as [I|I]; destruct (in_dec Nat.eq_dec x (a :: pre ++ [b])) as [J|J]; cbn [In] in J; try tauto.
        -- rewrite upd_nth_other; [reflexivity|]. intros ->. apply Hn. apply in_app_or in I. apply in_or_app. destruct I as [I|[<-|[]]]; [left; exact I|right; left; reflexivity].
        -- destruct J as [<-|J]; [|tauto]. rewrite upd_nth_same by exact Ha. rewrite E. cbn [option_map]. rewrite Fs. reflexivity.
        -- rewrite upd_nth_other by tauto. reflexivity.
Qed.
Print Assumptions C60_broadcast.

(** Transposing twice gives the array back; the element at (j, i) of the transpose is the one at (i, j). *)
Lemma nth_flat_map (g : nat -> nat -> nat) r : forall c j i, i < r -> j < c -> forall s, nth (j * r + i) (flat_map (fun j => map (g j) (seq 0 r)) (seq s c)) 0 = g (s + j) i.
Proof.
  induction c as [|c IH]; intros j i Hi Hj s; [lia|]. cbn [seq flat_map]. destruct j as [|j].
  - rewrite app_nth1 by (rewrite map_length, seq_length; lia). rewrite Nat.add_0_l, Nat.add_0_r.
    rewrite (nth_indep _ 0 (g s 0)) by (rewrite map_length, seq_length; lia). rewrite map_nth, seq_nth by lia. reflexivity.
  - rewrite app_nth2 by (rewrite map_length, seq_length; lia). rewrite map_length, seq_length. replace (S j * r + i - r) with (j * r + i) by lia.
    rewrite IH by lia. f_equal. lia.
Qed.
Theorem C60_transpose : forall r c axes, length axes = r * c ->
  exists t, transpose [r; c] axes = ([c; r], t) /\ length t = r * c /\ (forall i j, i < r -> j < c -> nth (j * r + i) t 0 = nth (i * c + j) axes 0) /\ transpose [c; r] t = ([r; c], axes).
Proof.
  intros r c axes L. cbn [transpose]. eexists. split; [reflexivity|].
  set (t := flat_map (fun j => map (fun i => nth (i * c + j) axes 0) (seq 0 r)) (seq 0 c)).
  assert (G : forall i j, i < r -> j < c -> nth (j * r + i) t 0 = nth (i * c + j) axes 0).
  { intros i j Hi Hj. unfold t. rewrite (nth_flat_map (fun j i => nth (i * c + j) axes 0) r c j i Hi Hj 0). reflexivity. }
  assert (FL : forall (g : nat -> nat -> nat) a b s, length (flat_map (fun j => map (g j) (seq 0 a)) (seq s b)) = b * a).
  { intros g a b. induction b as [|b IH]; intros s; cbn [seq flat_map length]; [reflexivity|]. rewrite app_length, map_length, seq_length, IH. lia. }
  assert (Lt : length t = r * c) by (unfold t; rewrite (FL (fun j i => nth (i * c + j) axes 0)); lia).
  split; [exact Lt|]. split; [exact G|]. f_equal. apply (nth_ext _ _ 0 0).
  - rewrite (FL (fun j i => nth (i * r + j) t 0)). lia.
  - rewrite (FL (fun j i => nth (i * r + j) t 0)). intros k Hk.
    assert (Hc : 0 < c) by (destruct c; lia). pose proof (Nat.div_mod k c ltac:(lia)) as D. pose proof (Nat.mod_upper_bound k c ltac:(lia)) as M.
    assert (Hd : k / c < r) by (apply Nat.div_lt_upper_bound; lia).
    replace k with ((k / c) * c + k mod c) at 1 by lia. rewrite (nth_flat_map (fun j i => nth (i * r + j) t 0) c r (k / c) (k mod c) M Hd 0).
    cbn beta. rewrite Nat.add_0_l, G by assumption. f_equal. lia.
Qed.
Print Assumptions C60_transpose.
(** One-dimensional arrays are their own transpose. *)
Theorem C60_transpose_row : forall n axes, transpose [n] axes = ([n], axes).
Proof. reflexivity. Qed.
Print Assumptions C60_transpose_row.

(** Non-vacuity. *)
Example C60_example : exists kw, get_subplots_kw (ASeq [2; 3]%Z) (AScalar true) ANone (AScalar (1 # 10)) None (AScalar (1 # 8)) = Ok kw /\
  subplots {| ftop := 88 # 100; fright := 9 # 10; fbottom := 11 # 100; fleft := 125 # 1000 |} kw = Ok (AxesArr [2; 3] [0; 1; 2; 3; 4; 5]) /\
  broadcast (fun n : nat => (Ok tt, n + 10)) [0; 1; 2; 3; 4; 5; 6] [2; 3] [0; 1; 2; 3; 4; 5] = (Ok tt, [10; 11; 12; 13; 14; 15; 6]) /\
  transpose [2; 3] [0; 1; 2; 3; 4; 5] = ([3; 2], [0; 3; 1; 4; 2; 5]).
Proof. eexists. split; [reflexivity|]. repeat split; reflexivity. Qed.
Example C60_example_borders : exists kw, get_subplots_kw (AScalar 1%Z) (AScalar false) (ASeq [1 # 10; 9 # 10]) ANone None ANone = Ok kw /\
  subplots {| ftop := 88 # 100; fright := 9 # 10; fbottom := 11 # 100; fleft := 125 # 1000 |} kw = Ok (OneAxes 0).
Proof. eexists. split; reflexivity. Qed.
(** Accepted arguments: with every argument of a length that is understood (and n and share given) there is a layout, the ratios left out included. *)
Theorem C60_accepted : forall n share extent space ratios margin,
  (match n with ANone => False | AScalar _ => True | ASeq l => length l = 2 end) -> (match share with ANone => False | AScalar _ => True | ASeq l => length l = 2 end) ->
  (match extent with ASeq l => length l = 2 \/ length l = 4 | _ => True end) -> (match margin with ASeq l => length l = 2 \/ length l = 4 | _ => True end) ->
  (match space with ASeq l => length l = 2 | _ => True end) -> (match ratios with Some l => length l = 2 | None => True end) ->
  exists kw, get_subplots_kw n share extent space ratios margin = Ok kw.
Proof.
  assert (T : forall A (l : list A), length l = 2 -> exists a b, l = [a; b]) by (intros A [|a [|b [|c l]]] H; try discriminate H; eauto).
  assert (F : forall A (l : list A), length l = 4 -> exists a b c d, l = [a; b; c; d]) by (intros A [|a [|b [|c [|d [|e l]]]]] H; try discriminate H; eauto).
  intros n share extent space ratios margin Hn Hs He Hm Hp Hr. unfold get_subplots_kw.
  assert (Gn : exists g, grid_of n = Ok g) by (destruct n as [|k|l]; [destruct Hn|cbn; eauto|]; destruct (T _ _ Hn) as (a & b & ->); cbn; eauto). destruct Gn as [g ->]. cbn [bind].
  assert (Gs : exists s, share_of share = Ok s) by (destruct share as [|k|l]; [destruct Hs|cbn; eauto|]; destruct (T _ _ Hs) as (a & b & ->); cbn; eauto). destruct Gs as [s ->]. cbn [bind].
  assert (Ge : exists e, extent_of extent = Ok e) by (destruct extent as [|k|l]; [cbn; eauto|cbn; eauto|]; destruct He as [He|He]; [destruct (T _ _ He) as (a & b & ->)|destruct (F _ _ He) as (a & b & c & d & ->)]; cbn; eauto). destruct Ge as [e ->]. cbn [bind].
  assert (Gm : exists e', margin_of margin e = Ok e') by (destruct margin as [|k|l]; [cbn; eauto|cbn; eauto|]; destruct Hm as [Hm|Hm]; [destruct (T _ _ Hm) as (a & b & ->)|destruct (F _ _ Hm) as (a & b & c & d & ->)]; cbn; eauto). destruct Gm as [[[[t rt] bo] le] ->]. cbn [bind].
  assert (Gp : exists sp, space_of space = Ok sp) by (destruct space as [|k|l]; [cbn; eauto|cbn; eauto|]; destruct (T _ _ Hp) as (a & b & ->); cbn; eauto). destruct Gp as [sp ->]. cbn [bind].
  assert (Gr : exists r, ratios_of ratios = Ok r) by (destruct ratios as [l|]; [|cbn; eauto]; destruct (T _ _ Hr) as (a & b & ->); cbn; eauto). destruct Gr as [r ->]. cbn [bind]. eauto.
Qed.
Print Assumptions C60_accepted.
