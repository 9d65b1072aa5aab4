(** Two-dimensional reductions: row by row. *)
From Coq Require Import QArith Qround Qabs Lqa Permutation.
From Verif Require Import Base OrderSpec BinSpec BinModel BinProofs InterpModel InterpProofs ReduSpec ReduModel ReduProofs.
Local Open Scope list_scope. Local Open Scope nat_scope.

Lemma nth_error_nth_d {A} (l : list A) i a d : nth_error l i = Some a -> nth i l d = a.
Proof. revert i. induction l as [|x l IH]; intros [|i] H; cbn in *; try discriminate; [congruence|auto]. Qed.
Lemma rect_nth {A} c (rows : list (list A)) i r : rect c rows -> nth_error rows i = Some r -> length r = c.
Proof. intros H Hi. unfold rect in H. rewrite Forall_forall in H. apply H. eapply nth_error_In; eassumption. Qed.

Lemma row_some {A B} c (rows : list (list A)) (ws : list (list B)) i r : length ws = length rows -> rect c ws -> nth_error rows i = Some r ->
  exists w, nth_error ws i = Some w /\ nth i ws [] = w /\ length w = c.
Proof.
  intros L R H. destruct (nth_error ws i) as [w|] eqn:E.
  - exists w. split; [reflexivity|]. split; [apply nth_error_nth_d; assumption|]. eapply rect_nth; eassumption.
  - apply nth_error_None in E. assert (i < length rows) by (apply nth_error_Some; congruence). lia.
Qed.

Lemma sum_2d c rows w m : fits2 c rows w -> fits2 c rows m ->
  exists outs, sum_impl (A2 c rows) (option_map (A2 c) w) (option_map (A2 c) m) = V1 outs /\ length outs = length rows /\
    forall i r, nth_error rows i = Some r -> exists v, nth_error outs i = Some v /\
      sum_impl (A1 r) (option_map A1 (row_at i w)) (option_map A1 (row_at i m)) = S0 v.
Proof.
  intros Hw Hm. unfold sum_impl, row_at.
  destruct w as [w|], m as [m|]; cbn [option_map amap azip sum_last fits2] in *; eexists; (split; [reflexivity|]); split;
    rewrite ?map_length, ?zip_with_length, ?map_length; try lia; intros i r Hr.
  - destruct Hw as [Hw Rw], Hm as [Hm Rm]. destruct (row_some c rows w i r Hw Rw Hr) as (a & Ha & -> & _).
    destruct (row_some c rows m i r Hm Rm Hr) as (b & Hb & -> & _). eexists. split; [|reflexivity].
    apply map_nth_error, zip_with_nth; [assumption|]. apply zip_with_nth; [assumption|]. apply map_nth_error. assumption.
  - destruct Hw as [Hw Rw]. destruct (row_some c rows w i r Hw Rw Hr) as (a & Ha & -> & _).
    eexists. split; [|reflexivity]. apply map_nth_error, zip_with_nth; assumption.
  - destruct Hm as [Hm Rm]. destruct (row_some c rows m i r Hm Rm Hr) as (b & Hb & -> & _).
    eexists. split; [|reflexivity]. apply map_nth_error, zip_with_nth; [assumption|]. apply map_nth_error. assumption.
  - eexists. split; [|reflexivity]. apply map_nth_error. assumption.
Qed.

Lemma checked_2d {A B C} c (rows : list (list A)) (w : option (list (list B))) m (k : result C) : fits2 c rows w -> fits2 c rows m ->
  checked (A2 c rows) (option_map (A2 c) w) (option_map (A2 c) m) k = k.
Proof.
  intros Hw Hm. unfold checked. destruct w as [w|], m as [m|]; cbn [option_map same_shape andb fits2] in *;
    repeat match goal with H : _ /\ _ |- _ => destruct H as [? _] end; rewrite ?Nat.eqb_refl;
    repeat match goal with H : length _ = length _ |- _ => rewrite H; clear H end; rewrite ?Nat.eqb_refl; reflexivity.
Qed.
Lemma checked_1d {A B C} (r : list A) (w : option (list B)) m (k : result C) : fits r w m ->
  checked (A1 r) (option_map A1 w) (option_map A1 m) k = k.
Proof.
  intros [Hw Hm]. unfold checked. destruct w as [w|], m as [m|]; cbn [option_map same_shape andb] in *;
    rewrite ?Hw, ?Hm, ?Nat.eqb_refl; reflexivity.
Qed.
Lemma fits_row {A B} c (rows : list (list A)) (w : option (list (list B))) m i r : rect c rows -> fits2 c rows w -> fits2 c rows m ->
  nth_error rows i = Some r -> fits r (row_at i w) (row_at i m).
Proof.
  intros R Hw Hm Hr. pose proof (rect_nth _ _ _ _ R Hr) as L. unfold fits, row_at.
  destruct w as [w|], m as [m|]; cbn [option_map fits2] in *; split; auto.
  - destruct Hw as [Hw Rw]. destruct (row_some c rows w i r Hw Rw Hr) as (a & Ha & -> & La). congruence.
  - destruct Hm as [Hm Rm]. destruct (row_some c rows m i r Hm Rm Hr) as (a & Ha & -> & La). congruence.
  - destruct Hw as [Hw Rw]. destruct (row_some c rows w i r Hw Rw Hr) as (a & Ha & -> & La). congruence.
  - destruct Hm as [Hm Rm]. destruct (row_some c rows m i r Hm Rm Hr) as (a & Ha & -> & La). congruence.
Qed.

(** The counts used by [Mean]: one per row, or one for all. *)
Definition count_is {A} (rows : list (list A)) (m : option (list (list bool))) (o : out Z) : Prop :=
  match o with
  | S0 z => forall i r, nth_error rows i = Some r -> count_impl (A1 r) (option_map A1 (row_at i m)) = S0 z
  | V1 zs => length zs = length rows /\ forall i r, nth_error rows i = Some r -> exists z, nth_error zs i = Some z /\
               count_impl (A1 r) (option_map A1 (row_at i m)) = S0 z
  end.
Lemma count_2d {A} c (rows : list (list A)) m : rect c rows -> fits2 c rows m -> count_is rows m (count_impl (A2 c rows) (option_map (A2 c) m)).
Proof.
  intros R Hm. unfold count_impl. destruct m as [m|]; cbn [option_map fits2 count_is] in *.
  - destruct Hm as [Hm Rm]. split; [rewrite map_length; assumption|]. intros i r Hr.
    destruct (row_some c rows m i r Hm Rm Hr) as (a & Ha & E & La). unfold row_at. cbn [option_map]. rewrite E.
    eexists. split; [apply map_nth_error; eassumption|reflexivity].
  - intros i r Hr. cbn [row_at option_map]. unfold count_impl. rewrite (rect_nth _ _ _ _ R Hr). reflexivity.
Qed.

Definition out_at {A} (o : out A) (i : nat) : option A := match o with S0 a => Some a | V1 l => nth_error l i end.
Definition out_fits {A} (n : nat) (o : out A) : Prop := match o with S0 _ => True | V1 l => length l = n end.
Lemma omap_at {A B} (f : A -> B) o i : out_at (omap f o) i = option_map f (out_at o i).
Proof. destruct o as [a|l]; [reflexivity|]. cbn [omap out_at]. revert i. induction l as [|a l IH]; intros [|i]; cbn [map nth_error]; auto. Qed.
Lemma omap_fits {A B} (f : A -> B) n o : out_fits n o -> out_fits n (omap f o).
Proof. destruct o; cbn [out_fits omap]; [auto|]. rewrite map_length. auto. Qed.
Lemma zip_assign_nth {A} (v : A) : forall l bs i, length l = length bs ->
  nth_error (zip_with (fun x (b : bool) => if b then v else x) l bs) i =
  match nth_error l i, nth_error bs i with Some x, Some b => Some (if (b : bool) then v else x) | _, _ => None end.
Proof.
  induction l as [|a l IH]; intros [|b bs] [|i] H; cbn in H; try discriminate; try reflexivity.
  rewrite zip_with_cons. cbn [nth_error]. apply IH. congruence.
Qed.
(** a[sel] = v where [sel] does not have more axes than [a]. *)
Lemma assign_ok {A} n (a : out A) (s : out bool) (v : A) : out_fits n a -> out_fits n s -> (forall l, s = V1 l -> exists k, a = V1 k) ->
  exists o, assign a s v = Ok o /\ out_fits n o /\ ((forall k, a = V1 k -> exists k', o = V1 k')) /\ forall i x b, out_at a i = Some x -> out_at s i = Some b ->
    out_at o i = Some (if (b : bool) then v else x).
Proof.
  intros Ha Hs Hd. destruct a as [x|l], s as [b|bs]; cbn [assign out_fits] in *.
  - eexists. split; [reflexivity|]. split; [exact I|]. split; [intros; discriminate|]. intros i y c [= <-] [= <-]. reflexivity.
  - destruct (Hd bs eq_refl). discriminate.
  - eexists. split; [reflexivity|]. split; [destruct b; cbn [out_fits]; rewrite ?map_length; assumption|]. split; [eauto|].
    intros i y c Hy [= <-]. cbn [out_at] in *. destruct b; [|assumption]. apply (map_nth_error (fun _ => v)) in Hy. assumption.
  - rewrite Ha, Hs, Nat.eqb_refl. eexists. split; [reflexivity|]. split; [cbn [out_fits]; rewrite zip_with_length; lia|]. split; [eauto|].
    intros i y c Hy Hc. cbn [out_at] in *. rewrite zip_assign_nth by lia. rewrite Hy, Hc. reflexivity.
Qed.
Lemma ozip_ok {A B C} (f : A -> B -> C) n (a : out A) (b : out B) : out_fits n a -> out_fits n b ->
  out_fits n (ozip f a b) /\ ((forall k, a = V1 k -> exists k', ozip f a b = V1 k')) /\
  forall i x y, out_at a i = Some x -> out_at b i = Some y -> out_at (ozip f a b) i = Some (f x y).
Proof.
  intros Ha Hb. destruct a as [x|l], b as [y|l']; cbn [ozip out_fits] in *.
  - split; [exact I|]. split; [intros; discriminate|]. intros i u v [= <-] [= <-]. reflexivity.
  - split; [rewrite map_length; assumption|]. split; [eauto|]. intros i u v [= <-] Hv. cbn [out_at] in *. apply map_nth_error. assumption.
  - split; [rewrite map_length; assumption|]. split; [eauto|]. intros i u v Hu [= <-]. cbn [out_at] in *.
    apply (map_nth_error (fun a => f a y)) in Hu. assumption.
  - split; [rewrite zip_with_length; lia|]. split; [eauto|]. intros i u v Hu Hv. cbn [out_at] in *. apply zip_with_nth; assumption.
Qed.

Lemma mean_2d fill c rows w m : rect c rows -> fits2 c rows w -> fits2 c rows m ->
  exists outs, mean fill (A2 c rows) (option_map (A2 c) w) (option_map (A2 c) m) = Ok (V1 outs) /\ length outs = length rows /\
    forall i r, nth_error rows i = Some r -> exists v, nth_error outs i = Some v /\
      mean fill (A1 r) (option_map A1 (row_at i w)) (option_map A1 (row_at i m)) = Ok (S0 v).
Proof.
  intros R Hw Hm. unfold mean. rewrite checked_2d by assumption. unfold mean_impl, count, sum.
  assert (H0 : fits2 (B := num) c rows None) by exact I.
  pose proof (fun C => @checked_2d num num C c rows None m) as Kn. cbn [option_map] in Kn.
  rewrite Kn by assumption. rewrite checked_2d by assumption. cbn [bind].
  pose proof (count_2d c rows m R Hm) as Hc. destruct (sum_2d c rows w m Hw Hm) as (xs & Ex & Lx & Hx). rewrite Ex.
  set (cnt := count_impl (A2 c rows) (option_map (A2 c) m)) in *.
  (* the sum of the weights *)
  assert (W : exists ws, match option_map (A2 c) w with
      | Some w0 => checked w0 (@None (arr num)) (option_map (A2 c) m) (Ok (sum_impl w0 None (option_map (A2 c) m)))
      | None => Ok (omap (fun z : Z => Fin (inject_Z z)) cnt) end = Ok ws /\ out_fits (length rows) ws /\
      (forall l, cnt = V1 l -> exists k, ws = V1 k) /\
      forall i r, nth_error rows i = Some r -> exists v, out_at ws i = Some v /\
        match option_map A1 (row_at i w) with
        | Some w0 => checked w0 (@None (arr num)) (option_map A1 (row_at i m)) (Ok (sum_impl w0 None (option_map A1 (row_at i m))))
        | None => Ok (omap (fun z : Z => Fin (inject_Z z)) (count_impl (A1 r) (option_map A1 (row_at i m)))) end = Ok (S0 v)).
  { destruct w as [w|].
    - destruct Hw as [Lw Rw]. assert (Hm' : fits2 c w m) by (destruct m; cbn [fits2] in *; [rewrite Lw; assumption|exact I]).
      destruct (sum_2d c w None m I Hm') as (ws & E & L & Hws). cbn [option_map] in *.
      pose proof (fun C => @checked_2d num num C c w None m) as Kw. cbn [option_map] in Kw. rewrite Kw by (assumption || exact I).
      rewrite E. eexists. split; [reflexivity|]. split; [cbn [out_fits]; congruence|]. split; [eauto|].
      intros i r Hr. destruct (row_some c rows w i r Lw Rw Hr) as (a & Ha & Ea & La).
      destruct (Hws i a Ha) as (v & Hv & Sv). exists v. split; [assumption|]. cbn [row_at option_map]. rewrite Ea.
      pose proof (fun C => @checked_1d num num C a None (row_at i m)) as K1. cbn [option_map] in K1. rewrite K1; [cbn [row_at option_map] in Sv; rewrite Sv; reflexivity|].
      split; [exact I|]. pose proof (fits_row c rows (Some w) m i r R (conj Lw Rw) Hm Hr) as [F1 F2].
      rewrite La, <- (rect_nth _ _ _ _ R Hr). exact F2.
    - cbn [option_map row_at]. eexists. split; [reflexivity|]. split; [|split].
      + apply omap_fits. destruct cnt as [z|zs]; [exact I|]. apply Hc.
      + intros l ->. cbn [omap]. eauto.
      + intros i r Hr. rewrite omap_at. destruct cnt as [z|zs]; cbn [count_is out_at] in *.
        * rewrite (Hc i r Hr). eexists. split; reflexivity.
        * destruct Hc as [_ Hc]. destruct (Hc i r Hr) as (z & -> & ->). eexists. split; reflexivity. }
  destruct W as (ws & E & Fw & Dw & Hws). rewrite E. cbn [bind].
  set (se := omap (fun c0 : Z => (c0 <? 1)%Z) cnt).
  assert (Fc : out_fits (length rows) cnt) by (destruct cnt; [exact I|apply Hc]).
  assert (Fs : out_fits (length rows) se) by (apply omap_fits; assumption).
  assert (Hse : forall i r, nth_error rows i = Some r -> exists z, count_impl (A1 r) (option_map A1 (row_at i m)) = S0 z /\ out_at se i = Some (z <? 1)%Z).
  { intros i r Hr. unfold se. rewrite omap_at. destruct cnt as [z|zs]; cbn [count_is out_at] in *.
    - exists z. split; [apply Hc; assumption|reflexivity].
    - destruct Hc as [_ Hc]. destruct (Hc i r Hr) as (z & -> & ?). exists z. auto. }
  destruct (assign_ok (length rows) ws se (Fin 1) Fw Fs) as (ws' & E' & Fw' & _ & Hws').
  { intros l El. unfold se in El. destruct cnt as [z|zs]; [discriminate|]. eapply Dw. reflexivity. }
  rewrite E'. cbn [bind].
  destruct (ozip_ok ndiv (length rows) (V1 xs) ws' Lx Fw') as (Fz & Dz & Hz). destruct (Dz xs eq_refl) as (zl & Ez).
  destruct (assign_ok (length rows) (ozip ndiv (V1 xs) ws') se fill Fz Fs) as (o & Eo & Fo & Do & Ho); [intros; eauto|].
  rewrite Eo. destruct (Do zl Ez) as (outs & ->). exists outs. split; [reflexivity|]. split; [exact Fo|].
  intros i r Hr. destruct (Hx i r Hr) as (xv & Hxv & Sx). destruct (Hws i r Hr) as (wv & Hwv & Sw). destruct (Hse i r Hr) as (z & Cz & Hsz).
  pose proof (fits_row c rows w m i r R Hw Hm Hr) as F.
  eexists. split; [apply (Ho i); [apply Hz; [exact Hxv|apply Hws'; eassumption]|exact Hsz]|].
  rewrite checked_1d by assumption. pose proof (fun C => @checked_1d num num C r None (row_at i m)) as K1. cbn [option_map] in K1.
  rewrite K1 by (split; [exact I|apply F]). rewrite checked_1d by assumption. cbn [bind]. rewrite Cz in *. rewrite Sx, Sw. cbn [bind omap assign ozip]. reflexivity.
Qed.

Lemma square_rows c rows mus : length mus = length rows -> rect c rows ->
  exists rows', square (sub_mean (A2 c rows) (V1 mus)) = A2 c rows' /\ length rows' = length rows /\ rect c rows' /\
    forall i r mu, nth_error rows i = Some r -> nth_error mus i = Some mu -> exists r', nth_error rows' i = Some r' /\
      square (sub_mean (A1 r) (S0 mu)) = A1 r'.
Proof.
  intros L R. unfold square, sub_mean, azip. eexists. split; [reflexivity|]. split; [rewrite !zip_with_length; lia|]. split.
  - apply Forall_forall. intros r' Hr'. unfold zip_with at 1 in Hr'. apply in_map_iff in Hr'. destruct Hr' as ([a b] & <- & Hab).
    cbn [fst snd]. pose proof (in_combine_l _ _ _ _ Hab) as Ha. pose proof (in_combine_r _ _ _ _ Hab) as Hb.
    assert (G : forall a, In a (zip_with (fun r0 c0 => map (fun v : num => nsub v c0) r0) rows mus) -> length a = c).
    { intros d Hd. unfold zip_with in Hd. apply in_map_iff in Hd. destruct Hd as ([e f] & <- & Hef). cbn [fst snd]. rewrite map_length.
      unfold rect in R. rewrite Forall_forall in R. apply R. eapply in_combine_l; eassumption. }
    rewrite zip_with_length, (G a Ha), (G b Hb). lia.
  - intros i r mu Hr Hmu. pose proof (zip_with_nth (fun r0 c0 => map (fun v : num => nsub v c0) r0) rows mus i r mu Hr Hmu) as H.
    eexists. split; [apply zip_with_nth; exact H|]. reflexivity.
Qed.

Lemma radicand_2d fill c rows w m : rect c rows -> fits2 c rows w -> fits2 c rows m ->
  exists outs, radicand fill (A2 c rows) (option_map (A2 c) w) (option_map (A2 c) m) = Ok (V1 outs) /\ length outs = length rows /\
    forall i r, nth_error rows i = Some r -> exists v, nth_error outs i = Some v /\
      radicand fill (A1 r) (option_map A1 (row_at i w)) (option_map A1 (row_at i m)) = Ok (S0 v).
Proof.
  intros R Hw Hm. unfold radicand. destruct (mean_2d fill c rows w m R Hw Hm) as (mus & E & L & H). rewrite E. cbn [bind].
  destruct (square_rows c rows mus L R) as (rows' & Es & Ls & Rs & Hs). rewrite Es.
  destruct (mean_2d fill c rows' w m Rs) as (outs & Eo & Lo & Ho).
  - destruct w; cbn [fits2] in *; [rewrite Ls; assumption|exact I].
  - destruct m; cbn [fits2] in *; [rewrite Ls; assumption|exact I].
  - exists outs. split; [assumption|]. split; [congruence|]. intros i r Hr. destruct (H i r Hr) as (mu & Hmu & Em).
    rewrite Em. cbn [bind]. destruct (Hs i r mu Hr Hmu) as (r' & Hr' & ->). apply Ho. assumption.
Qed.

(** ** Quantile-like reductions *)
Lemma rows_2d_spec {B} (f : list Q -> option (list Q) -> option (list bool) -> result B) : forall rows ws ms,
  match ws with Some w => length w = length rows | None => True end -> match ms with Some m => length m = length rows | None => True end ->
  forall bs, rows_2d f rows ws ms = Ok bs <->
    (length bs = length rows /\ forall i r, nth_error rows i = Some r -> exists b, nth_error bs i = Some b /\ f r (row_at i ws) (row_at i ms) = Ok b).
Proof.
  induction rows as [|r rows IH]; intros ws ms Hw Hm bs; cbn [rows_2d].
  - split; [intros [= <-]; split; [reflexivity|intros [|i] r; discriminate]|]. intros [H _]. destruct bs; [reflexivity|discriminate].
  - assert (Hw' : match option_map (@tl (list Q)) ws with Some w => length w = length rows | None => True end)
      by (destruct ws as [[|w ws]|]; cbn in *; try discriminate; [congruence|exact I]).
    assert (Hm' : match option_map (@tl (list bool)) ms with Some w => length w = length rows | None => True end)
      by (destruct ms as [[|w ms]|]; cbn in *; try discriminate; [congruence|exact I]).
    assert (Hsh : forall i, f (nth i rows []) (row_at i (option_map (@tl (list Q)) ws)) (row_at i (option_map (@tl (list bool)) ms)) =
                            f (nth i rows []) (row_at (S i) ws) (row_at (S i) ms)).
    { intros i. f_equal; [destruct ws as [[|w ws]|]|destruct ms as [[|w ms]|]]; try discriminate; reflexivity. }
    destruct (f r (option_map (fun w => nth 0 w []) ws) (option_map (fun m => nth 0 m []) ms)) as [b|e] eqn:Ef; cbn [bind].
    + specialize (IH _ _ Hw' Hm'). destruct (rows_2d f rows (option_map (@tl _) ws) (option_map (@tl _) ms)) as [bs'|e'] eqn:E; cbn [bind].
      * destruct (proj1 (IH bs') eq_refl) as [L H]. split.
        { intros [= <-]. split; [cbn; congruence|]. intros [|i] r0 Hr; cbn [nth_error] in *.
          - assert (r0 = r) by congruence. subst. exists b. split; [reflexivity|exact Ef].
          - destruct (H i r0 Hr) as (b' & Hb & Eb). exists b'. split; [assumption|]. specialize (Hsh i). rewrite (nth_error_nth_d _ _ _ [] Hr) in Hsh.
            rewrite <- Hsh. exact Eb. }
        { intros [L' H']. destruct bs as [|b0 bs]; [discriminate|]. destruct (H' 0 r eq_refl) as (b1 & Hb1 & Eb1). cbn [nth_error] in Hb1.
          assert (b0 = b) by (unfold row_at in Eb1; congruence). subst. f_equal. f_equal. apply Ok_inj. apply (IH bs). split; [cbn in L'; congruence|].
          intros i r0 Hr. destruct (H' (S i) r0 Hr) as (b2 & Hb2 & Eb2). exists b2. split; [exact Hb2|].
          specialize (Hsh i). rewrite (nth_error_nth_d _ _ _ [] Hr) in Hsh. rewrite Hsh. assumption. }
      * split; [discriminate|]. intros [L' H']. destruct bs as [|b0 bs]; [discriminate|]. exfalso. enough (Err e' = Ok bs) by discriminate. apply (IH bs). split; [cbn in L'; congruence|].
        intros i r0 Hr. destruct (H' (S i) r0 Hr) as (b2 & Hb2 & Eb2). exists b2. split; [exact Hb2|].
        specialize (Hsh i). rewrite (nth_error_nth_d _ _ _ [] Hr) in Hsh. rewrite Hsh. assumption.
    + split; [discriminate|]. intros [L' H']. destruct (H' 0 r eq_refl) as (b1 & Hb1 & Eb1). unfold row_at in Eb1. congruence.
Qed.
Lemma by_rows_1d {B} (f : list Q -> option (list Q) -> option (list bool) -> result B) x w m : fits x w m ->
  by_rows f (A1 x) (option_map A1 w) (option_map A1 m) = rmap S0 (f x w m).
Proof. intros H. unfold by_rows. rewrite checked_1d by assumption. destruct w, m; reflexivity. Qed.
Lemma by_rows_2d {B} (f : list Q -> option (list Q) -> option (list bool) -> result B) c rows w m bs : rect c rows -> fits2 c rows w -> fits2 c rows m ->
  (by_rows f (A2 c rows) (option_map (A2 c) w) (option_map (A2 c) m) = Ok (V1 bs) <->
   (length bs = length rows /\ forall i r, nth_error rows i = Some r -> exists b, nth_error bs i = Some b /\
      by_rows f (A1 r) (option_map A1 (row_at i w)) (option_map A1 (row_at i m)) = Ok (S0 b))).
Proof.
  intros R Hw Hm. unfold by_rows at 1. rewrite checked_2d by assumption.
  replace (option_map rows_of (option_map (A2 c) w)) with w by (destruct w; reflexivity).
  replace (option_map rows_of (option_map (A2 c) m)) with m by (destruct m; reflexivity).
  assert (Hw' : match w with Some w => length w = length rows | None => True end) by (destruct w; [apply Hw|exact I]).
  assert (Hm' : match m with Some w => length w = length rows | None => True end) by (destruct m; [apply Hm|exact I]).
  pose proof (rows_2d_spec f rows w m Hw' Hm' bs) as S1.
  assert (T : rmap V1 (rows_2d f rows w m) = Ok (V1 bs) <-> rows_2d f rows w m = Ok bs).
  { destruct (rows_2d f rows w m); cbn [rmap bind]; split; congruence. }
  rewrite T, S1. split; intros [L H]; (split; [assumption|]); intros i r Hr; destruct (H i r Hr) as (b & Hb & Eb); exists b; (split; [assumption|]).
  - rewrite by_rows_1d by (eapply fits_row; eassumption). rewrite Eb. reflexivity.
  - rewrite by_rows_1d in Eb by (eapply fits_row; eassumption). destruct (f r (row_at i w) (row_at i m)); cbn [rmap bind] in Eb; congruence.
Qed.
