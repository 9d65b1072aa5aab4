(** C51: bootstrap; C68: random noise (stats.sampling). *)
From Coq Require Import QArith Reals Lqa Lra.
From Verif Require Import Base BinSpec BinProofs SampSpec SampModel SampProofs.
Local Open Scope list_scope. Local Open Scope nat_scope.

(** For every outcome of the generator, a resample succeeds and is made of whole rows. *)
Theorem C51_resample V (d : draws) (dsets : list (dset V)) maxs c : good_dsets dsets -> length maxs = length dsets -> Forall (fun m => (0 <= m)%Z) maxs ->
  exists out c', resample d dsets (Some maxs) c = Ok (out, c') /\ resampling_of dsets maxs out.
Proof. apply resample_ok. Qed.
Print Assumptions C51_resample.
(** Without maximal sizes: the sizes are those of the datasets (up to 2^60). *)
Theorem C51_resample_full V (d : draws) (dsets : list (dset V)) c : good_dsets dsets ->
  exists out c', resample d dsets None c = Ok (out, c') /\ resampling_of dsets (map (fun _ => (2 ^ 60)%Z) dsets) out.
Proof.
  intros H. rewrite resample_none. apply resample_ok; [assumption|apply map_length|]. apply Forall_forall. intros m Hm.
  apply in_map_iff in Hm. destruct Hm as (? & <- & _). lia.
Qed.
Print Assumptions C51_resample_full.
(** Every list of row numbers of the right size is the outcome of some generator. *)
Theorem C51_every_outcome n ids : Forall (fun t => t < n) ids -> exists d : draws, choice d 0 n (Z.of_nat (length ids)) = Ok ids.
Proof.
  intros H. exists (fun _ j => nth j ids 0). unfold choice. destruct (Z.ltb_spec (Z.of_nat (length ids)) 0); [lia|].
  assert (B : Nat.eqb n 0 && (0 <? Z.of_nat (length ids))%Z = false).
  { destruct (Nat.eqb_spec n 0) as [->|]; [|reflexivity]. destruct ids as [|t ids]; [reflexivity|]. inversion H. lia. }
  rewrite B, Nat2Z.id. f_equal. clear B. apply nth_ext with (d := 0) (d' := 0); [rewrite map_length, seq_length; reflexivity|].
  intros i Hi. rewrite map_length, seq_length in Hi. rewrite (nth_indep _ 0 (nth 0 ids 0 mod n)) by (rewrite map_length, seq_length; assumption).
  rewrite (map_nth (fun j => nth j ids 0 mod n)). rewrite seq_nth by assumption. cbn [plus]. apply Nat.mod_small.
  rewrite Forall_forall in H. apply H, nth_In. assumption.
Qed.
Print Assumptions C51_every_outcome.
Theorem C51_sizes_mismatch V (d : draws) (dsets : list (dset V)) maxs c : length maxs <> length dsets -> resample d dsets (Some maxs) c = Err AssertionError.
Proof. intros H. unfold resample. apply Nat.eqb_neq in H. rewrite H. reflexivity. Qed.
Print Assumptions C51_sizes_mismatch.

(** The statistics function is called [n_resample] times, each time on a resampling of the datasets with the extra keywords added
    (they override columns of the same name). *)
Theorem C51_calls V C (f : nat -> kwargs V C -> result (list (string * Q))) (dsets : list (dset V)) keys kw0 n d keep maxs res calls :
  good_dsets dsets -> length maxs = length dsets -> Forall (fun m => (0 <= m)%Z) maxs -> NoDup (map fst kw0) ->
  resampled_call f (Again dsets) keys kw0 n d keep (Some (Again maxs)) = Ok (res, calls) ->
  length calls = Z.to_nat n /\ forall j kw, nth_error calls j = Some kw -> exists out, resampling_of dsets maxs out /\
    forall k, od_get String.eqb kw k = match od_get String.eqb kw0 k with Some x => Some (Const x) | None => option_map Col (od_get String.eqb out k) end.
Proof.
  intros Hg Hl Hm Nd H. unfold resampled_call in H. change (Some (Again maxs)) with (option_map Again (Some maxs)) in H.
  destruct (boot_loop f d (Z.to_nat n) 0 (Again dsets) (option_map Again (Some maxs)) kw0 0) as [cs|] eqn:Eb; [|discriminate]. cbn [bind] in H.
  destruct (add_keys keep (map snd cs) [] keys) as [acc|]; [|discriminate]. cbn [bind] in H.
  destruct (map snd cs) as [|o os]; [discriminate|]. injection H as _ <-.
  destruct (boot_loop_spec _ _ _ _ _ _ _ _ _ Eb) as [L N]. split; [rewrite map_length; assumption|]. intros j kw Hj.
  rewrite nth_error_map in Hj. destruct (nth_error cs j) as [[kw' o']|] eqn:Ec; [|discriminate]. injection Hj as <-.
  destruct (N j kw' o' Ec) as [_ (out & cj & cj' & Er & ->)]. exists out. split.
  - destruct (resample_ok d dsets maxs cj Hg Hl Hm) as (out' & c' & E' & R). assert (out' = out) by congruence. subst. assumption.
  - intros k. cbn [fst]. apply kw_get. assumption.
Qed.
Print Assumptions C51_calls.
(** The result: for each requested statistic its mean over the calls, the standard deviation (the root of the mean square
    deviation) and, if asked for, the values in call order; everything else is that of the first call. *)
Theorem C51_result V C (f : nat -> kwargs V C -> result (list (string * Q))) (dsets : iterable (dset V)) keys kw0 n d keep maxs res calls :
  resampled_call f dsets keys kw0 n d keep maxs = Ok (res, calls) -> clean keys ->
  exists outs o0 rest, outs = o0 :: rest /\ length outs = length calls /\
    (forall key, In key keys -> exists vals, column outs key vals /\
       (exists m, od_get String.eqb res key = Some (Num m) /\ (m * inject_Z (Z.of_nat (length vals)) == Qsum vals)%Q /\
        exists v, od_get String.eqb res (key ++ "_sd")%string = Some (Root v) /\
          (v * inject_Z (Z.of_nat (length vals)) == Qsum (map (fun a => (a - m) * (a - m)) vals))%Q) /\
       (keep = true -> od_get String.eqb res (key ++ "_samples")%string = Some (Samples vals))) /\
    (forall k, (forall key, In key keys -> k <> key /\ k <> (key ++ "_sd")%string /\ k <> (key ++ "_samples")%string) ->
       od_get String.eqb res k = option_map Num (od_get String.eqb o0 k)).
Proof.
  intros H Hc. unfold resampled_call in H.
  destruct (boot_loop f d (Z.to_nat n) 0 dsets maxs kw0 0) as [cs|]; [|discriminate]. cbn [bind] in H.
  destruct (add_keys keep (map snd cs) [] keys) as [acc|] eqn:Ea; [|discriminate]. cbn [bind] in H.
  destruct (map snd cs) as [|o0 rest] eqn:Em; [discriminate|]. injection H as <- <-. exists (o0 :: rest), o0, rest. split; [reflexivity|].
  split; [rewrite <- Em, !map_length; reflexivity|]. split.
  - intros key Hk. destruct (add_keys_spec keep _ keys [] acc key Ea Hc Hk) as (vals & Hv & E1 & E2 & E3). exists vals. split; [assumption|].
    assert (Hne : vals <> []) by (intros ->; inversion Hv).
    split.
    + exists (qmean vals). split; [rewrite setdefault_fold, E1; reflexivity|]. split; [apply Qsum_qmean; assumption|].
      exists (qvar vals). split; [rewrite setdefault_fold, E2; reflexivity|]. unfold qvar.
      set (l := map (fun a => ((a - qmean vals) * (a - qmean vals))%Q) vals).
      assert (Ll : length vals = length l) by (unfold l; rewrite map_length; reflexivity). rewrite Ll. apply Qsum_qmean. destruct vals; [congruence|discriminate].
    + intros Hkeep. rewrite setdefault_fold, (E3 Hkeep). reflexivity.
  - intros k Hk. rewrite setdefault_fold. rewrite (add_keys_other keep _ keys [] acc k Ea).
    + cbn [od_get]. clear. induction o0 as [|[k' v'] o IH]; cbn [map od_get]; [reflexivity|]. destruct (String.eqb k k'); [reflexivity|assumption].
    + intros key Hin. destruct (Hk key Hin) as (A & B & D). unfold names_of. destruct keep; cbn [app In]; intuition congruence.
Qed.
Print Assumptions C51_result.
(** It succeeds whenever at least one resample is asked for and the function returns the requested statistics. *)
Theorem C51_total V C (f : nat -> kwargs V C -> result (list (string * Q))) (dsets : list (dset V)) keys kw0 n d keep maxs :
  good_dsets dsets -> length maxs = length dsets -> Forall (fun m => (0 <= m)%Z) maxs -> (0 < n)%Z ->
  (forall i kw, exists o, f i kw = Ok o /\ forall k, In k keys -> od_get String.eqb o k <> None) ->
  exists r, resampled_call f (Again dsets) keys kw0 n d keep (Some (Again maxs)) = Ok r.
Proof.
  intros Hg Hl Hm Hn Hf. unfold resampled_call. change (Some (Again maxs)) with (option_map Again (Some maxs)).
  destruct (boot_loop_total f d dsets (Some maxs) kw0) with (n := Z.to_nat n) (i := 0) (c := 0) as [cs Ec].
  - intros i kw. destruct (Hf i kw) as (o & E & _). eauto.
  - intros c. destruct (resample_ok d dsets maxs c Hg Hl Hm) as (out & c' & E & _). eauto.
  - rewrite Ec. cbn [bind]. destruct (boot_loop_spec _ _ _ _ _ _ _ _ _ Ec) as [L N].
    destruct (add_keys_total keep (map snd cs) keys []) as [acc Ea].
    { intros k o Hk Ho. apply in_map_iff in Ho. destruct Ho as ([kw o'] & <- & Ho). apply In_nth_error in Ho. destruct Ho as [j Hj].
      destruct (N j kw o' Hj) as [E _]. destruct (Hf (0 + j) kw) as (o & E2 & H2). cbn [snd]. assert (o = o') by congruence. subst. apply H2. assumption. }
    rewrite Ea. cbn [bind]. destruct cs as [|[kw o] cs]; [cbn in L; lia|]. cbn [map snd]. eauto.
Qed.
Print Assumptions C51_total.
(** No resample at all is an IndexError. *)
Theorem C51_none V C (f : nat -> kwargs V C -> result (list (string * Q))) dsets keys kw0 n d keep maxs : (n <= 0)%Z ->
  resampled_call f dsets keys kw0 n d keep maxs = Err IndexError.
Proof.
  intros H. unfold resampled_call. replace (Z.to_nat n) with 0 by lia. cbn [boot_loop bind map].
  destruct (add_keys_total keep [] keys []) as [acc Ea]; [intros k o _ []|].
  transitivity (bind (Ok acc) (fun _ : list (string * cell) => @Err (list (string * cell) * list (kwargs V C)) IndexError)); [f_equal; exact Ea|reflexivity].
Qed.
Print Assumptions C51_none.
(** Finding: datasets given as a generator (the annotation promises any iterable) are consumed by the first resample; from the
    second call on, the statistics function is given no data. *)
Theorem C51_generator_refuted V C (f : nat -> kwargs V C -> result (list (string * Q))) (dsets : list (dset V)) keys kw0 d keep n res calls :
  resampled_call f (Once dsets) keys kw0 n d keep None = Ok (res, calls) ->
  forall j kw, 0 < j -> nth_error calls j = Some kw -> forall k l, od_get String.eqb kw k <> Some (Col l).
Proof.
  intros H. unfold resampled_call in H.
  destruct (boot_loop f d (Z.to_nat n) 0 (Once dsets) None kw0 0) as [cs|] eqn:Eb; [|discriminate]. cbn [bind] in H.
  destruct (add_keys keep (map snd cs) [] keys) as [acc|]; [|discriminate]. cbn [bind] in H.
  destruct (map snd cs) as [|o os]; [discriminate|]. injection H as _ <-.
  assert (G : forall m i c cs', boot_loop f d m i (Once []) None kw0 c = Ok cs' -> forall j kw o, nth_error cs' j = Some (kw, o) -> forall k l, od_get String.eqb kw k <> Some (Col l)).
  { induction m as [|m IH]; intros i c cs' E; cbn [boot_loop read option_map] in E; [apply Ok_inj in E; subst; intros [|]; discriminate|].
    unfold resample in E. cbn [map length Nat.eqb combine dsets_loop bind] in E.
    destruct (f i _) as [o'|]; [|discriminate]. cbn [bind] in E. destruct (boot_loop f d m (S i) (Once []) None kw0 c) as [rest|] eqn:Er; [|discriminate].
    cbn [bind] in E. apply Ok_inj in E. subst. intros [|j] kw o1 Hj; cbn [nth_error] in Hj; [|eapply IH; eassumption].
    injection Hj as <- <-. intros k l X. rewrite (od_get_update String.eqb String.eqb_spec) in X. cbn [od_get] in X.
    destruct (last_get String.eqb (map (fun '(k0, x) => (k0, Const x)) kw0) k) as [v|] eqn:El; [|discriminate]. injection X as ->.
    clear - El. induction kw0 as [|[k' x] kw0 IH]; cbn [map last_get] in El; [discriminate|].
    destruct (last_get String.eqb (map (fun '(k0, x) => (k0, Const x)) kw0) k) eqn:E; [auto|]. destruct (String.eqb k k'); discriminate. }
  intros j kw Hj Hn. destruct (Z.to_nat n) as [|m]; cbn [boot_loop read option_map] in Eb; [apply Ok_inj in Eb; subst; destruct j; discriminate|].
  destruct (resample d dsets None 0) as [[out c1]|]; [|discriminate]. cbn [bind] in Eb. destruct (f 0 _) as [o'|]; [|discriminate]. cbn [bind] in Eb.
  destruct (boot_loop f d m 1 (Once []) None kw0 c1) as [rest|] eqn:Er; [|discriminate]. cbn [bind] in Eb. apply Ok_inj in Eb. subst.
  destruct j as [|j]; [lia|]. cbn [map nth_error] in Hn. rewrite nth_error_map in Hn. destruct (nth_error rest j) as [[kw' o1]|] eqn:Ej; [|discriminate].
  injection Hn as <-. cbn [fst]. eapply G; eassumption.
Qed.
Print Assumptions C51_generator_refuted.
(** With maximal sizes given as a list, a generator of datasets fails at the second resample. *)
Theorem C51_generator_sizes_refuted V C (f : nat -> kwargs V C -> result (list (string * Q))) (dsets : list (dset V)) keys kw0 d keep n maxs :
  maxs <> [] -> (2 <= n)%Z -> (forall i kw, exists o, f i kw = Ok o) -> good_dsets dsets -> length maxs = length dsets -> Forall (fun m => (0 <= m)%Z) maxs ->
  resampled_call f (Once dsets) keys kw0 n d keep (Some (Again maxs)) = Err AssertionError.
Proof.
  intros Hne Hn Hf Hg Hl Hm. unfold resampled_call. destruct (Z.to_nat n) as [|[|m]] eqn:En; [lia|lia|].
  cbn [boot_loop read option_map fst snd]. destruct (resample_ok d dsets maxs 0 Hg Hl Hm) as (out & c' & E & _). rewrite E. cbn [bind].
  match goal with |- context [f 0 ?kw] => destruct (Hf 0 kw) as [o Eo]; rewrite Eo end. cbn [bind].
  unfold resample at 1. destruct maxs; [congruence|]. reflexivity.
Qed.
Print Assumptions C51_generator_sizes_refuted.
(** Columns of different lengths: rows are drawn for the first column; whether a shorter later column raises depends on luck. *)
Theorem C51_unequal_refuted : exists (ds : dset nat) (d1 d2 : draws),
  (exists out c, resample d1 [ds] None 0 = Ok (out, c)) /\ resample d2 [ds] None 0 = Err IndexError.
Proof. exists [("x", [7; 8]); ("y", [9])]%string, (fun _ _ => 0), (fun _ _ => 1). split; [do 2 eexists; vm_compute; reflexivity|vm_compute; reflexivity]. Qed.
Print Assumptions C51_unequal_refuted.
Example C51_nonvacuous :
  let ds : list (dset nat) := [[("x", [10; 20; 30]); ("y", [1; 2; 3])]; [("z", [5; 6])]]%string in
  good_dsets ds /\ resample (fun c j => c + 2 * j + 1) ds (Some [2; 5]%Z) 0 = Ok ([("x", [20; 10]); ("y", [2; 1]); ("z", [5; 5])]%string, 2) /\
  clean ["a"; "b"]%string.
Proof.
  split; [|split].
  - constructor; [split; [repeat constructor; cbn; intuition congruence|exists 3; intros k v [H|[H|[]]]; injection H as <- <-; reflexivity]|].
    constructor; [|constructor]. split; [repeat constructor; cbn; tauto|]. exists 2. intros k v [H|[]]; injection H as <- <-; reflexivity.
  - vm_compute. reflexivity.
  - intros k k' [<-|[<-|[]]] [<-|[<-|[]]]; split; discriminate.
Qed.

(** ** C68: random noise *)
Local Open Scope R_scope.
(** The rows of the result: one for a single repeat. *)
Definition noisy_rows (o : noisy) : list (list R) := match o with One l => [l] | Many rows => rows end.
(** One row per repeat, as long as the input; each value is the input plus noise, or times ten to the noise, with its own noise. *)
Theorem C68_values nz z x n : length (noisy_rows (add_to nz z x n)) = n /\
  (n = 1%nat <-> exists l, add_to nz z x n = One l) /\
  forall r j a, (r < n)%nat -> nth_error x j = Some a -> exists row, nth_error (noisy_rows (add_to nz z x n)) r = Some row /\ length row = length x /\
    nth_error row j = Some (if in_lg nz then a * Rpower 10 (z r j * sigma nz) else a + z r j * sigma nz).
Proof.
  assert (E : forall n, noisy_rows (add_to nz z x n) = map (fun r => map (fun '(j, a) => if in_lg nz then a * pow10 (z r j * sigma nz) else a + z r j * sigma nz)
      (combine (seq 0 (length x)) x)) (seq 0 n)).
  { intros k. unfold add_to. destruct (Nat.eqb_spec k 1) as [->|N]; reflexivity. }
  rewrite E. split; [rewrite map_length, seq_length; reflexivity|]. split.
  - unfold add_to. destruct (Nat.eqb_spec n 1) as [->|N]; [split; eauto|]. split; [congruence|]. intros [l H]. discriminate.
  - intros r j a Hr Ha. eexists. split.
    + rewrite nth_error_map. rewrite nth_error_nth' with (d := 0%nat) by (rewrite seq_length; assumption). rewrite seq_nth by assumption. reflexivity.
    + split; [rewrite map_length, combine_length, seq_length; apply Nat.min_id|]. rewrite nth_error_map.
      assert (Lj : (j < length x)%nat) by (apply nth_error_Some; congruence).
      assert (Hc : nth_error (combine (seq 0 (length x)) x) j = Some (j, a)).
      { assert (G : forall (l : list R) s i b, nth_error l i = Some b -> nth_error (combine (seq s (length l)) l) i = Some ((s + i)%nat, b)).
        { induction l as [|c l IH]; intros s [|i] b Hb; cbn [nth_error length seq combine] in *; try discriminate; [rewrite Nat.add_0_r; congruence|].
          rewrite (IH (S s) i b Hb). do 2 f_equal. lia. }
        apply (G x 0%nat j a Ha). }
      rewrite Hc. reflexivity.
Qed.
Print Assumptions C68_values.
(** No scatter, no change. *)
Theorem C68_zero_sigma lg z x n r : (r < n)%nat -> nth_error (noisy_rows (add_to {| sigma := 0; in_lg := lg |} z x n)) r = Some x.
Proof.
  intros Hr. destruct (C68_values {| sigma := 0; in_lg := lg |} z x n) as (L & _ & H).
  destruct (nth_error (noisy_rows (add_to {| sigma := 0; in_lg := lg |} z x n)) r) as [row|] eqn:E; [|apply nth_error_None in E; lia]. f_equal.
  assert (P : length row = length x).
  { destruct x as [|a x]; [|destruct (H r 0%nat a Hr eq_refl) as (row' & E' & L' & _); congruence].
    unfold add_to in E. destruct (Nat.eqb_spec n 1) as [->|N]; cbn [noisy_rows] in E.
    - destruct r; [|lia]. cbn in E. injection E as <-. reflexivity.
    - rewrite nth_error_map in E. destruct (nth_error (seq 0 n) r); [|discriminate]. cbn in E. injection E as <-. reflexivity. }
  apply nth_ext with (d := 0) (d' := 0); [assumption|]. intros i Hi. destruct (nth_error x i) as [a|] eqn:Ea; [|apply nth_error_None in Ea; lia].
  destruct (H r i a Hr Ea) as (row' & E' & _ & N). assert (row' = row) by congruence. subst. rewrite (nth_error_nth _ _ _ N), (nth_error_nth _ _ _ Ea).
  cbn [in_lg sigma]. rewrite Rmult_0_r. destruct lg; [|ring]. rewrite Rpower_O by lra. ring.
Qed.
Print Assumptions C68_zero_sigma.
(** Noise in the logarithm keeps the sign of every value, and zeros. *)
Theorem C68_lg_sign s z x n r row j a b : nth_error (noisy_rows (add_to {| sigma := s; in_lg := true |} z x n)) r = Some row ->
  nth_error x j = Some a -> nth_error row j = Some b -> (0 < a -> 0 < b) /\ (a = 0 -> b = 0) /\ (a < 0 -> b < 0).
Proof.
  intros Hr Ha Hb. destruct (C68_values {| sigma := s; in_lg := true |} z x n) as (L & _ & H).
  assert (Lr : (r < n)%nat) by (rewrite <- L; apply nth_error_Some; congruence). destruct (H r j a Lr Ha) as (row' & E & _ & N).
  assert (row' = row) by congruence. subst. rewrite N in Hb. injection Hb as <-. cbn [in_lg sigma].
  assert (P : 0 < Rpower 10 (z r j * s)) by apply exp_pos. split; [|split]; intros Hx.
  - apply Rmult_lt_0_compat; assumption.
  - subst. ring.
  - replace (a * Rpower 10 (z r j * s)) with (- ((- a) * Rpower 10 (z r j * s))) by ring. apply Ropp_lt_gt_0_contravar. apply Rmult_lt_0_compat; lra.
Qed.
Print Assumptions C68_lg_sign.
Theorem C68_distribution s dist lg : (dist = "normal"%string -> noise_init s dist lg = Ok {| sigma := s; in_lg := lg |}) /\
  (dist <> "normal"%string -> noise_init s dist lg = Err AssertionError).
Proof. unfold noise_init. destruct (String.eqb_spec dist "normal"); split; intros; congruence. Qed.
Print Assumptions C68_distribution.
Example C68_nonvacuous : exists v, add_to {| sigma := 2; in_lg := false |} (fun _ j => INR j) [1; 5] 1 = One [v; 7] /\ v = 1.
Proof. exists (1 + INR 0 * 2). split; [cbn; unfold add_to; cbn; do 2 f_equal; f_equal; lra|cbn; lra]. Qed.
