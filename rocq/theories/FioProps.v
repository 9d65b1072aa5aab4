(** Property theorems C79: density fields, interpolators and tidal classifications in HDF5 files. *)
From Coq Require Import QArith Sorted Permutation.
From Verif Require Import Base Str OrderSpec BinSpec MeshSpec ProcModel MeshModel MeshProofs MeshProofs2 MeshProofs3 MeshProofs4 MeshProps H5Model H5Spec H5Proofs H5Proofs3 H5gModel FioModel.
Local Open Scope list_scope. Local Open Scope nat_scope.

Lemma omap_floats d : floats (map EFlt d) = Some d.
Proof. unfold floats. induction d as [|x d IH]; [reflexivity|]. cbn [map omap_all]. rewrite IH. reflexivity. Qed.
Lemma omap_numbers d : numbers (map EFlt d) = Some d.
Proof. unfold numbers. induction d as [|x d IH]; [reflexivity|]. cbn [map omap_all]. rewrite IH. reflexivity. Qed.
Lemma field_new_cube m d : (0 <= n_grids m)%Z -> field_new (cube (n_grids m) d) m = Ok {| df_mesh := m; df_data := d |}.
Proof.
  intros H. unfold field_new, cube. cbn [shp dat repeat]. rewrite !Nat.eqb_refl, Z2Nat.id, Z.eqb_refl by assumption. cbn [andb].
  rewrite omap_floats. reflexivity.
Qed.

(** The members a dumped field has. *)
Definition field_tree (f : dfield) : list (string * ltree) :=
  [("data", LVal (cube (n_grids (df_mesh f)) (df_data f))); ("l_box", LVal (scalar_f (l_box (df_mesh f)))); ("n_grids", LVal (scalar_i (n_grids (df_mesh f))))]%string.
Definition field_names : list string := ["data"; "l_box"; "n_grids"]%string.

Lemma field_dumpable f : dumpable (field_data f).
Proof.
  constructor.
  - cbn. repeat constructor; cbn; intuition discriminate.
  - cbn. intros k v H. repeat (destruct H as [H|H]; [inversion H; subst; eexists; split; [reflexivity|]; repeat split; (discriminate || reflexivity)|]). destruct H.
  - cbn. intros k v H. repeat (destruct H as [H|H]; [inversion H; subst; left; eexists _, _; split; reflexivity|]). destruct H.
Qed.
Lemma as_data_field f : as_data (LMap (field_tree f)) = field_data f.
Proof. reflexivity. Qed.
Lemma loads_as_val d t : loads_as (DLeaf (LArr d)) t -> t = LVal d.
Proof. intros H. inversion H as [l d' E|]; subst. inversion E; subst. reflexivity. Qed.

Lemma field_dump_ok flag h g ls f : valid_flag flag = true -> file_ok h -> links_of h g = Some ls ->
  (forall s, In s field_names -> od_get String.eqb ls s = None) ->
  exists h', field_dump h g f flag = (Ok tt, h') /\ file_ok h' /\ (forall j, j < length h -> j <> g -> nth_error h' j = nth_error h j) /\
    ds_get h' g "data" = Ok (cube (n_grids (df_mesh f)) (df_data f)) /\ ds_get h' g "l_box" = Ok (scalar_f (l_box (df_mesh f))) /\
    ds_get h' g "n_grids" = Ok (scalar_i (n_grids (df_mesh f))) /\
    (ls = [] -> forall fuel, 1 <= fuel -> load fuel h' g = Ok (LMap (field_tree f))).
Proof.
  intros Hf Hok Hl Hn. unfold field_dump.
  destruct (dump_roundtrip flag _ h g ls Hf Hok (field_dumpable f) Hl) as (h' & E & Hok' & Hoth & _ & Hm & Hr).
  { intros s Hs. apply Hn. cbn in Hs. repeat destruct Hs as [Hs|Hs]; try (inversion Hs; subst; cbn; tauto). }
  exists h'. split; [exact E|]. split; [assumption|]. split; [assumption|].
  assert (G : forall s d, In (KStr s, DLeaf (LArr d)) (match field_data f with DMap its => its | _ => [] end) -> ds_get h' g s = Ok d).
  { intros s d Hin. destruct (Hm _ _ Hin) as (s' & i & t & Es & Hg & Hla & Hrd). inversion Es; subst s'. apply loads_as_val in Hla. subst t. cbn [reads] in Hrd.
    unfold raw_get in Hg. destruct (raw_find h' g s) eqn:F; [|discriminate]. inversion Hg; subst. unfold ds_get. rewrite F, Hrd. reflexivity. }
  split; [apply G; left; reflexivity|]. split; [apply G; right; left; reflexivity|]. split; [apply G; right; right; left; reflexivity|].
  intros ->. destruct (Hr eq_refl) as (its & Hla & Hfu). intros fuel Hle.
  assert (its = field_tree f).
  { inversion Hla as [|? items' its' Hperm Hs Hf2]; subst. clear - Hperm Hs Hf2.
    pose proof (Forall2_len _ _ _ Hf2) as L. pose proof (Permutation_length Hperm) as L2. cbn in L2. rewrite <- L2 in L.
    assert (Ak : forall k t, In (k, t) its -> In (k, t) (field_tree f)).
    { intros k t Hin. destruct (In_nth_error _ _ Hin) as [n Hn]. clear - Hn Hf2 Hperm.
      revert n Hn. assert (Hsub : forall x, In x items' -> In x (match field_data f with DMap its => its | _ => [] end)) by (intros x Hx; eapply Permutation_in; [apply Permutation_sym; exact Hperm|exact Hx]).
      clear Hperm. revert Hsub. induction Hf2 as [|[k0 v0] [k1 t1] l l' [Ek Hv] F IH]; intros Hsub n Hn; [destruct n; discriminate|].
      destruct n; cbn in Hn.
      - inversion Hn; subst. cbn in Ek, Hv. subst k0. specialize (Hsub _ (or_introl eq_refl)). cbn in Hsub.
        repeat destruct Hsub as [Hsub|Hsub]; try (inversion Hsub; subst; apply loads_as_val in Hv; subst; cbn; tauto).
      - eapply IH; [intros x Hx; apply Hsub; right; exact Hx|exact Hn]. }
    assert (Hsort2 : StronglySorted name_lt (map fst (field_tree f))) by (cbn; repeat constructor).
    clear Hf2 Hperm L2. destruct its as [|a [|b [|c [|]]]]; try discriminate L.
    destruct a as [ka ta], b as [kb tb], c as [kc tc]. cbn in Hs.
    pose proof (Ak ka ta (or_introl eq_refl)) as A1. pose proof (Ak kb tb (or_intror (or_introl eq_refl))) as A2.
    pose proof (Ak kc tc (or_intror (or_intror (or_introl eq_refl)))) as A3.
    apply StronglySorted_inv in Hs. destruct Hs as [Hs F1]. apply StronglySorted_inv in Hs. destruct Hs as [Hs F2].
    inversion F1 as [|? ? P12 F1']; subst. inversion F1' as [|? ? P13 _]; subst. inversion F2 as [|? ? P23 _]; subst.
    cbn in A1, A2, A3.
    destruct A1 as [A1|[A1|[A1|[]]]]; inversion A1; subst; clear A1;
    destruct A2 as [A2|[A2|[A2|[]]]]; inversion A2; subst; clear A2; try (vm_compute in P12; discriminate P12);
    destruct A3 as [A3|[A3|[A3|[]]]]; inversion A3; subst; clear A3; try (vm_compute in P23; discriminate P23); try (vm_compute in P13; discriminate P13); reflexivity. }
  subst its. apply Hfu. cbn. exact Hle.
Qed.

(** Dumping a field and loading it again gives the same field; other objects of the file are untouched. *)
Theorem C79_dump_load : forall flag h g ls f, valid_flag flag = true -> file_ok h -> links_of h g = Some ls ->
  (forall s, In s ["data"; "l_box"; "n_grids"]%string -> od_get String.eqb ls s = None) -> (0 < n_grids (df_mesh f))%Z ->
  exists h', field_dump h g f flag = (Ok tt, h') /\ field_load h' g = Ok f /\ file_ok h' /\
    (forall j, j < length h -> j <> g -> nth_error h' j = nth_error h j).
Proof.
  intros flag h g ls f Hf Hok Hl Hn Hpos. destruct (field_dump_ok flag h g ls f Hf Hok Hl Hn) as (h' & E & Hok' & Hoth & G1 & G2 & G3 & _).
  exists h'. split; [exact E|]. split; [|split; assumption]. unfold field_load. rewrite G1, G2, G3. cbn [bind scalar_i scalar_f as_int as_float dat shp].
  unfold mesh_new. destruct (Z.eqb_spec (n_grids (df_mesh f)) 0) as [E0|_]; [lia|]. cbn [bind].
  destruct f as [[n l] d]. cbn [df_mesh n_grids l_box df_data] in *. exact (field_new_cube {| n_grids := n; l_box := l |} d (Z.lt_le_incl _ _ Hpos)).
Qed.
Print Assumptions C79_dump_load.

(** A group into which, when it was empty, [f] was dumped. *)
Definition dumped_in (hg : file * nat) (f : dfield) : Prop :=
  exists h0 flag, file_ok h0 /\ links_of h0 (snd hg) = Some [] /\ valid_flag flag = true /\ field_dump h0 (snd hg) f flag = (Ok tt, fst hg).
Lemma dumped_facts hg f : dumped_in hg f -> ds_get (fst hg) (snd hg) "data" = Ok (cube (n_grids (df_mesh f)) (df_data f)) /\
  forall fuel, 1 <= fuel -> load fuel (fst hg) (snd hg) = Ok (LMap (field_tree f)).
Proof.
  destruct hg as [h g]. cbn [fst snd]. intros (h0 & flag & Hok & Hl & Hf & E). cbn [fst snd] in *.
  destruct (field_dump_ok flag h0 g [] f Hf Hok Hl (fun _ _ => eq_refl)) as (h' & E' & _ & _ & G & _ & _ & L). rewrite E in E'. inversion E'; subst h'.
  split; [assumption|apply L; reflexivity].
Qed.
Lemma zip_add_length a b : length a = length b -> length (zip_add a b) = length a.
Proof. intros H. unfold zip_add. rewrite map_length, combine_length, H. apply Nat.min_id. Qed.
Lemma add_into_cubes n a b : length a = prod (repeat (Z.to_nat n) 3) -> length b = prod (repeat (Z.to_nat n) 3) ->
  add_into (cube n a) (cube n b) = Ok (cube n (zip_add a b)).
Proof.
  intros La Lb. unfold add_into, cube. cbn [dt shp dat]. rewrite Nat.ltb_irrefl. unfold bcast. rewrite align_same.
  rewrite (bc_same (repeat (Z.to_nat n) 3) (map EFlt b)) by (rewrite map_length; exact Lb). rewrite !omap_floats. reflexivity.
Qed.
Definition cubic (n : Z) (f : dfield) : Prop := n_grids (df_mesh f) = n /\ length (df_data f) = Z.to_nat (n * n * n).
Lemma cube_size n : (0 <= n)%Z -> Z.to_nat (n * n * n) = prod (repeat (Z.to_nat n) 3).
Proof. intros H. cbn [repeat prod fold_right]. rewrite !Z2Nat.inj_mul by lia. lia. Qed.
Lemma join_more_fields n m : n_grids m = n -> (0 <= n)%Z -> forall ins fs, Forall2 dumped_in ins fs -> Forall (cubic n) fs -> forall a, length a = Z.to_nat (n * n * n) ->
  exists d, join_rest a fs = Ok d /\ length d = length a /\
    join_more (field_tree {| df_mesh := m; df_data := a |}) ins = Ok (field_tree {| df_mesh := m; df_data := d |}).
Proof.
  intros Hm Hn0 ins fs F. induction F as [|[h g] f ins fs Hd F IH]; intros Hc a La.
  - exists a. auto.
  - inversion Hc as [|? ? [Hn L] Hc']; subst. destruct (dumped_facts _ _ Hd) as [G _]. cbn [fst snd] in G.
    assert (La' : length a = length (df_data f)) by congruence.
    destruct (IH Hc' (zip_add a (df_data f))) as (d & J & Ld & M); [rewrite zip_add_length; assumption|].
    exists d. split; [|split].
    + cbn [join_rest]. rewrite La', Nat.eqb_refl. exact J.
    + rewrite Ld. apply zip_add_length. assumption.
    + unfold field_tree at 1. cbn [join_more od_get String.eqb Ascii.eqb Bool.eqb df_mesh df_data]. rewrite G. cbn [bind].
      rewrite Hn, add_into_cubes by (rewrite <- cube_size by assumption; congruence). cbn [bind]. exact M.
Qed.
(** Joining dumps: the groups (of any files) into which fields of the same n were dumped are added cell by cell; the result has the mesh of the
    first and can be loaded from the output group. *)
Theorem C79_join : forall fuel flag h g ls ins fs n, valid_flag flag = true -> file_ok h -> links_of h g = Some ls ->
  (forall s, In s ["data"; "l_box"; "n_grids"]%string -> od_get String.eqb ls s = None) -> (0 < n)%Z -> Forall2 dumped_in ins fs -> fs <> [] -> Forall (cubic n) fs ->
  1 <= fuel ->
  exists h' out, join_groups fuel ins h g flag = (Ok tt, h') /\ join_dumps fs = Ok out /\ field_load h' g = Ok out /\
    (forall j, j < length h -> j <> g -> nth_error h' j = nth_error h j).
Proof.
  intros fuel flag h g ls ins fs n Hf Hok Hl Hn Hpos F NE Hc Hfu. destruct F as [|[h0 g0] f ins fs Hd F]; [congruence|].
  inversion Hc as [|? ? [Hn0 L] Hc']; subst. destruct (dumped_facts _ _ Hd) as [_ Ld]. cbn [fst snd] in Ld.
  destruct (join_more_fields _ (df_mesh f) eq_refl (Z.lt_le_incl _ _ Hpos) ins fs F Hc' (df_data f) L) as (d & J & _ & M).
  destruct (C79_dump_load flag h g ls {| df_mesh := df_mesh f; df_data := d |} Hf Hok Hl Hn Hpos) as (h' & E & FL & _ & Hoth).
  exists h', {| df_mesh := df_mesh f; df_data := d |}. split; [|split; [|split; assumption]].
  - unfold join_groups. rewrite (Ld _ Hfu). cbn [bind]. destruct f as [m a]. cbn [df_mesh df_data] in *. rewrite M. rewrite as_data_field. exact E.
  - unfold join_dumps. rewrite J. reflexivity.
Qed.
Print Assumptions C79_join.

(** Sizes are only compared by numpy: a larger or smaller grid is a ValueError before anything is written.  Finding: a one-cell field is silently added to
    every cell; and box sizes are never compared (C79_join: the first mesh is kept). *)
Lemma concat_repeat_repeat {A} (x : A) m n : List.concat (repeat (repeat x m) n) = repeat x (n * m).
Proof. induction n as [|n IH]; [reflexivity|]. cbn [repeat List.concat Nat.mul]. rewrite IH, repeat_app. reflexivity. Qed.
Lemma bc_ones x n : n <> 1 -> forall k, bc (repeat 1 k) (repeat n k) [x] = Some (repeat x (prod (repeat n k))).
Proof.
  intros N. induction k as [|k IH]; [reflexivity|]. cbn [repeat bc]. destruct (Nat.eqb_spec 1 n) as [E|_]; [congruence|]. cbn [Nat.eqb]. rewrite IH.
  cbn [option_map prod fold_right]. rewrite concat_repeat_repeat. reflexivity.
Qed.
Lemma zip_add_repeat a v : zip_add a (repeat v (length a)) = map (fun x => (x + v)%Q) a.
Proof. unfold zip_add. induction a as [|x a IH]; [reflexivity|]. cbn [length repeat combine map fst snd]. rewrite IH. reflexivity. Qed.
Theorem C79_join_sizes : forall fuel flag h g ls hg0 hg1 f0 f1, valid_flag flag = true -> file_ok h -> links_of h g = Some ls ->
  (forall s, In s ["data"; "l_box"; "n_grids"]%string -> od_get String.eqb ls s = None) -> dumped_in hg0 f0 -> dumped_in hg1 f1 -> 1 <= fuel ->
  let n := n_grids (df_mesh f0) in let n1 := n_grids (df_mesh f1) in (0 < n)%Z -> (0 < n1)%Z -> cubic n f0 -> cubic n1 f1 -> n1 <> n ->
  (n1 <> 1%Z -> join_groups fuel [hg0; hg1] h g flag = (Err ValueError, h)) /\
  (n1 = 1%Z -> exists h' v, df_data f1 = [v] /\ join_groups fuel [hg0; hg1] h g flag = (Ok tt, h') /\
     field_load h' g = Ok {| df_mesh := df_mesh f0; df_data := map (fun x => (x + v)%Q) (df_data f0) |}).
Proof.
  intros fuel flag h g ls [h0 g0] [h1 g1] f0 f1 Hf Hok Hl Hn D0 D1 Hfu n n1 Hp Hp1 [_ L0] [_ L1] Hne.
  destruct (dumped_facts _ _ D0) as [_ Ld]. destruct (dumped_facts _ _ D1) as [G _]. cbn [fst snd] in *. specialize (Ld _ Hfu).
  assert (Hneq : Z.to_nat n <> Z.to_nat n1) by lia.
  assert (J : join_groups fuel [(h0, g0); (h1, g1)] h g flag = match bind (add_into (cube n (df_data f0)) (cube n1 (df_data f1))) (fun s => Ok (od_set String.eqb (field_tree f0) "data" (LVal s)))
     with Err e => (Err e, h) | Ok its => dump h g (as_data (LMap its)) flag end).
  { unfold join_groups. rewrite Ld. cbn [bind]. unfold field_tree at 1. cbn [join_more od_get String.eqb Ascii.eqb Bool.eqb]. rewrite G. cbn [bind]. reflexivity. }
  split.
  - intros N1. rewrite J. unfold add_into, cube. cbn [dt shp dat]. rewrite !repeat_length, Nat.ltb_irrefl. unfold bcast, align. rewrite !repeat_length, Nat.sub_diag.
    cbn [repeat app drop_ones]. rewrite (H5Proofs2.bc_bad [Z.to_nat n1; Z.to_nat n1; Z.to_nat n1]); [reflexivity| | |].
    + rewrite map_length, L1. apply (cube_size n1). lia.
    + cbn. nia.
    + intros B. inversion B as [|? ? ? ? [E|E] _]; subst; lia.
  - intros N1. rewrite N1 in L1. assert (EV : exists v, df_data f1 = [v]) by (destruct (df_data f1) as [|v [|]]; try discriminate L1; eauto).
    destruct EV as [v EV]. assert (A : add_into (cube n (df_data f0)) (cube n1 (df_data f1)) = Ok (cube n (map (fun x => (x + v)%Q) (df_data f0)))).
    { unfold add_into, cube. cbn [dt shp dat]. rewrite !repeat_length, Nat.ltb_irrefl. unfold bcast, align. rewrite !repeat_length, Nat.sub_diag.
      cbn [repeat app drop_ones]. rewrite N1, EV. change (Z.to_nat 1) with 1. cbn [map]. pose proof (bc_ones (EFlt v) (Z.to_nat n) ltac:(lia) 3) as B. cbn [repeat] in B. rewrite B.
      rewrite omap_floats. assert (F : floats (repeat (EFlt v) (prod [Z.to_nat n; Z.to_nat n; Z.to_nat n])) = Some (repeat v (length (df_data f0)))).
      { rewrite <- (omap_floats (repeat v (length (df_data f0)))). f_equal. rewrite L0, cube_size by lia. cbn [repeat]. generalize (prod [Z.to_nat n; Z.to_nat n; Z.to_nat n]).
        intros m. induction m as [|m IH]; [reflexivity|]. cbn [repeat map]. rewrite IH. reflexivity. }
      rewrite F, zip_add_repeat. reflexivity. }
    destruct (C79_dump_load flag h g ls {| df_mesh := df_mesh f0; df_data := map (fun x => (x + v)%Q) (df_data f0) |} Hf Hok Hl Hn Hp) as (h' & E & FL & _).
    exists h', v. split; [assumption|]. split; [|exact FL]. rewrite J, A. cbn [bind]. exact E.
Qed.
Print Assumptions C79_join_sizes.
(** Joining nothing is an UnboundLocalError; a first group without data, or whose data is a group, is refused as soon as there is a second one.  Nothing is written. *)
Theorem C79_join_refused : forall fuel h g flag,
  join_groups fuel [] h g flag = (Err UnboundLocalError, h) /\
  (forall h0 g0 rest e, load fuel h0 g0 = Err e -> join_groups fuel ((h0, g0) :: rest) h g flag = (Err e, h)) /\
  (forall h0 g0 its hg1 rest, load fuel h0 g0 = Ok (LMap its) ->
     (od_get String.eqb its "data"%string = None -> join_groups fuel ((h0, g0) :: hg1 :: rest) h g flag = (Err KeyError, h)) /\
     (forall sub, od_get String.eqb its "data"%string = Some (LMap sub) -> join_groups fuel ((h0, g0) :: hg1 :: rest) h g flag = (Err TypeError, h)) /\
     (forall a e, od_get String.eqb its "data"%string = Some (LVal a) -> ds_get (fst hg1) (snd hg1) "data" = Err e -> join_groups fuel ((h0, g0) :: hg1 :: rest) h g flag = (Err e, h)) /\
     (forall a b, od_get String.eqb its "data"%string = Some (LVal a) -> ds_get (fst hg1) (snd hg1) "data" = Ok b -> dt a <> TFlt \/ dt b <> TFlt ->
        join_groups fuel ((h0, g0) :: hg1 :: rest) h g flag = (Err TypeError, h))).
Proof.
  intros fuel h g flag. split; [reflexivity|]. split; [intros h0 g0 rest e E; unfold join_groups; rewrite E; reflexivity|].
  intros h0 g0 its [h1 g1] rest L. unfold join_groups. rewrite L. cbn [bind join_more fst snd]. split; [intros ->; reflexivity|]. split; [intros sub ->; reflexivity|]. split.
  - intros a e -> ->. reflexivity.
  - intros a b -> -> D. cbn [bind]. unfold add_into. destruct (dt a), (dt b); try reflexivity. destruct D as [D|D]; congruence.
Qed.
Print Assumptions C79_join_refused.

(** The whole pipeline: particles in any number of portions, each deposited by its own process and dumped into an empty group; joined; loaded; interpolated.
    The values are those of one field of all the particles. *)
Lemma value_at_Qeql m d d' x : Qeql d d' -> (value_at m d x == value_at m d' x)%Q.
Proof.
  intros H. unfold value_at. assert (N : forall i, (nth i d 0 == nth i d' 0)%Q).
  { clear x. induction H as [|a b d d' E H IH]; intros i; [reflexivity|]. destruct i; [exact E|apply IH]. }
  induction (corners m x) as [|c l IH]; [reflexivity|]. cbn [map]. unfold Qsum in *. cbn [fold_right]. rewrite IH, (N (Z.to_nat (fst c))). reflexivity.
Qed.
Theorem C79_pipeline : forall fuel flag h g ls ins parts fs l n, valid_flag flag = true -> file_ok h -> links_of h g = Some ls ->
  (forall s, In s ["data"; "l_box"; "n_grids"]%string -> od_get String.eqb ls s = None) -> (0 < n)%Z -> (0 < l)%Q -> parts <> [] ->
  mapM (fun p => df_add (df_new l n) (fst p) (snd p)) parts = Ok fs -> Forall2 dumped_in ins fs -> 1 <= fuel ->
  let all := flat_map (fun p => particles (fst p) (snd p)) parts in
  exists h' out whole, join_groups fuel ins h g flag = (Ok tt, h') /\ field_load h' g = Ok out /\
    df_add (df_new l n) (map fst all) (Some (map snd all)) = Ok whole /\ df_mesh out = df_mesh whole /\
    forall xs, Qeql (values_at out xs) (values_at whole xs).
Proof.
  intros fuel flag h g ls ins parts fs l n Hf Hok Hl Hn Hp Hlp NE M F Hfu all.
  assert (Hadd : forall p f, df_add (df_new l n) (fst p) (snd p) = Ok f -> cubic n f).
  { intros p f E. destruct (C42_new l n Hp Hlp) as [W _]. pose proof (C42_total (df_new l n) (fst p) (snd p) W) as T. rewrite E in T.
    destruct T as ((_ & _ & L) & Em & _). rewrite Em in L. split; [rewrite Em; reflexivity|exact L]. }
  assert (Hc : Forall (cubic n) fs).
  { apply mapM_Ok in M. clear - M Hadd. induction M as [|p f ps fs E M IH]; constructor; [exact (Hadd p f E)|exact IH]. }
  assert (NE' : fs <> []) by (apply mapM_Ok in M; destruct M; congruence).
  destruct (C79_join fuel flag h g ls ins fs n Hf Hok Hl Hn Hp F NE' Hc Hfu) as (h' & out & J & JD & FL & _).
  destruct (C45_join l n parts fs Hp Hlp NE M) as (out' & whole & JD' & Em & EW & Q). rewrite JD in JD'. assert (E : out' = out) by congruence. subst out'.
  exists h', out, whole. split; [exact J|]. split; [exact FL|]. split; [exact EW|].
  assert (Ew : df_mesh whole = df_mesh (df_new l n)).
  { pose proof (df_add_spec (df_new l n) (map fst all) (Some (map snd all))) as S. unfold all in S. rewrite EW in S. apply S. }
  split; [rewrite Em, Ew; reflexivity|]. intros xs. unfold values_at. rewrite Em, Ew. cbn [df_new df_mesh].
  induction xs as [|x xs IH]; constructor; [apply value_at_Qeql; exact Q|exact IH].
Qed.
Print Assumptions C79_pipeline.

(** What is refused when a field is loaded: a missing dataset (KeyError), an array that is not a cube of the stored number of grids (AssertionError). *)
Theorem C79_load_errors : forall h g, 
  (forall s, In s ["data"; "l_box"; "n_grids"]%string -> (forall s', In s' ["data"; "l_box"; "n_grids"]%string -> s' <> s -> ds_contains h g s' = true) ->
     ds_contains h g s = false -> field_load h g = Err KeyError) /\
  (forall d l n, ds_get h g "data" = Ok d -> ds_get h g "l_box" = Ok (scalar_f l) -> ds_get h g "n_grids" = Ok (scalar_i n) -> (0 < n)%Z -> dt d = TFlt -> dset_ok d ->
     (shp d = [Z.to_nat n; Z.to_nat n; Z.to_nat n] -> exists x, dat d = map EFlt x /\ field_load h g = Ok {| df_mesh := {| n_grids := n; l_box := l |}; df_data := x |}) /\
     (shp d <> [Z.to_nat n; Z.to_nat n; Z.to_nat n] -> field_load h g = Err AssertionError)).
Proof.
  intros h g. split.
  - assert (Y : forall s, ds_contains h g s = true -> exists d, ds_get h g s = Ok d).
    { intros s. unfold ds_contains, ds_get, is_dset. destruct (raw_find h g s) as [i|]; [|discriminate]. destruct (dset_of h i); [eauto|discriminate]. }
    assert (N : forall s, ds_contains h g s = false -> ds_get h g s = Err KeyError).
    { intros s. unfold ds_contains, ds_get, is_dset. destruct (raw_find h g s) as [i|]; [|reflexivity]. destruct (dset_of h i); [discriminate|reflexivity]. }
    intros s Hs Hoth Hno. apply N in Hno. unfold field_load. destruct Hs as [<-|[<-|[<-|[]]]].
    + rewrite Hno. reflexivity.
    + destruct (Y "data"%string) as [d ->]; [apply Hoth; [cbn; tauto|discriminate]|]. cbn [bind]. rewrite Hno. reflexivity.
    + destruct (Y "data"%string) as [d ->]; [apply Hoth; [cbn; tauto|discriminate]|]. destruct (Y "l_box"%string) as [d2 ->]; [apply Hoth; [cbn; tauto|discriminate]|]. cbn [bind]. rewrite Hno. reflexivity.
  - intros d l n Hd Hl Hn Hp Ht [Hlen Hok]. unfold field_load. rewrite Hd, Hl, Hn. cbn [bind scalar_i scalar_f as_int as_float dat shp]. unfold mesh_new.
    destruct (Z.eqb_spec n 0) as [E0|_]; [lia|]. cbn [bind].
    assert (X : exists x, dat d = map EFlt x).
    { rewrite Ht in Hok. clear - Hok. induction Hok as [|e l He Hl IH]; [exists []; reflexivity|]. destruct IH as [x ->]. destruct e; cbn in He; try contradiction. exists (q :: x). reflexivity. }
    destruct X as [x Ex]. split; intros Hs; unfold field_new.
    + exists x. split; [exact Ex|]. rewrite Hs, Ex, omap_floats. cbn [n_grids]. rewrite !Nat.eqb_refl, Z2Nat.id, Z.eqb_refl by lia. reflexivity.
    + destruct (shp d) as [|a [|b [|c [|]]]]; try reflexivity. cbn [n_grids]. destruct (Nat.eqb_spec a b) as [->|]; [|reflexivity]. destruct (Nat.eqb_spec b c) as [->|]; [|reflexivity].
      destruct (Z.eqb_spec n (Z.of_nat c)) as [->|]; [|reflexivity]. exfalso. apply Hs. rewrite Nat2Z.id. reflexivity.
Qed.
Print Assumptions C79_load_errors.
(** The stored scalars must be a whole number and a number; a mesh of no grids is refused. *)
Theorem C79_load_scalars : forall h g d l n, ds_get h g "data" = Ok d -> ds_get h g "l_box" = Ok l -> ds_get h g "n_grids" = Ok n ->
  ((forall z, n <> {| dt := dt n; shp := []; dat := [EInt z] |}) -> field_load h g = Err TypeError) /\
  (forall z, n = {| dt := dt n; shp := []; dat := [EInt z] |} ->
     ((forall q, l <> {| dt := dt l; shp := []; dat := [EFlt q] |}) -> (forall q, l <> {| dt := dt l; shp := []; dat := [EInt q] |}) -> field_load h g = Err TypeError) /\
     (forall q, l = {| dt := dt l; shp := []; dat := [EInt q] |} -> z = 0%Z -> field_load h g = Err ZeroDivisionError) /\
     (forall q, l = {| dt := dt l; shp := []; dat := [EFlt q] |} -> z = 0%Z -> field_load h g = Err ZeroDivisionError) /\
     (forall q, l = {| dt := dt l; shp := []; dat := [EInt q] |} -> z <> 0%Z -> field_load h g = field_new d {| n_grids := z; l_box := inject_Z q |})).
Proof.
  intros h g d l n Hd Hl Hn. unfold field_load. rewrite Hd, Hl, Hn. cbn [bind]. split.
  - intros N. destruct n as [t s v]. cbn [dt] in N. unfold as_int. cbn [dat shp]. destruct v as [|[z|q|w] [|? ?]]; try reflexivity. destruct s; [|reflexivity]. exfalso. apply (N z). reflexivity.
  - intros z ->. cbn [as_int dat shp bind]. split; [|split; [|split]].
    + intros N M. destruct l as [t s v]. cbn [dt] in N, M. unfold as_float. cbn [dat shp]. destruct v as [|[y|q|w] [|? ?]]; try reflexivity; (destruct s; [|reflexivity]); exfalso; [apply (M y)|apply (N q)]; reflexivity.
    + intros q -> ->. reflexivity.
    + intros q -> ->. reflexivity.
    + intros q -> Hz. cbn [as_float dat shp bind]. unfold mesh_new. destruct (Z.eqb_spec z 0); [contradiction|]. reflexivity.
Qed.
Print Assumptions C79_load_scalars.
(** An array that is a cube of the right size but not of floats is a TypeError. *)
Theorem C79_load_not_float : forall d m, shp d = [Z.to_nat (n_grids m); Z.to_nat (n_grids m); Z.to_nat (n_grids m)] -> (0 <= n_grids m)%Z ->
  (exists e, In e (dat d) /\ forall q, e <> EFlt q) -> field_new d m = Err TypeError.
Proof.
  intros d m Hs Hp (e & He & N). unfold field_new. rewrite Hs, !Nat.eqb_refl, Z2Nat.id, Z.eqb_refl by exact Hp. cbn [andb].
  assert (F : floats (dat d) = None); [|rewrite F; reflexivity]. unfold floats. induction (dat d) as [|x l IH]; [destruct He|]. cbn [omap_all].
  destruct He as [->|He]; [destruct e as [z|q|s]; try reflexivity; exfalso; apply (N q); reflexivity|]. rewrite (IH He). destruct x; reflexivity.
Qed.
Print Assumptions C79_load_not_float.
(** A new field of zeros has the mesh, one value per cell, and every value is zero. *)
Theorem C79_zeros : forall m, (0 <= n_grids m)%Z -> exists f, field_zeros m = Ok f /\ df_mesh f = m /\
  Z.of_nat (length (df_data f)) = (n_grids m * n_grids m * n_grids m)%Z /\ forall v, In v (df_data f) -> v = 0%Q.
Proof.
  intros m H. unfold field_zeros. rewrite field_new_cube by exact H. eexists. split; [reflexivity|]. cbn [df_mesh df_data]. split; [reflexivity|]. split.
  - rewrite repeat_length, Z2Nat.id; nia.
  - intros v Hv. exact (repeat_spec _ _ _ Hv).
Qed.
Print Assumptions C79_zeros.
(** What a dumped field looks like to another reader: a float array of shape (n, n, n), a float scalar, a 64-bit integer scalar. *)
Theorem C79_layout : forall flag h g ls f, valid_flag flag = true -> file_ok h -> links_of h g = Some ls ->
  (forall s, In s ["data"; "l_box"; "n_grids"]%string -> od_get String.eqb ls s = None) ->
  let n := n_grids (df_mesh f) in
  exists h', field_dump h g f flag = (Ok tt, h') /\
    ds_get h' g "data" = Ok {| dt := TFlt; shp := [Z.to_nat n; Z.to_nat n; Z.to_nat n]; dat := map EFlt (df_data f) |} /\
    ds_get h' g "l_box" = Ok {| dt := TFlt; shp := []; dat := [EFlt (l_box (df_mesh f))] |} /\
    ds_get h' g "n_grids" = Ok {| dt := TInt true 64; shp := []; dat := [EInt n] |}.
Proof.
  intros flag h g ls f Hf Hok Hl Hn n. destruct (field_dump_ok flag h g ls f Hf Hok Hl Hn) as (h' & E & _ & _ & G1 & G2 & G3 & _).
  exists h'. split; [exact E|]. split; [exact G1|]. split; [exact G2|exact G3].
Qed.
Print Assumptions C79_layout.

(** The interpolator of a stored overdensity: one plus the interpolated overdensity, at every point. *)
Theorem C79_interpolator : forall h g key n l d x, ds_get h g key = Ok (cube n d) -> ds_get h g "l_box" = Ok (scalar_f l) -> ds_get h g "n_grids" = Ok (scalar_i n) ->
  (0 < n)%Z -> length d = Z.to_nat (n * n * n) ->
  exists f, interp_from_group h g key = Ok f /\ df_mesh f = {| n_grids := n; l_box := l |} /\
    (value_at (df_mesh f) (df_data f) x == 1 + value_at {| n_grids := n; l_box := l |} d x)%Q.
Proof.
  intros h g key n l d x Hd Hl Hn Hp L. exists {| df_mesh := {| n_grids := n; l_box := l |}; df_data := map (fun q => (q + 1)%Q) d |}. split; [|split; [reflexivity|]].
  - unfold interp_from_group. rewrite Hd, Hl, Hn. cbn [bind]. unfold cube at 1 2. cbn [dat shp]. rewrite omap_numbers. cbn [bind scalar_i scalar_f as_int as_float dat shp].
    unfold mesh_new. destruct (Z.eqb_spec n 0) as [E0|_]; [lia|]. cbn [bind].
    exact (field_new_cube {| n_grids := n; l_box := l |} (map (fun q => (q + 1)%Q) d) (Z.lt_le_incl _ _ Hp)).
  - cbn [df_mesh df_data]. set (m := {| n_grids := n; l_box := l |}).
    assert (One : (value_at m (map (fun _ : Q => 1%Q) d) x == 1)%Q).
    { apply C43_constant; [exact Hp|rewrite map_length; exact L|]. intros v Hv. apply in_map_iff in Hv. destruct Hv as (? & <- & _). reflexivity. }
    rewrite <- One. unfold value_at. clear One Hd. unfold Qsum.
    induction (corners m x) as [|c cs IH]; [reflexivity|]. cbn [map fold_right]. rewrite IH.
    assert (E : (nth (Z.to_nat (fst c)) (map (fun q => q + 1) d) 0 == nth (Z.to_nat (fst c)) (map (fun _ => 1) d) 0 + nth (Z.to_nat (fst c)) d 0)%Q).
    { clear. generalize (Z.to_nat (fst c)). induction d as [|y d IH]; intros [|i]; cbn [map nth]; try reflexivity; [apply Qplus_comm|apply IH]. }
    rewrite E. ring.
Qed.
Print Assumptions C79_interpolator.

(** The classifier from a group is the classifier of the stored (n, n, n, 3) array: cell (i, j, k) has the three values at positions 3 ((i n + j) n + k) + 0, 1, 2. *)
Lemma triples_nth k : forall l, length l = 3 * k -> length (triples l) = k /\
  forall i, i < k -> nth_error (triples l) i = Some (Fin (nth (3 * i) l 0%Q), Fin (nth (3 * i + 1) l 0%Q), Fin (nth (3 * i + 2) l 0%Q)).
Proof.
  induction k as [|k IH]; intros l L.
  - destruct l; [|discriminate]. split; [reflexivity|intros i Hi; lia].
  - destruct l as [|a [|b [|c l]]]; cbn [length] in L; try lia. destruct (IH l ltac:(lia)) as [L1 N1]. split; [cbn [triples length]; lia|].
    intros [|i] Hi; [reflexivity|]. cbn [triples nth_error]. rewrite N1 by lia. replace (3 * S i) with (S (S (S (3 * i)))) by lia. reflexivity.
Qed.
Theorem C79_classifier : forall h g th n l lam, ds_get h g "n_grids" = Ok (scalar_i n) -> ds_get h g "l_box" = Ok (scalar_f l) -> ds_get h g "lam" = Ok lam ->
  (0 < n)%Z -> dt lam = TFlt -> dset_ok lam ->
  (shp lam <> [Z.to_nat n; Z.to_nat n; Z.to_nat n; 3] -> classifier_from_group h g th = Err AssertionError) /\
  (shp lam = [Z.to_nat n; Z.to_nat n; Z.to_nat n; 3] -> exists vals cells, dat lam = map EFlt vals /\ length cells = Z.to_nat (n * n * n) /\
     (forall c, c < length cells -> nth_error cells c = Some (Fin (nth (3 * c) vals 0%Q), Fin (nth (3 * c + 1) vals 0%Q), Fin (nth (3 * c + 2) vals 0%Q))) /\
     classifier_from_group h g th = new_classifier cells {| n_grids := n; l_box := l |} th).
Proof.
  intros h g th n l lam Hn Hl Hlam Hp Ht [Hlen Hok].
  assert (X : exists x, dat lam = map EFlt x).
  { rewrite Ht in Hok. clear - Hok. induction Hok as [|e l He Hl IH]; [exists []; reflexivity|]. destruct IH as [x ->]. destruct e; cbn in He; try contradiction. exists (q :: x). reflexivity. }
  destruct X as [x Ex].
  assert (C : classifier_from_group h g th = if shape_eqb (shp lam) (repeat (Z.to_nat n) 3 ++ [3]) then new_classifier (triples x) {| n_grids := n; l_box := l |} th else Err AssertionError).
  { unfold classifier_from_group. rewrite Hn, Hl, Hlam. cbn [bind scalar_i scalar_f as_int as_float dat shp]. unfold mesh_new. destruct (Z.eqb_spec n 0) as [E0|_]; [lia|]. cbn [bind].
    rewrite Ex, omap_numbers. reflexivity. }
  cbn [repeat app] in C. unfold shape_eqb in C. rewrite C. destruct (list_eq_dec Nat.eq_dec (shp lam) [Z.to_nat n; Z.to_nat n; Z.to_nat n; 3]) as [E|E].
  - split; [intros N; contradiction|]. intros _. exists x, (triples x).
    assert (L : length x = 3 * Z.to_nat (n * n * n)).
    { rewrite Ex, map_length, E in Hlen. rewrite Hlen, (cube_size n) by lia. cbn [prod fold_right repeat]. nia. }
    destruct (triples_nth _ x L) as [L1 N1]. split; [exact Ex|]. split; [exact L1|]. split; [|reflexivity]. intros c Hc. apply N1. rewrite <- L1. exact Hc.
  - split; [reflexivity|]. intros N; contradiction.
Qed.
Print Assumptions C79_classifier.

(** Witness: two particles in two portions, dumped to two groups of one file, joined into the root of another file. *)
Definition ex_portion (x : vec) : dfield := match df_add (df_new 2 2) [x] None with Ok f => f | Err _ => df_new 2 2 end.
Definition ex_join : result (list Q) :=
  match create_group empty_file root "a" "x" with
  | (Ok ga, h1) => match create_group h1 root "b" "x" with
    | (Ok gb, h2) => match field_dump h2 ga (ex_portion (0, 0, 0)%Q) "x", field_dump h2 gb (ex_portion (1 # 2, 0, 0)%Q) "x" with
      | (Ok _, ha), (Ok _, hb) => match join_groups 5 [(ha, ga); (hb, gb)] empty_file root "x" with
                      | (Ok _, h') => rmap (fun f => map Qred (values_at f [(0, 0, 0); (1, 0, 0); (1 # 2, 0, 0)]%Q)) (field_load h' root)
                      | (Err e, _) => Err e end
      | _, _ => Err KeyError end
    | _ => Err KeyError end
  | _ => Err KeyError end.
Example C79_case : ex_join = Ok [3 # 2; 1 # 2; 1]%Q.
Proof. vm_compute. reflexivity. Qed.
