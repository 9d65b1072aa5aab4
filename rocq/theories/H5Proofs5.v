(** Lemmas for C17. *)
From Coq Require Import Sorted Permutation QArith.
From Verif Require Import Base Str OdictSpec H5Model H5Spec H5Proofs H5Proofs2 H5Proofs3 H5Proofs4.
Local Open Scope list_scope. Local Open Scope nat_scope.

Section FtreeInd.
  Variable P : ftree -> Prop.
  Hypothesis Hd : P FD.
  Hypothesis Hg : forall ms, (forall k t, In (k, t) ms -> P t) -> P (FG ms).
  Fixpoint ftree_ind' (t : ftree) : P t :=
    match t with
    | FD => Hd
    | FG ms => Hg ms
        ((fix go (fs : list (string * ftree)) : forall k t, In (k, t) fs -> P t :=
            match fs with
            | [] => fun k t (H : In (k, t) []) => match H with end
            | (k0, t0) :: fs' => fun k t H => match H with
                | or_introl E => match E in _ = y return P (snd y) with eq_refl => ftree_ind' t0 end
                | or_intror H' => go fs' k t H'
                end
            end) ms)
    end.
End FtreeInd.

Definition what_go (sub : nat -> result (list line)) (h : file) (g : nat) (ds gr : bool) (depth n : nat) :=
  fix go (todo : list (string * link)) (i : nat) : result (list line) :=
    match todo with
    | [] => Ok []
    | (k, _) :: todo' =>
        bind (raw_get h g k) (fun o =>
          match dset_of h o with
          | Some _ =>
              if ds then rmap (cons {| ln_depth := depth; ln_last := Nat.eqb i (n - 1); ln_name := k; ln_group := false |}) (go todo' (S i))
              else go todo' (S i)
          | None =>
              if gr then
                bind (sub o) (fun sub =>
                  rmap (fun r => {| ln_depth := depth; ln_last := Nat.eqb i (n - 1); ln_name := k; ln_group := true |} :: sub ++ r) (go todo' (S i)))
              else go todo' (S i)
          end)
    end.
Lemma what_eq fuel h g ds gr md depth : what (S fuel) h g ds gr md depth =
  if Z.eqb (Z.of_nat (S depth)) md then Ok []
  else match links_of h g with
       | None => Err TypeError
       | Some ls => what_go (fun o => what fuel h o ds gr md (S depth)) h g ds gr depth (length ls) ls 0
       end.
Proof. reflexivity. Qed.
Definition list_go (ds gr : bool) (room' depth : nat) :=
  fix go (ms : list (string * ftree)) : list line :=
         match ms with
         | [] => []
         | (k, m) :: ms' =>
             let last := match ms' with [] => true | _ => false end in
             match m with
             | FD => if ds then [{| ln_depth := depth; ln_last := last; ln_name := k; ln_group := false |}] else []
             | FG _ => if gr then {| ln_depth := depth; ln_last := last; ln_name := k; ln_group := true |}
                                  :: listing ds gr room' (S depth) m
                       else []
             end ++ go ms'
         end.
Lemma listing_eq ds gr room depth ms : listing ds gr (S room) depth (FG ms) = list_go ds gr room depth ms.
Proof. reflexivity. Qed.
Lemma listing_0 ds gr depth t : listing ds gr 0 depth t = [].
Proof. destruct t; reflexivity. Qed.

Lemma fheight_child ms k t : In (k, t) ms -> fheight t < fheight (FG ms).
Proof.
  simpl. induction ms as [|[k0 t0] ms IH]; simpl; [tauto|]. intros [E|H]; [inversion E; subst; lia|].
  specialize (IH H). lia.
Qed.

Lemma what_spec h ds gr md t : forall ms, t = FG ms -> forall fuel g depth room, unfolds h g t -> fheight t <= fuel ->
  (Z.of_nat (depth + S room) = md \/ (md <= Z.of_nat depth)%Z /\ fheight t <= room) ->
  what fuel h g ds gr md depth = Ok (listing ds gr room depth t).
Proof.
  induction t as [|ms IH] using ftree_ind'; intros ms0 E; [discriminate|]. inversion E; subst ms0. clear E.
  intros fuel g depth room Hu Hfu Hmd. destruct fuel as [|fuel]; [simpl in Hfu; lia|]. rewrite what_eq.
  destruct (Z.eqb_spec (Z.of_nat (S depth)) md) as [Em|Em].
  - assert (room = 0) by (simpl in Hmd; lia). subst room. rewrite listing_0. reflexivity.
  - destruct room as [|room]; [exfalso; simpl in Hmd; lia|]. rewrite listing_eq.
    inversion Hu as [|? ls ? Hl HF]; subst. rewrite Hl.
    assert (Hsub : forall k m o ms', In (k, m) ms -> m = FG ms' -> unfolds h o m ->
        what fuel h o ds gr md (S depth) = Ok (listing ds gr room (S depth) m)).
    { intros k m o ms' Hin Em' Hum. pose proof (fheight_child _ _ _ Hin) as Hh. eapply IH; [exact Hin|exact Em'|exact Hum|lia|].
      destruct Hmd as [Hmd|[Hmd Hr]]; [left; lia|right; lia]. }
    assert (Hgen : forall ls1 ms1 i, Forall2 (fun l m => fst l = fst m /\ exists j, raw_get h g (fst l) = Ok j /\ unfolds h j (snd m)) ls1 ms1 ->
       (forall x, In x ms1 -> In x ms) -> i + length ls1 = length ls ->
       what_go (fun o => what fuel h o ds gr md (S depth)) h g ds gr depth (length ls) ls1 i = Ok (list_go ds gr room depth ms1)).
    { clear HF. intros ls1 ms1 i HF. revert i. induction HF as [|[k l] [k' m] ls1 ms1 [Ek (j & Hj & Hum)] HF IHF]; intros i Hin Hlen; [reflexivity|].
      simpl in Ek, Hj, Hum. subst k'. cbn [what_go list_go]. fold (what_go (fun o => what fuel h o ds gr md (S depth)) h g ds gr depth (length ls)).
      fold (list_go ds gr room depth). rewrite Hj. cbn [bind].
      assert (Hlast : Nat.eqb i (length ls - 1) = match ms1 with [] => true | _ => false end).
      { apply Forall2_length' in HF. simpl in Hlen. destruct ms1; simpl in HF; destruct (Nat.eqb_spec i (length ls - 1)); [reflexivity|lia|lia|reflexivity]. }
      rewrite Hlast. cbv zeta.
      assert (Hrec := IHF (S i) (fun x Hx => Hin x (or_intror Hx)) ltac:(simpl in Hlen; lia)).
      inversion Hum as [? d Hd|? ls2 ms2 Hl2 HF2]; subst m.
      - rewrite Hd. destruct ds; rewrite Hrec; reflexivity.
      - rewrite (links_not_dset _ _ _ Hl2). destruct gr.
        + rewrite (Hsub k (FG ms2) j ms2 (Hin _ (or_introl eq_refl)) eq_refl) by exact Hum. cbn [bind]. rewrite Hrec. reflexivity.
        + rewrite Hrec. reflexivity. }
    apply Hgen; [exact HF|auto|lia].
Qed.

(** The end markers when nothing is filtered out. *)
Lemma listing_deeper ds gr t : forall room depth l, In l (listing ds gr room depth t) -> depth <= ln_depth l.
Proof.
  induction t as [|ms IH] using ftree_ind'; intros room depth l; [destruct room; simpl; tauto|].
  destruct room as [|room]; [simpl; tauto|]. rewrite listing_eq.
  assert (Hs : forall x, In x ms -> In x ms) by auto. revert Hs. generalize ms at 1 3 as ms1.
  induction ms1 as [|[k m] ms1 IHm]; intros Hs; [simpl; tauto|]. cbn [list_go]. fold (list_go ds gr room depth).
  intros H. apply in_app_or in H. destruct H as [H|H].
  - destruct m as [|ms2]; [destruct ds; simpl in H; [destruct H as [<-|[]]; simpl; lia|tauto]|].
    destruct gr; [|destruct H]. destruct H as [<-|H]; [simpl; lia|]. apply (IH k _ (Hs _ (or_introl eq_refl))) in H. lia.
  - apply IHm; [intros; apply Hs; right; assumption|assumption].
Qed.
Lemma level_listing room depth ms : 
  map ln_name (level depth (listing true true (S room) depth (FG ms))) = map fst ms /\
  map ln_last (level depth (listing true true (S room) depth (FG ms))) = 
    match ms with [] => [] | _ => repeat false (length ms - 1) ++ [true] end.
Proof.
  rewrite listing_eq. unfold level. assert (Hsub : forall t, filter (fun l => Nat.eqb (ln_depth l) depth) (listing true true room (S depth) t) = []).
  { intros t. assert (H := listing_deeper true true t room (S depth)). induction (listing true true room (S depth) t) as [|l ls IH]; [reflexivity|].
    simpl. destruct (Nat.eqb_spec (ln_depth l) depth) as [E|E]; [specialize (H l (or_introl eq_refl)); lia|]. apply IH. intros; apply H; right; assumption. }
  induction ms as [|[k m] ms [IH1 IH2]]; [split; reflexivity|]. cbn [list_go]. fold (list_go true true room depth).
  rewrite filter_app, !map_app, IH1, IH2. clear IH1 IH2.
  assert (Hh : filter (fun l => Nat.eqb (ln_depth l) depth) match m with
     | FD => [{| ln_depth := depth; ln_last := match ms with [] => true | _ => false end; ln_name := k; ln_group := false |}]
     | FG _ => {| ln_depth := depth; ln_last := match ms with [] => true | _ => false end; ln_name := k; ln_group := true |} :: listing true true room (S depth) m end
     = [{| ln_depth := depth; ln_last := match ms with [] => true | _ => false end; ln_name := k; ln_group := match m with FD => false | FG _ => true end |}]).
  { destruct m; cbn [filter ln_depth]; rewrite Nat.eqb_refl; [reflexivity|]. rewrite Hsub. reflexivity. }
  cbv zeta. rewrite Hh. split; [reflexivity|]. destruct ms as [|m1 ms]; [reflexivity|]. simpl. rewrite Nat.sub_0_r. reflexivity.
Qed.
