(** C54: the point groups of the square and the cube. *)
From Coq Require Import Reals ZArith Lra.
From Verif Require Import Base GroupSpec GroupModel GroupProofs.
Local Open Scope list_scope. Local Open Scope nat_scope.

Theorem C54_names name : match group_create name with
  | Ok g => (name = "cubic" \/ name = "3d")%string /\ group_create "cubic" = Ok g \/ (name = "square" \/ name = "2d")%string /\ group_create "square" = Ok g
  | Err e => e = KeyError /\ ~ In name ["cubic"; "3d"; "square"; "2d"]%string
  end.
Proof.
  unfold group_create at 1. destruct (String.eqb_spec name "cubic"); [left; subst; auto|]. destruct (String.eqb_spec name "3d"); [left; subst; auto|].
  destruct (String.eqb_spec name "square"); [right; subst; auto|]. destruct (String.eqb_spec name "2d"); [right; subst; auto|]. cbn [orb]. split; [reflexivity|].
  intros [H|[H|[H|[H|[]]]]]; congruence.
Qed.
Print Assumptions C54_names.
(** The cubic group: 48 different operations, and their matrices are exactly the 3x3 integer matrices with orthonormal
    columns, that is, all symmetries of the cube. *)
Theorem C54_cubic g : group_create "cubic" = Ok g -> length g = 48 /\ NoDup (map o_mat g) /\ (forall o, In o g -> o_dim o = 3 /\ is_square 3 (o_mat o)) /\
  forall m, is_square 3 m -> (In m (map o_mat g) <-> orthogonal 3 m).
Proof.
  intros E. assert (Eg : g = cubic_ops) by (unfold cubic_ops; rewrite E; reflexivity). rewrite Eg. split; [vm_compute; reflexivity|]. split; [apply nodupb_NoDup; vm_compute; reflexivity|]. split.
  - assert (B : forallb (fun o => Nat.eqb (o_dim o) 3 && Nat.eqb (length (o_mat o)) 3 && forallb (fun r => Nat.eqb (length r) 3) (o_mat o))%bool cubic_ops = true) by (vm_compute; reflexivity).
    rewrite forallb_forall in B. intros o Ho. specialize (B o Ho). apply andb_true_iff in B. destruct B as [B C]. apply andb_true_iff in B. destruct B as [A B]. apply Nat.eqb_eq in A, B. split; [assumption|]. split; [assumption|].
    apply Forall_forall. rewrite forallb_forall in C. intros r Hr. apply Nat.eqb_eq, C, Hr.
  - intros m Hm. split; [|intros H; apply memb_In, cubic_all; assumption].
    assert (B : forallb (fun o => orthb 3 (o_mat o)) cubic_ops = true) by (vm_compute; reflexivity). rewrite forallb_forall in B. intros H. apply in_map_iff in H. destruct H as (o & <- & Ho). apply orthb_orth, B, Ho.
Qed.
Print Assumptions C54_cubic.
(** The square group: 8 different operations, exactly the 2x2 integer matrices with orthonormal columns. *)
Theorem C54_square g : group_create "square" = Ok g -> length g = 8 /\ NoDup (map o_mat g) /\ (forall o, In o g -> o_dim o = 2 /\ is_square 2 (o_mat o)) /\
  forall m, is_square 2 m -> (In m (map o_mat g) <-> orthogonal 2 m).
Proof.
  intros E. assert (Eg : g = square_ops) by (unfold square_ops; rewrite E; reflexivity). rewrite Eg. split; [vm_compute; reflexivity|]. split; [apply nodupb_NoDup; vm_compute; reflexivity|]. split.
  - assert (B : forallb (fun o => Nat.eqb (o_dim o) 2 && Nat.eqb (length (o_mat o)) 2 && forallb (fun r => Nat.eqb (length r) 2) (o_mat o))%bool square_ops = true) by (vm_compute; reflexivity).
    rewrite forallb_forall in B. intros o Ho. specialize (B o Ho). apply andb_true_iff in B. destruct B as [B C]. apply andb_true_iff in B. destruct B as [A B]. apply Nat.eqb_eq in A, B. split; [assumption|]. split; [assumption|].
    apply Forall_forall. rewrite forallb_forall in C. intros r Hr. apply Nat.eqb_eq, C, Hr.
  - intros m Hm. split; [|intros H; apply memb_In, square_all; assumption].
    assert (B : forallb (fun o => orthb 2 (o_mat o)) square_ops = true) by (vm_compute; reflexivity). rewrite forallb_forall in B. intros H. apply in_map_iff in H. destruct H as (o & <- & Ho). apply orthb_orth, B, Ho.
Qed.
Print Assumptions C54_square.
(** Group laws: the identity is a member, combining members (any number of them) gives a member, every member has an inverse. *)
Theorem C54_group_laws name g : group_create name = Ok g ->
  (exists e, In e g /\ forall x, length x = o_dim e -> op_call e x = Ok x) /\
  (forall a bs, In a g -> (forall b, In b bs -> In b g) -> exists c, op_combined a bs = Ok c /\ In c g) /\
  (forall a, In a g -> exists b, In b g /\ forall x, length x = o_dim a -> bind (op_call a x) (op_call b) = Ok x /\ bind (op_call b x) (op_call a) = Ok x).
Proof.
  intros E. assert (K : g = cubic_ops \/ g = square_ops).
  { pose proof (C54_names name) as N. rewrite E in N. destruct N as [[_ H]|[_ H]]; [left; unfold cubic_ops|right; unfold square_ops]; rewrite H; reflexivity. }
  assert (D : exists n idm, (n = 3 \/ n = 2) /\ idm = tabulate n (fun i j => if Nat.eqb j i then 1 else 0)%Z /\ (forall o, In o g -> o_dim o = n) /\ In {| o_dim := n; o_mat := idm |} g /\
      (forall a b, In a g -> In b g -> exists c, op_mul a b = Ok c /\ In c g) /\ (forall a, In a g -> exists b, In b g /\ op_mul a b = Ok {| o_dim := n; o_mat := idm |} /\ op_mul b a = Ok {| o_dim := n; o_mat := idm |})).
  { pose (same := fun a b : op => (Nat.eqb (o_dim a) (o_dim b) && mat_eqb (o_mat a) (o_mat b))%bool).
    assert (Hs : forall a b, same a b = true -> a = b) by (intros [n a] [m b] H; unfold same in H; cbn in H; apply andb_true_iff in H; destruct H as [H1 H2]; apply Nat.eqb_eq in H1; apply mat_eqb_eq in H2; congruence).
    pose (chk := fun n (l : list op) => let e := {| o_dim := n; o_mat := tabulate n (fun i j => if Nat.eqb j i then 1 else 0)%Z |} in
       (forallb (fun o => Nat.eqb (o_dim o) n) l && existsb (same e) l &&
        forallb (fun a => forallb (fun b => match op_mul a b with Ok c => existsb (same c) l | Err _ => false end) l) l &&
        forallb (fun a => existsb (fun b => match op_mul a b, op_mul b a with Ok c, Ok d => same c e && same d e | _, _ => false end) l) l)%bool).
    assert (Hc : forall n l, chk n l = true -> let e := {| o_dim := n; o_mat := tabulate n (fun i j => if Nat.eqb j i then 1 else 0)%Z |} in
       (forall o, In o l -> o_dim o = n) /\ In e l /\ (forall a b, In a l -> In b l -> exists c, op_mul a b = Ok c /\ In c l) /\ (forall a, In a l -> exists b, In b l /\ op_mul a b = Ok e /\ op_mul b a = Ok e)).
    { intros n l H e. unfold chk in H. fold e in H. rewrite !andb_true_iff in H. destruct H as [[[H1 H2] H3] H4]. rewrite forallb_forall in H1, H3, H4. apply existsb_exists in H2. split; [intros o Ho; apply Nat.eqb_eq, H1, Ho|]. split.
      - destruct H2 as (o & Ho & Es). apply Hs in Es. rewrite Es. exact Ho.
      - split.
        + intros a b Ha Hb. specialize (H3 a Ha). rewrite forallb_forall in H3. specialize (H3 b Hb). destruct (op_mul a b) as [c|]; [|discriminate]. exists c. split; [reflexivity|]. apply existsb_exists in H3. destruct H3 as (o & Ho & Es). apply Hs in Es. rewrite Es. exact Ho.
        + intros a Ha. specialize (H4 a Ha). apply existsb_exists in H4. destruct H4 as (b & Hb & Es). destruct (op_mul a b) as [c|] eqn:Eab; [|discriminate]. destruct (op_mul b a) as [d|] eqn:Eba; [|discriminate]. apply andb_true_iff in Es. destruct Es as [Ec Ed]. apply Hs in Ec, Ed. exists b. split; [assumption|]. rewrite Eab, Eba, Ec, Ed. split; reflexivity. }
    destruct K as [-> | ->]; [exists 3|exists 2]; eexists; (split; [auto|]); (split; [reflexivity|]); apply Hc; vm_compute; reflexivity. }
  destruct D as (n & idm & _ & -> & Dn & Ie & Cl & Inv).
  assert (Ide : forall x, length x = n -> op_call {| o_dim := n; o_mat := tabulate n (fun i j => if Nat.eqb j i then 1 else 0)%Z |} x = Ok x).
  { intros x Hx. rewrite call_ok by assumption. cbn [o_dim o_mat]. f_equal. apply (nth_ext _ _ 0%R 0%R); [rewrite map_length, seq_length; congruence|]. intros i Hi. rewrite map_length, seq_length in Hi. rewrite nth_map_seq by assumption.
    transitivity (rsum n (fun k => comp x k * IZR (if Nat.eqb k i then 1 else 0))%R); [|exact (rsum_delta n (comp x) i Hi)]. apply rsum_ext. intros k Hk. rewrite entry_tab by assumption. reflexivity. }
  split; [|split].
  - eexists. split; [exact Ie|]. cbn [o_dim]. exact Ide.
  - intros a bs Ha Hb. revert a Ha. induction bs as [|b bs IH]; intros a Ha; [exists a; auto|]. destruct (Cl a b Ha (Hb b (or_introl eq_refl))) as (c & Ec & Ic). cbn [op_combined]. rewrite Ec. cbn [bind]. apply IH; [|assumption]. intros b' Hb'. apply Hb. right. exact Hb'.
  - intros a Ha. destruct (Inv a Ha) as (b & Hb & E1 & E2). exists b. split; [assumption|]. intros x Hx. rewrite (Dn a Ha) in Hx. rewrite <- (call_mul _ _ _ x E1), <- (call_mul _ _ _ x E2). split; apply Ide; assumption.
Qed.
Print Assumptions C54_group_laws.
(** Acting with a combined operation is acting with the last one first: (a.combined(b1, ..., bk))(x) = a(b1(...(bk(x)))),
    for operations of any dimension and any vector. *)
Theorem C54_action a bs c x : op_combined a bs = Ok c -> op_call c x = bind (fold_right (fun b r => bind r (op_call b)) (Ok x) bs) (op_call a).
Proof.
  revert a. induction bs as [|b bs IH]; intros a E; cbn [op_combined fold_right] in *; [assert (c = a) by congruence; subst; reflexivity|].
  destruct (op_mul a b) as [d|] eqn:Ed; cbn [bind] in E; [|discriminate]. rewrite (IH d E). destruct (fold_right (fun b r => bind r (op_call b)) (Ok x) bs) as [y|]; cbn [bind]; [|reflexivity].
  apply call_mul. exact Ed.
Qed.
Print Assumptions C54_action.
(** Every member preserves scalar products (hence lengths, distances and angles) of all vectors; other vector lengths are refused. *)
Theorem C54_isometry name g a x y : group_create name = Ok g -> In a g -> length x = o_dim a -> length y = o_dim a ->
  exists x' y', op_call a x = Ok x' /\ op_call a y = Ok y' /\ length x' = o_dim a /\ length y' = o_dim a /\ dot (o_dim a) x' y' = dot (o_dim a) x y.
Proof.
  intros E Ha Lx Ly. apply call_isometry; try assumption. pose proof (C54_names name) as N. rewrite E in N. destruct N as [[_ H]|[_ H]].
  - destruct (C54_cubic _ H) as (_ & _ & D & O). destruct (D a Ha) as [-> Sq]. apply (O _ Sq). apply in_map. exact Ha.
  - destruct (C54_square _ H) as (_ & _ & D & O). destruct (D a Ha) as [-> Sq]. apply (O _ Sq). apply in_map. exact Ha.
Qed.
Print Assumptions C54_isometry.
Theorem C54_call_shape a x : match op_call a x with Ok y => length x = o_dim a /\ length y = o_dim a | Err e => e = ValueError /\ length x <> o_dim a end.
Proof. unfold op_call. destruct (Nat.eqb_spec (length x) (o_dim a)); [rewrite map_length, seq_length|]; auto. Qed.
Print Assumptions C54_call_shape.
(** An array of vectors is transformed vector by vector. *)
Theorem C54_call_rows a xs : match op_call_rows a xs with
  | Ok ys => Forall2 (fun x y => op_call a x = Ok y) xs ys
  | Err e => e = ValueError /\ exists x, In x xs /\ length x <> o_dim a end.
Proof.
  unfold op_call_rows. destruct (mapM (op_call a) xs) as [ys|e] eqn:E; [apply mapM_Ok; exact E|].
  induction xs as [|x xs IH]; cbn [mapM] in E; [discriminate|]. pose proof (C54_call_shape a x) as S0. destruct (op_call a x) as [y|e'] eqn:Ex; cbn [bind] in E.
  - destruct (mapM (op_call a) xs) as [ys|e'] eqn:Es; cbn [bind] in E; [discriminate|]. destruct (IH ltac:(congruence)) as (A & z & Hz & B). split; [assumption|]. exists z. split; [right; assumption|assumption].
  - assert (e = e') by congruence. subst. destruct S0. split; [assumption|]. exists x. split; [left; reflexivity|assumption].
Qed.
Print Assumptions C54_call_rows.
(** Combining lists of operations of one dimension gives all products of one operation from each list, and nothing else. *)
Theorem C54_combined n g0 gs : Forall (fun o => o_dim o = n) g0 -> Forall (Forall (fun o => o_dim o = n)) gs -> exists g, group_combined g0 gs = Ok g /\
  length g = fold_left Nat.mul (map (@length op) gs) (length g0) /\ forall c, In c g <-> exists a bs, In a g0 /\ Forall2 (@In op) bs gs /\ op_combined a bs = Ok c.
Proof. intros H H'. destruct (group_combined_spec n gs g0 H H') as (g & E & _ & L & I). exists g. auto. Qed.
Print Assumptions C54_combined.
(** The order of the result: the first list varies slowest. *)
Theorem C54_combined_order g0 g1 g i j a b : group_combined g0 [g1] = Ok g -> nth_error g0 i = Some a -> nth_error g1 j = Some b ->
  exists c, op_combined a [b] = Ok c /\ nth_error g (i * length g1 + j) = Some c.
Proof.
  cbn [group_combined]. destruct (mapM (fun p => op_combined (fst p) [snd p]) (list_prod g0 g1)) as [g'|] eqn:E; cbn [bind]; [|discriminate]. intros H Ha Hb. assert (g' = g) by congruence. subst g'.
  pose proof (prod_nth g0 g1 i j a b Ha Hb) as P. apply mapM_Ok in E. revert P. generalize (i * length g1 + j). clear - E. induction E as [|p c l l' Hp E IH]; intros k P; [destruct k; discriminate|].
  destruct k as [|k]; cbn [nth_error] in *; [|auto]. assert (p = (a, b)) by congruence. subst p. exists c. auto.
Qed.
Print Assumptions C54_combined_order.
(** Members can be read by position (from the end for negative positions); len() of a group always fails (finding: it reads an
    attribute that does not exist). *)
Theorem C54_getitem g i : (0 <= i < Z.of_nat (length g) -> exists o, group_get g i = Ok o /\ nth_error g (Z.to_nat i) = Some o)%Z /\
  (- Z.of_nat (length g) <= i < 0 -> group_get g i = group_get g (i + Z.of_nat (length g)))%Z /\ ((i < - Z.of_nat (length g) \/ Z.of_nat (length g) <= i)%Z -> group_get g i = Err IndexError).
Proof.
  unfold group_get. split; [|split].
  - intros H. destruct (Z.ltb_spec i 0); [lia|]. destruct (Z.ltb_spec i 0); [lia|]. destruct (Z.leb_spec (Z.of_nat (length g)) i); [lia|]. cbn [orb]. destruct (nth_error g (Z.to_nat i)) as [o|] eqn:E; [eauto|]. apply nth_error_None in E. lia.
  - intros H. destruct (Z.ltb_spec i 0); [|lia]. assert (Q : (i + Z.of_nat (length g) <? 0)%Z = false) by (apply Z.ltb_ge; lia). rewrite Q. cbv iota. rewrite Q. reflexivity.
  - intros H. destruct (Z.ltb_spec i 0).
    + destruct (Z.ltb_spec (i + Z.of_nat (length g)) 0); [reflexivity|lia].
    + destruct (Z.ltb_spec i 0); [lia|]. destruct (Z.leb_spec (Z.of_nat (length g)) i); [reflexivity|lia].
Qed.
Print Assumptions C54_getitem.
Theorem C54_len_refuted g : group_len g = Err AttributeError.
Proof. reflexivity. Qed.
Print Assumptions C54_len_refuted.
Example C54_nonvacuous : exists g a c, group_create "3d" = Ok g /\ group_get g 9 = Ok a /\ group_get g (-1) = Ok c /\ o_mat a = [[-1; 0; 0]; [0; 0; 1]; [0; -1; 0]]%Z /\ o_mat c = [[0; 0; -1]; [1; 0; 0]; [0; 1; 0]]%Z.
Proof. eexists. eexists. eexists. split; [vm_compute; reflexivity|]. split; [vm_compute; reflexivity|]. split; [vm_compute; reflexivity|]. split; reflexivity. Qed.
