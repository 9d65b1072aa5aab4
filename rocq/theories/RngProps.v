(** C76: random number generators. *)
From Coq Require Import Reals Lra Lia.
From Verif Require Import Base FrameModel RngModel.
Local Open Scope string_scope. Local Open Scope list_scope. Local Open Scope R_scope.

(** ** Specification vocabulary *)
(** The first n numbers of a source, and the state after them, by index. *)
Fixpoint after {St A} (next : St -> A * St) (n : nat) (s : St) : St := match n with O => s | S n' => after next n' (snd (next s)) end.
Definition draw {St A} (next : St -> A * St) (i : nat) (s : St) : A := fst (next (after next i s)).
(** One generator used by one owner only: a list of calls made one after the other. *)
Fixpoint alone {St} (g : source St) (cs : list call) (s : St) : list out * St :=
  match cs with [] => ([], s) | c :: cs' => let '(v, s1) := run g c s in let '(vs, s2) := alone g cs' s1 in (v :: vs, s2) end.
(** 53-bit sources. *)
Definition proper {St} (g : source St) : Prop := forall s, (0 <= fst (bits53 g s) < 2 ^ 53)%Z.
Definition entry (o : out) (j i : nat) : R := match o with Tup l => nth i (data (nth j l {| shape := []; data := [] |})) 0 | Arr a => nth (i * last (shape a) 0%nat + j) (data a) 0 end.

Lemma after_S {St A} (next : St -> A * St) n s : after next (S n) s = snd (next (after next n s)).
Proof. revert s. induction n as [|n IH]; intros s; [reflexivity|]. change (after next (S (S n)) s) with (after next (S n) (snd (next s))). rewrite IH. reflexivity. Qed.
Lemma draws_is {St A} (next : St -> A * St) n : forall s, draws next n s = (map (fun i => draw next i s) (seq 0 n), after next n s).
Proof.
  induction n as [|n IH]; intros s; [reflexivity|]. cbn [draws after seq map]. destruct (next s) as [a s1] eqn:E. rewrite IH. cbn [snd]. unfold draw at 2. cbn [after]. rewrite E. cbn [fst]. f_equal. f_equal.
  rewrite <- seq_shift, map_map. apply map_ext. intros i. unfold draw. cbn [after]. rewrite E. reflexivity.
Qed.
Lemma after_add {St A} (next : St -> A * St) n m s : after next (n + m) s = after next m (after next n s).
Proof. revert s. induction n as [|n IH]; intros s; [reflexivity|]. cbn [Nat.add after]. apply IH. Qed.
Lemma draw_add {St A} (next : St -> A * St) n i s : draw next (n + i) s = draw next i (after next n s).
Proof. unfold draw. rewrite after_add. reflexivity. Qed.
Lemma unit_range k : (0 <= k < 2 ^ 53)%Z -> 0 <= unit_of k < 1.
Proof.
  intros [A B]. unfold unit_of. assert (P : 0 < 2 ^ 53) by (apply pow_lt; lra). assert (E : IZR (2 ^ 53) = 2 ^ 53) by (rewrite pow_IZR; reflexivity).
  apply IZR_le in A. apply IZR_lt in B. rewrite E in B. split.
  - apply Rmult_le_pos; [lra|]. left. apply Rinv_0_lt_compat, P.
  - apply (Rmult_lt_reg_r (2 ^ 53)); [exact P|]. unfold Rdiv. rewrite Rmult_assoc, Rinv_l, Rmult_1_r by lra. lra.
Qed.
Lemma nth_map_seq {A} (f : nat -> A) n i d : (i < n)%nat -> nth i (map f (seq 0 n)) d = f i.
Proof. intros H. rewrite (nth_indep _ d (f 0%nat)) by (rewrite map_length, seq_length; exact H). rewrite map_nth, seq_nth by exact H. reflexivity. Qed.

(** ** Making generators *)
(** What Rng(seed) accepts; an int (default 0) or None starts a new generator, a Generator or an Rng is shared. *)
Theorem C76_construction : forall St (g : source St) w a, let w' := fst (act g w (Make a)) in
  match a with
  | SInt z => (0 <= z)%Z -> objs w' = objs w ++ [length (gens w)] /\ gens w' = gens w ++ [seeded g z]
  | SNone e => objs w' = objs w ++ [length (gens w)] /\ gens w' = gens w ++ [seeded g e]
  | SGen r => objs w' = objs w ++ [r] /\ gens w' = gens w
  | SRng o => gens w' = gens w /\ forall r, nth_error (objs w) o = Some r -> objs w' = objs w ++ [r]
  | SOther => w' = w /\ rng_init g (gens w) a = Err AssertionError
  end /\ (forall z, (z < 0)%Z -> a = SInt z -> w' = w /\ rng_init g (gens w) a = Err ValueError) /\ default_seed = SInt 0.
Proof.
  intros St g w a. split; [|split; [|reflexivity]].
  - destruct a as [e|z|r|o|]; cbn [act resolve rng_init].
    + split; reflexivity.
    + intros Hz. destruct (Z.ltb_spec z 0) as [L|_]; [lia|]. split; reflexivity.
    + split; reflexivity.
    + destruct (nth_error (objs w) o) as [r|]; cbn [rng_init]; [split; [reflexivity|intros r' [= <-]; reflexivity]|split; [reflexivity|discriminate]].
    + split; reflexivity.
  - intros z Hz ->. cbn [act resolve rng_init]. destruct (Z.ltb_spec z 0) as [_|L]; [split; reflexivity|lia].
Qed.
Print Assumptions C76_construction.

Definition wf {St} (w : rstate St) : Prop := Forall (fun r => (r < length (gens w))%nat) (objs w).
Lemma act_wf {St} (g : source St) w x : wf w -> (forall a r, x = Make a -> resolve w a = SGen r -> (r < length (gens w))%nat) -> wf (fst (act g w x)).
Proof.
  intros W Hx. destruct x as [a|o c]; cbn [act].
  - assert (R : forall r, resolve w a = SRng r -> (r < length (gens w))%nat).
    { intros r. destruct a as [e|z|r'|o|]; cbn [resolve]; try discriminate. destruct (nth_error (objs w) o) as [r''|] eqn:E; [|discriminate]. intros [= <-]. unfold wf in W. rewrite Forall_forall in W. apply W. eapply nth_error_In, E. }
    specialize (Hx a). destruct (resolve w a) as [e|z|r|r|]; cbn [rng_init]; unfold wf in *; try (destruct (Z.ltb z 0)); cbn [fst gens objs]; try exact W.
    + rewrite app_length. cbn [length]. apply Forall_app. split; [eapply Forall_impl; [|exact W]; cbn; intros; lia|constructor; [lia|constructor]].
    + rewrite app_length. cbn [length]. apply Forall_app. split; [eapply Forall_impl; [|exact W]; cbn; intros; lia|constructor; [lia|constructor]].
    + apply Forall_app. split; [exact W|constructor; [apply Hx; reflexivity|constructor]].
    + apply Forall_app. split; [exact W|constructor; [apply R; reflexivity|constructor]].
  - destruct (nth_error (objs w) o) as [r|]; [|exact W]. destruct (nth_error (gens w) r) as [s|]; [|exact W]. destruct (run g c s) as [v s1]. unfold wf in *. cbn [fst gens objs]. rewrite upd_nth_length. exact W.
Qed.

(** ** Sharing and independence *)
Definition on (r : nat) (t : list (nat * call * out)) : list (nat * call * out) := filter (fun e => Nat.eqb (fst (fst e)) r) t.
(** Whatever is done through however many objects: every generator behaves as if the calls on it, in their order, had been made by one
    owner alone.  So objects made from each other or from the same Generator draw from one stream, others do not disturb each other. *)
Theorem C76_sharing : forall St (g : source St) l w w' t r s, acts g w l = (w', t) -> nth_error (gens w) r = Some s ->
  exists s', nth_error (gens w') r = Some s' /\ alone g (map (fun e => snd (fst e)) (on r t)) s = (map snd (on r t), s') /\
  (forall o q, nth_error (objs w) o = Some q -> nth_error (objs w') o = Some q).
Proof.
  intros St g. induction l as [|x l IH]; intros w w' t r s H Hs.
  - cbn in H. injection H as <- <-. exists s. repeat split; auto.
  - cbn [acts] in H. destruct (act g w x) as [w1 t1] eqn:E. destruct (acts g w1 l) as [w2 t2] eqn:E2. assert (w2 = w') by congruence. assert (t = t1 ++ t2) by congruence. subst w2 t. clear H.
    assert (ST : exists s1, nth_error (gens w1) r = Some s1 /\ alone g (map (fun e => snd (fst e)) (on r t1)) s = (map snd (on r t1), s1) /\ (forall o q, nth_error (objs w) o = Some q -> nth_error (objs w1) o = Some q)).
    { destruct x as [a|o c]; cbn [act] in E.
      - assert (K : exists ex ob, gens w1 = gens w ++ ex /\ objs w1 = objs w ++ ob /\ t1 = []).
        { destruct (resolve w a) as [e|z|q|q|]; cbn [rng_init] in E; [|destruct (Z.ltb z 0)| | |]; assert (Ew := f_equal fst E); assert (Et := f_equal snd E); cbn [fst snd] in Ew, Et; subst w1 t1; cbn [gens objs].
          all: try (eexists [_], [_]; repeat split; reflexivity). all: try (exists [], [q]; rewrite app_nil_r; repeat split; reflexivity). all: exists [], []; rewrite !app_nil_r; repeat split; reflexivity. }
        destruct K as (ex & ob & Eg & Eo & ->). exists s. rewrite Eg, Eo. split; [rewrite nth_error_app1; [exact Hs|apply nth_error_Some; congruence]|]. split; [reflexivity|].
        intros o q Hq. rewrite nth_error_app1; [exact Hq|apply nth_error_Some; congruence].
      - destruct (nth_error (objs w) o) as [q|] eqn:Eo; [|assert (Ew := f_equal fst E); assert (Et := f_equal snd E); cbn [fst snd] in Ew, Et; subst w1 t1; exists s; repeat split; auto].
        destruct (nth_error (gens w) q) as [sq|] eqn:Eq; [|assert (Ew := f_equal fst E); assert (Et := f_equal snd E); cbn [fst snd] in Ew, Et; subst w1 t1; exists s; repeat split; auto].
        destruct (run g c sq) as [v sq1] eqn:Er. assert (Ew := f_equal fst E); assert (Et := f_equal snd E); cbn [fst snd] in Ew, Et. subst w1 t1. cbn [gens objs on filter fst]. destruct (Nat.eqb_spec q r) as [->|N].
        + assert (sq = s) by congruence. subst sq. exists sq1. rewrite upd_nth_same by (apply nth_error_Some; congruence). split; [reflexivity|]. split; [|auto]. cbn [map alone fst snd]. rewrite Er. reflexivity.
        + exists s. rewrite upd_nth_other by congruence. split; [exact Hs|]. split; [reflexivity|auto]. }
    destruct ST as (s1 & A & B & C). destruct (IH _ _ _ _ _ E2 A) as (s' & A' & B' & C'). exists s'. split; [exact A'|]. split; [|auto].
    unfold on. rewrite filter_app. fold (on r t1). fold (on r t2). rewrite !map_app.
    assert (AL : forall a b s, alone g (a ++ b) s = let '(va, s1) := alone g a s in let '(vb, s2) := alone g b s1 in (va ++ vb, s2)).
    { clear. induction a as [|c a IH]; intros b s; cbn [app alone]; [destruct (alone g b s); reflexivity|]. destruct (run g c s) as [v s1]. rewrite IH. destruct (alone g a s1) as [va s2]. destruct (alone g b s2). reflexivity. }
    rewrite AL, B, B'. reflexivity.
Qed.
Print Assumptions C76_sharing.

(** Reproducibility: two generators made from the same integer, in any two programs and among any other activity, answer the same
    calls with the same numbers. *)
Theorem C76_reproducible : forall St (g : source St) z wa wb la lb, (0 <= z)%Z ->
  let ra := length (gens wa) in let rb := length (gens wb) in
  let ta := on ra (snd (acts g wa (Make (SInt z) :: la))) in let tb := on rb (snd (acts g wb (Make (SInt z) :: lb))) in
  map (fun e => snd (fst e)) ta = map (fun e => snd (fst e)) tb -> map snd ta = map snd tb.
Proof.
  intros St g z wa wb la lb Hz ra rb ta tb H.
  assert (K : forall w l, let r := length (gens w) in let t := on r (snd (acts g w (Make (SInt z) :: l))) in map snd t = fst (alone g (map (fun e => snd (fst e)) t) (seeded g z))).
  { clear -Hz. intros w l. cbv zeta. cbn [acts act resolve rng_init]. destruct (Z.ltb_spec z 0) as [L|_]; [lia|].
    destruct (acts g {| gens := gens w ++ [seeded g z]; objs := objs w ++ [length (gens w)] |} l) as [w2 t2] eqn:E. cbn [snd app].
    destruct (C76_sharing St g l _ _ _ (length (gens w)) (seeded g z) E) as (s' & _ & B & _); [cbn [gens]; rewrite nth_error_app2, Nat.sub_diag by lia; reflexivity|]. rewrite B. reflexivity. }
  pose proof (K wa la) as Ka. pose proof (K wb lb) as Kb. cbv zeta in Ka, Kb. fold ra in Ka. fold rb in Kb. fold ta in Ka. fold tb in Kb. rewrite Ka, Kb, H. reflexivity.
Qed.
Print Assumptions C76_reproducible.

(** ** Distributions: the numbers behind each call *)
Lemma uniform_is {St} (g : source St) lo hi size s : g_uniform g lo hi size s =
  ({| shape := dims size; data := map (fun i => lo + (hi - lo) * unit_of (draw (bits53 g) i s)) (seq 0 (count size)) |}, after (bits53 g) (count size) s).
Proof. unfold g_uniform. rewrite draws_is, map_map. reflexivity. Qed.
(** uniform and random: an array of the asked shape (a number without size), entry i from the i-th draw, in [low, high); normal: the
    i-th normal number scaled and shifted; lg_normal: 10 to such numbers, hence positive. *)
Theorem C76_uniform : forall St (g : source St) lo hi loc scale size s, proper g -> lo < hi -> let n := count size in let u i := unit_of (draw (bits53 g) i s) in
  (exists a, g_uniform g lo hi size s = (a, after (bits53 g) n s) /\ shape a = dims size /\ length (data a) = n /\
     forall i, (i < n)%nat -> nth i (data a) 0 = lo + (hi - lo) * u i /\ lo <= nth i (data a) 0 < hi) /\
  (exists a, g_random g size s = (a, after (bits53 g) n s) /\ shape a = dims size /\ length (data a) = n /\ forall i, (i < n)%nat -> nth i (data a) 0 = u i /\ 0 <= u i < 1) /\
  (exists a b c, g_normal g loc scale size s = (a, after (std_normal g) n s) /\ j_lg_normal g loc scale size s = (b, after (std_normal g) n s) /\ g_standard_normal g size s = (c, after (std_normal g) n s) /\
     shape a = dims size /\ shape b = dims size /\ shape c = dims size /\ length (data a) = n /\ length (data b) = n /\ length (data c) = n /\
     forall i, (i < n)%nat -> nth i (data c) 0 = draw (std_normal g) i s /\ nth i (data a) 0 = loc + scale * draw (std_normal g) i s /\ 0 < nth i (data b) 0 /\ ln (nth i (data b) 0) / ln 10 = nth i (data a) 0).
Proof.
  intros St g lo hi loc scale size s P L n u. assert (U : forall i, 0 <= u i < 1) by (intros i; apply unit_range, P). split; [|split].
  - rewrite uniform_is. eexists. split; [reflexivity|]. split; [reflexivity|]. cbn [data]. split; [rewrite map_length, seq_length; reflexivity|]. intros i Hi. rewrite nth_map_seq by exact Hi. split; [reflexivity|]. fold (u i). specialize (U i).
    split; [assert (0 <= (hi - lo) * u i) by (apply Rmult_le_pos; lra); lra|]. assert ((hi - lo) * u i < (hi - lo) * 1) by (apply Rmult_lt_compat_l; lra). lra.
  - unfold g_random. rewrite draws_is, map_map. eexists. split; [reflexivity|]. split; [reflexivity|]. cbn [data]. split; [rewrite map_length, seq_length; reflexivity|]. intros i Hi. rewrite nth_map_seq by exact Hi. split; [reflexivity|apply U].
  - unfold j_lg_normal, g_normal, g_standard_normal. rewrite !draws_is. do 3 eexists. do 3 (split; [reflexivity|]). do 3 (split; [reflexivity|]). cbn [data nmap]. split; [rewrite !map_length, seq_length; reflexivity|]. split; [rewrite !map_length, seq_length; reflexivity|]. split; [rewrite !map_length, seq_length; reflexivity|].
    intros i Hi. rewrite !map_map, !nth_map_seq by exact Hi. split; [reflexivity|]. split; [reflexivity|]. unfold Rpower. split; [apply exp_pos|]. rewrite ln_exp. field. assert (0 < ln 10) by (rewrite <- ln_1; apply ln_increasing; lra). lra.
Qed.
Print Assumptions C76_uniform.

(** uniform_sphere: first all cosines, then all azimuths are drawn; in polar form theta is in (0, pi] and phi in [0, 2 pi); in Cartesian
    form every point has norm 1, its z component is the uniform cosine in [-1, 1) and it lies at the drawn azimuth, so the north pole
    never occurs; stacked and unstacked hold the same numbers; all forms consume the same 2 n draws. *)
Theorem C76_sphere : forall St (g : source St) size s stack, proper g -> let n := count size in
  let c i := -1 + 2 * unit_of (draw (bits53 g) i s) in let phi i := 2 * PI * unit_of (draw (bits53 g) (n + i) s) in
  exists p q, g_sphere g size stack false s = (p, after (bits53 g) (2 * n) s) /\ g_sphere g size stack true s = (q, after (bits53 g) (2 * n) s) /\
  (if stack then (exists a b, p = Arr a /\ q = Arr b /\ shape a = dims size ++ [2%nat] /\ shape b = dims size ++ [3%nat] /\ length (data a) = (n * 2)%nat /\ length (data b) = (n * 3)%nat)
   else exists a b x y z, p = Tup [a; b] /\ q = Tup [x; y; z] /\ forall k, In k [a; b; x; y; z] -> shape k = dims size /\ length (data k) = n) /\
  forall i, (i < n)%nat -> -1 <= c i < 1 /\ cos (entry p 0 i) = c i /\ 0 < entry p 0 i <= PI /\ entry p 1 i = phi i /\ 0 <= phi i < 2 * PI /\
    entry q 2 i = c i /\ entry q 0 i = sqrt (1 - c i ^ 2) * cos (phi i) /\ entry q 1 i = sqrt (1 - c i ^ 2) * sin (phi i) /\ entry q 0 i ^ 2 + entry q 1 i ^ 2 + entry q 2 i ^ 2 = 1 /\
    [entry q 0 i; entry q 1 i; entry q 2 i] = unit_vec_to_cart (entry p 0 i) (entry p 1 i).
Proof.
  intros St g size s stack P n c phi.
  assert (C : forall i, -1 <= c i < 1) by (intros i; unfold c; pose proof (unit_range _ (P (after (bits53 g) i s))); unfold draw; lra).
  assert (F : forall i, 0 <= phi i < 2 * PI).
  { intros i. unfold phi. pose proof (unit_range _ (P (after (bits53 g) (n + i) s))) as U. fold (draw (bits53 g) (n + i) s) in U. pose proof PI_RGT_0. split; [apply Rmult_le_pos; lra|]. rewrite <- (Rmult_1_r (2 * PI)) at 2. apply Rmult_lt_compat_l; lra. }
  assert (S2 : forall i, sin (acos (c i)) = sqrt (1 - c i ^ 2)). { intros i. rewrite sin_acos by (pose proof (C i); lra). f_equal. unfold Rsqr. ring. }
  assert (AC : forall i, cos (acos (c i)) = c i) by (intros i; apply cos_acos; pose proof (C i); lra).
  set (T := {| shape := dims size; data := map (fun i => acos (c i)) (seq 0 n) |}). set (F0 := {| shape := dims size; data := map phi (seq 0 n) |}).
  assert (E : forall cart, g_sphere g size stack cart s = (if cart then to_cart T F0 stack else pack stack [T; F0], after (bits53 g) (2 * n) s)).
  { intros cart. unfold g_sphere. rewrite !uniform_is. fold n. replace (2 * n)%nat with (n + n)%nat by lia. rewrite after_add. f_equal.
    assert (ET : nmap acos {| shape := dims size; data := map (fun i => -1 + (1 - -1) * unit_of (draw (bits53 g) i s)) (seq 0 n) |} = T).
    { unfold nmap, T. cbn [shape data]. f_equal. rewrite map_map. apply map_ext. intros i. unfold c. f_equal. ring. }
    assert (EF : {| shape := dims size; data := map (fun i => 0 + (2 * PI - 0) * unit_of (draw (bits53 g) i (after (bits53 g) n s))) (seq 0 n) |} = F0).
    { unfold F0. f_equal. apply map_ext. intros i. unfold phi. rewrite draw_add. ring. }
    rewrite ET, EF. reflexivity. }
  exists (pack stack [T; F0]), (to_cart T F0 stack). split; [apply E|]. split; [apply E|].
  assert (CC : forall (f g' : nat -> R) m, map (fun p => fst p * snd p) (combine (map f (seq 0 m)) (map g' (seq 0 m))) = map (fun i => f i * g' i) (seq 0 m)).
  { intros f g' m. generalize 0%nat. induction m as [|m IH]; intros k; [reflexivity|]. cbn [seq map combine fst snd]. rewrite IH. reflexivity. }
  assert (LX : forall f, length (data (nmap2 Rmult (nmap sin T) (nmap f F0))) = n) by (intros f; unfold nmap2, nmap, T, F0; cbn [shape data]; rewrite map_length, combine_length, !map_length, seq_length; lia).
  assert (NX : forall f i, (i < n)%nat -> nth i (data (nmap2 Rmult (nmap sin T) (nmap f F0))) 0 = sin (acos (c i)) * f (phi i)).
  { intros f i Hi. unfold nmap2, nmap, T, F0. cbn [shape data]. rewrite !map_map, CC, nth_map_seq by exact Hi. reflexivity. }
  assert (NZ : forall i, (i < n)%nat -> nth i (data (nmap cos T)) 0 = cos (acos (c i))) by (intros i Hi; unfold nmap, T; cbn [data]; rewrite map_map, nth_map_seq by exact Hi; reflexivity).
  assert (FL : forall (l : list nd) m, length (flat_map (fun i => map (fun b => nth i (data b) 0) l) (seq 0 m)) = (m * length l)%nat).
  { intros l m. generalize 0%nat. induction m as [|m IH]; intros k; [reflexivity|]. cbn [seq flat_map]. rewrite app_length, map_length, IH. reflexivity. }
  assert (FN : forall (l : list nd) m i j k, (i < m)%nat -> (j < length l)%nat -> nth (i * length l + j) (flat_map (fun i => map (fun b => nth i (data b) 0) l) (seq k m)) 0 = nth (k + i) (data (nth j l {| shape := []; data := [] |})) 0).
  { intros l m. induction m as [|m IH]; intros i j k Hi Hj; [lia|]. cbn [seq flat_map]. destruct i as [|i].
    - cbn [Nat.mul Nat.add]. rewrite app_nth1 by (rewrite map_length; exact Hj). rewrite (nth_indep _ 0 (nth k (data {| shape := []; data := [] |}) 0)) by (rewrite map_length; exact Hj).
      rewrite (map_nth (fun b => nth k (data b) 0)). f_equal. lia.
    - rewrite app_nth2 by (rewrite map_length; cbn [Nat.mul]; lia). rewrite map_length. replace (S i * length l + j - length l)%nat with (i * length l + j)%nat by (cbn [Nat.mul]; lia). rewrite IH by lia. f_equal. lia. }
  assert (EN : forall (l : list nd) j i, l <> [] -> (forall k, In k l -> length (data k) = n) -> (i < n)%nat -> (j < length l)%nat -> entry (pack stack l) j i = nth i (data (nth j l {| shape := []; data := [] |})) 0).
  { intros l j i NE Hl Hi Hj. destruct stack; [|reflexivity]. cbn [pack entry]. destruct l as [|a l']; [contradiction|]. cbn [stack_last shape data]. rewrite last_last, Hl by (left; reflexivity). rewrite FN by assumption. reflexivity. }
  assert (LT : length (data T) = n) by (unfold T; cbn [data]; rewrite map_length, seq_length; reflexivity). assert (LF : length (data F0) = n) by (unfold F0; cbn [data]; rewrite map_length, seq_length; reflexivity).
  assert (LZ : length (data (nmap cos T)) = n) by (unfold nmap; cbn [data]; rewrite map_length; exact LT).
  split.
  - destruct stack; cbn [pack to_cart].
    + do 2 eexists. split; [reflexivity|]. split; [reflexivity|]. split; [reflexivity|]. split; [reflexivity|]. cbn [stack_last data]. rewrite LT. fold (data (nmap2 Rmult (nmap sin T) (nmap cos F0))). rewrite LX, !FL. split; reflexivity.
    + do 5 eexists. split; [reflexivity|]. split; [reflexivity|]. intros k [<-|[<-|[<-|[<-|[<-|[]]]]]]; (split; [reflexivity|]); auto.
  - intros i Hi. assert (P2 : forall k, In k [T; F0] -> length (data k) = n) by (intros k [<-|[<-|[]]]; assumption).
    assert (Q2 : forall k, In k [nmap2 Rmult (nmap sin T) (nmap cos F0); nmap2 Rmult (nmap sin T) (nmap sin F0); nmap cos T] -> length (data k) = n) by (intros k [<-|[<-|[<-|[]]]]; auto).
    unfold to_cart. rewrite !(EN [T; F0]) by (try discriminate; try assumption; cbn [length]; lia). rewrite !(EN [nmap2 Rmult (nmap sin T) (nmap cos F0); nmap2 Rmult (nmap sin T) (nmap sin F0); nmap cos T]) by (try discriminate; try assumption; cbn [length]; lia).
    cbn [nth]. rewrite !NX, NZ by exact Hi. replace (nth i (data T) 0) with (acos (c i)) by (unfold T; cbn [data]; rewrite nth_map_seq by exact Hi; reflexivity). replace (nth i (data F0) 0) with (phi i) by (unfold F0; cbn [data]; rewrite nth_map_seq by exact Hi; reflexivity).
    pose proof (C i) as Ci. pose proof (acos_bound (c i)) as AB. split; [exact Ci|]. split; [apply AC|]. split.
    { split; [|lra]. destruct (Rle_lt_or_eq_dec 0 (acos (c i)) (proj1 AB)) as [|E0]; [assumption|]. pose proof (AC i) as K. rewrite <- E0, cos_0 in K. lra. }
    split; [reflexivity|]. split; [apply F|]. split; [apply AC|]. split; [rewrite S2; reflexivity|]. split; [rewrite S2; reflexivity|]. split; [|reflexivity].
    rewrite AC, S2. assert (SQ : sqrt (1 - c i ^ 2) ^ 2 = 1 - c i ^ 2) by (apply pow2_sqrt; assert (0 <= (1 - c i) * (1 + c i)) by (apply Rmult_le_pos; lra); lra).
    rewrite !Rpow_mult_distr, SQ. pose proof (sin2_cos2 (phi i)) as SC. unfold Rsqr in SC. replace ((1 - c i ^ 2) * cos (phi i) ^ 2 + (1 - c i ^ 2) * sin (phi i) ^ 2 + c i ^ 2) with ((1 - c i ^ 2) * (sin (phi i) * sin (phi i) + cos (phi i) * cos (phi i)) + c i ^ 2) by ring. rewrite SC. ring.
Qed.
Print Assumptions C76_sphere.

(** Every direction but the north pole is the image of one pair of draws, if the source can give all unit numbers: *)
Theorem C76_sphere_covers : forall x y z, x ^ 2 + y ^ 2 + z ^ 2 = 1 -> z <> 1 -> exists c phi, -1 <= c < 1 /\ 0 <= phi < 2 * PI /\
  z = c /\ x = sqrt (1 - c ^ 2) * cos phi /\ y = sqrt (1 - c ^ 2) * sin phi.
Proof.
  intros x y z E N. assert (Z : -1 <= z < 1). { assert (0 <= x ^ 2) by apply pow2_ge_0. assert (0 <= y ^ 2) by apply pow2_ge_0. assert (z ^ 2 <= 1) by lra. assert (-1 <= z <= 1) by (split; apply Rnot_lt_le; intros L; [assert (0 < (-1 - z) * (1 - z)) by (apply Rmult_lt_0_compat; lra); lra|assert (0 < (z - 1) * (z + 1)) by (apply Rmult_lt_0_compat; lra); lra]). lra. }
  exists z. pose proof PI_RGT_0 as P. destruct (Req_dec z (-1)) as [->|N1].
  - exists 0. assert (x = 0 /\ y = 0) as [-> ->]. { assert (0 <= x ^ 2) by apply pow2_ge_0. assert (0 <= y ^ 2) by apply pow2_ge_0. split; apply Rsqr_0_uniq; unfold Rsqr; lra. }
    replace (1 - (-1) ^ 2) with 0 by ring. rewrite sqrt_0. repeat split; lra.
  - set (r := sqrt (1 - z ^ 2)). assert (R1 : 0 < 1 - z ^ 2) by (assert (0 < (1 - z) * (1 + z)) by (apply Rmult_lt_0_compat; lra); lra). assert (R0 : 0 < r) by (apply sqrt_lt_R0, R1). assert (R2 : r ^ 2 = 1 - z ^ 2) by (apply pow2_sqrt; lra).
    set (u := x / r). set (v := y / r). assert (UV : u ^ 2 + v ^ 2 = 1). { unfold u, v. replace ((x / r) ^ 2 + (y / r) ^ 2) with ((x ^ 2 + y ^ 2) / r ^ 2) by (field; lra). rewrite R2. replace (x ^ 2 + y ^ 2) with (1 - z ^ 2) by lra. field. lra. }
    assert (U : -1 <= u <= 1). { assert (0 <= v ^ 2) by apply pow2_ge_0. split; apply Rnot_lt_le; intros L; [assert (0 < (-1 - u) * (1 - u)) by (apply Rmult_lt_0_compat; lra); lra|assert (0 < (u - 1) * (u + 1)) by (apply Rmult_lt_0_compat; lra); lra]. }
    assert (SV : sin (acos u) = Rabs v). { rewrite sin_acos by exact U. replace (1 - Rsqr u) with (Rsqr v) by (unfold Rsqr; lra). apply sqrt_Rsqr_abs. }
    pose proof (acos_bound u) as AB. assert (X : x = r * u) by (unfold u; field; lra). assert (Y : y = r * v) by (unfold v; field; lra).
    destruct (Rle_lt_dec 0 v) as [V|V].
    + exists (acos u). rewrite SV, cos_acos, Rabs_pos_eq by assumption. repeat split; try assumption; lra.
    + exists (2 * PI - acos u). assert (A0 : acos u <> 0). { intros A0. rewrite A0, sin_0 in SV. symmetry in SV. apply Rabs_no_R0 in SV; lra. }
      assert (CS : cos (2 * PI - acos u) = u /\ sin (2 * PI - acos u) = v).
      { replace (2 * PI - acos u) with (- acos u + 2 * INR 1 * PI) by (cbn [INR]; lra). rewrite cos_period, sin_period, cos_neg, sin_neg, SV, cos_acos by exact U. rewrite Rabs_left by exact V. split; ring. }
      destruct CS as [-> ->]. repeat split; try assumption; lra.
Qed.
Print Assumptions C76_sphere_covers.

(** uniform_circle: unit vectors at the drawn angles in [0, 2 pi). *)
Theorem C76_circle : forall St (g : source St) size s, proper g -> let n := count size in let th i := 2 * PI * unit_of (draw (bits53 g) i s) in
  (forall i, 0 <= th i < 2 * PI) /\ (forall stack, g_circle g size stack false s = (Arr {| shape := dims size; data := map th (seq 0 n) |}, after (bits53 g) n s)) /\
  (exists x y, g_circle g size false true s = (Tup [x; y], after (bits53 g) n s) /\ shape x = dims size /\ shape y = dims size /\ length (data x) = n /\ length (data y) = n /\
     forall i, (i < n)%nat -> nth i (data x) 0 = cos (th i) /\ nth i (data y) 0 = sin (th i)) /\
  (exists a, g_circle g size true true s = (Arr a, after (bits53 g) n s) /\ shape a = dims size ++ [2%nat] /\ data a = flat_map (fun i => unit_vec_to_cart_2d (th i)) (seq 0 n)).
Proof.
  intros St g size s P n th. assert (E : map (fun i => 0 + (2 * PI - 0) * unit_of (draw (bits53 g) i s)) (seq 0 n) = map th (seq 0 n)) by (apply map_ext; intros i; unfold th; ring). split; [|split; [|split]].
  - intros i. unfold th. pose proof (unit_range _ (P (after (bits53 g) i s))) as U. fold (draw (bits53 g) i s) in U. pose proof PI_RGT_0. split; [apply Rmult_le_pos; lra|]. rewrite <- (Rmult_1_r (2 * PI)) at 2. apply Rmult_lt_compat_l; lra.
  - intros stack. unfold g_circle. rewrite uniform_is. fold n. rewrite E. reflexivity.
  - unfold g_circle. rewrite uniform_is. fold n. rewrite E. unfold to_cart_2d, nmap. cbn [pack shape data]. do 2 eexists. split; [reflexivity|]. cbn [shape data]. rewrite !map_length, seq_length. do 4 (split; [reflexivity|]). intros i Hi. rewrite !map_map, !nth_map_seq by exact Hi. split; reflexivity.
  - unfold g_circle. rewrite uniform_is. fold n. rewrite E. unfold to_cart_2d, nmap. cbn [pack stack_last shape data]. eexists. split; [reflexivity|]. split; [reflexivity|]. cbn [data]. rewrite !map_length, seq_length, !map_map.
    rewrite !flat_map_concat_map. f_equal. apply map_ext_in. intros i Hi. apply in_seq in Hi. cbn [map data]. unfold unit_vec_to_cart_2d. rewrite ?map_map, !nth_map_seq by lia. reflexivity.
Qed.
Print Assumptions C76_circle.

(** The numba class draws the same points as Rng from the same generator. *)
Theorem C76_jit : forall St (g : source St) size s,
  (let '(l, s1) := j_sphere_cart g size s in (Tup l, s1)) = g_sphere g size false true s /\
  (let '(a, b, s1) := j_sphere_polar g size s in (Tup [a; b], s1)) = g_sphere g size false false s.
Proof.
  intros St g size s. unfold j_sphere_cart, j_sphere_polar, g_sphere. destruct (g_uniform g (-1) 1 size s) as [ct s1]. destruct (g_uniform g 0 (2 * PI) size s1) as [ph s2]. split; reflexivity.
Qed.
Print Assumptions C76_jit.

(** ** Batches *)
Definition len (n : nat) : size_arg := Some [n].
Lemma count_len n : count (len n) = n. Proof. unfold count, len. cbn. lia. Qed.
(** Drawing a + b numbers at once is drawing a and then b numbers, for uniform, normal and circle angles. *)
Theorem C76_batches : forall St (g : source St) a b s, 
  (forall lo hi, let '(x, s1) := g_uniform g lo hi (len a) s in let '(y, s2) := g_uniform g lo hi (len b) s1 in g_uniform g lo hi (len (a + b)) s = ({| shape := [(a + b)%nat]; data := data x ++ data y |}, s2)) /\
  (forall lo sc, let '(x, s1) := g_normal g lo sc (len a) s in let '(y, s2) := g_normal g lo sc (len b) s1 in g_normal g lo sc (len (a + b)) s = ({| shape := [(a + b)%nat]; data := data x ++ data y |}, s2)).
Proof.
  intros St g a b s. assert (SQ : seq 0 (a + b) = seq 0 a ++ map (fun i => a + i)%nat (seq 0 b)).
  { rewrite seq_app. f_equal. cbn [Nat.add]. clear. induction a as [|a IH]; [rewrite <- (map_id (seq 0 b)) at 1; reflexivity|]. rewrite <- seq_shift, IH, map_map. reflexivity. }
  split; intros lo hi.
  - rewrite !uniform_is. rewrite !count_len, after_add. cbn [data dims len]. f_equal. f_equal. rewrite SQ, map_app, map_map. f_equal. apply map_ext. intros i. rewrite draw_add. reflexivity.
  - unfold g_normal. rewrite !draws_is. rewrite !count_len, after_add. cbn [data dims len]. f_equal. f_equal. rewrite <- map_app, SQ, map_app, map_map. f_equal. f_equal. apply map_ext. intros i. apply draw_add.
Qed.
Print Assumptions C76_batches.

(** Points on the sphere are different: a batch draws all cosines before the azimuths, so n points at once are not n points one
    after the other. *)
Theorem C76_sphere_batches_refuted : exists (g : source nat) s, proper g /\
  let '(p, _) := g_sphere g (len 2) true true s in let '(_, s1) := g_sphere g (len 1) true true s in let '(q, _) := g_sphere g (len 1) true true s1 in entry p 2 1 <> entry q 2 0.
Proof.
  set (g := {| seeded := Z.to_nat; bits53 := fun k => ((if Nat.eqb k 2 then 2 ^ 52 else 0)%Z, S k); std_normal := fun k => (0, S k) |}).
  assert (P : proper g). { intros k. cbn [bits53 g fst]. destruct (Nat.eqb k 2); lia. }
  exists g, 0%nat. split; [exact P|].
  destruct (C76_sphere nat g (len 2) 0%nat true P) as (p2 & q2 & _ & E2 & _ & H2). destruct (C76_sphere nat g (len 1) 0%nat true P) as (p1 & q1 & _ & E1 & _ & _).
  rewrite E2, E1. destruct (C76_sphere nat g (len 1) (after (bits53 g) (2 * count (len 1)) 0%nat) true P) as (p3 & q3 & _ & E3 & _ & H3). rewrite E3.
  destruct (H2 1%nat) as (_ & _ & _ & _ & _ & Z2 & _); [rewrite count_len; lia|]. destruct (H3 0%nat) as (_ & _ & _ & _ & _ & Z3 & _); [rewrite count_len; lia|]. rewrite Z2, Z3, !count_len.
  unfold draw. cbn [after bits53 g snd fst Nat.eqb Nat.mul Nat.add]. unfold unit_of. assert (0 < IZR (2 ^ 52) / 2 ^ 53) by (apply Rdiv_lt_0_compat; [apply IZR_lt; reflexivity|apply pow_lt; lra]). lra.
Qed.
Print Assumptions C76_sphere_batches_refuted.

(** Non-vacuity: a proper source; a program in which two objects share a generator and a third does not. *)
Example C76_case : let g := {| seeded := fun z => z; bits53 := fun k => (k mod 2 ^ 53, k + 1)%Z; std_normal := fun k => (0, (k + 1)%Z) |} in
  proper g /\ let w := Build_rstate [] [] in
  map (fun e => fst (fst e)) (snd (acts g w [Make (SInt 5); Make (SRng 0); Make SOther; Make (SInt 5); Call 0 (KRandom None); Call 1 (KRandom None); Call 2 (KRandom None); Call 7 (KRandom None)])) = [0; 0; 1]%nat.
Proof. intros g. split; [intros s; cbn; apply Z.mod_pos_bound; lia|reflexivity]. Qed.
