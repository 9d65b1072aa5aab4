(** C88: the compiled kernels stay inside their arrays, whatever the numbers are. *)
From Coq Require Import ZArith Lia List.
From Verif Require Import Base RawModel RawSpec RawProofs.
From Verif Require InterpModel.
Import ListNotations.
Local Open Scope list_scope. Local Open Scope nat_scope.

(** bisearch: for any array (sorted or not), any key and any comparison (NaN included) nothing outside the array is read, the result
    is an index from -1 to n-1, it is the one of the model with checked accesses, and at most ceil(log2 n) rounds are made. *)
Theorem C88_bisearch : forall (T : Type) (lt : T -> T -> bool) (xs : list T) (q : T),
  (xs = [] -> bisearch lt xs q = Raise AssertionError) /\
  (xs <> [] -> exists i rounds, bisearch lt xs q = Fine (i, rounds) /\ (-1 <= i < Z.of_nat (length xs))%Z /\
     (forall b, length xs <= 2 ^ b -> rounds <= b) /\ InterpModel.bisearch lt xs q = Ok i).
Proof.
  intros T lt xs q. split; [now intros ->|]. intro H. destruct (bisearch_ok lt xs q H) as ((i, k) & E & Hi & Hk).
  exists i, k. repeat split; try assumption; try lia. assert (A := bisearch_agree lt xs q). now rewrite E in A.
Qed.
Print Assumptions C88_bisearch.

(** bisearch_nearest and bisearch_nearest_array: an index of the array; every element of the returned array has been written. *)
Theorem C88_nearest : forall (T : Type) (F : farith T) (xs qs : list T), xs <> [] ->
  (forall q, exists i, bisearch_nearest F xs q = Fine i /\ (0 <= i < Z.of_nat (length xs))%Z) /\
  (exists l, bisearch_nearest_array F xs qs = Fine (map Some l) /\ length l = length qs /\
     forall i v, nth_error l i = Some v -> exists q, nth_error qs i = Some q /\ bisearch_nearest F xs q = Fine v).
Proof.
  intros T F xs qs H. split.
  - intro q. destruct (nearest_ok F xs q H) as (i & E & Hi). eauto.
  - destruct (nearest_array_ok F xs qs H) as (idx & E & l & -> & Hl & Hv). eauto.
Qed.
Print Assumptions C88_nearest.

(** bisearch_interp, bisearch_interp_fix_oob: fine whenever there are at least as many ordinates as abscissae. *)
Theorem C88_interp : forall (T : Type) (F : farith T) (xs ys : list T) (q yl yr : T), xs <> [] -> length xs <= length ys ->
  (exists v, interp F xs ys q = Fine v) /\ (exists v, interp_fix_oob F xs ys q yl yr = Fine v) /\
  (exists l r wl w_r, interp_weight F xs q = Fine (l, r, wl, w_r) /\ (0 <= l <= r)%Z /\ (r <= l + 1)%Z /\ (r < Z.of_nat (length xs))%Z).
Proof.
  intros T F xs ys q yl yr H Hy. destruct (interp_ok F xs ys q H Hy) as (v & Ev & _). destruct (fix_oob_ok F xs ys q yl yr H Hy) as (w & Ew & _).
  split; [eauto|]. split; [eauto|]. destruct (bisearch_ok (f_lt F) xs q H) as ((i, k) & E & Hi & _). unfold interp_weight. rewrite E. cbn [andthen].
  assert (Hn : 0 < length xs) by (destruct xs; cbn; [congruence|lia]).
  destruct (Z.ltb_spec i 0); [exists 0%Z, 0%Z, (f_zero F), (f_one F); repeat split; lia|].
  destruct (Z.ltb_spec (Z.of_nat (length xs) - 1) (i + 1)); [exists (Z.of_nat (length xs) - 1)%Z, (Z.of_nat (length xs) - 1)%Z, (f_one F), (f_zero F); repeat split; lia|].
  destruct (rd_in xs i ltac:(lia)) as (xl & -> & _). cbn [andthen]. destruct (rd_in xs (i + 1)%Z ltac:(lia)) as (xr & -> & _). cbn [andthen].
  do 4 eexists. split; [reflexivity|]. lia.
Qed.
Print Assumptions C88_interp.

(** bisearch_interp_2d: fine whenever the table is at least as large as the two axes. *)
Theorem C88_interp_2d : forall (T : Type) (F : farith T) (xs1 xs2 : list T) (y : arr3 T) (q1 q2 : T), xs1 <> [] -> xs2 <> [] -> shaped y ->
  length xs1 <= d0 y -> length xs2 <= d1 y -> d2 y = 1 -> exists v, interp_2d F xs1 xs2 y q1 q2 = Fine v.
Proof. intros T F xs1 xs2 y q1 q2 H1 H2 Hs H3 H4 H5. destruct (interp_2d_ok F xs1 xs2 y q1 q2 H1 H2 Hs H3 H4 H5) as (v & E & _). eauto. Qed.
Print Assumptions C88_interp_2d.

(** The integers, as an element type for examples. *)
Definition zarith : farith Z := {| f_add := Z.add; f_sub := Z.sub; f_mul := Z.mul; f_div := Z.div; f_lt := Z.ltb; f_zero := 0%Z; f_one := 1%Z; f_floor := fun x => x; f_int := fun x => x |}.

(** Without these conditions, which nothing checks, memory outside the arrays is read: fewer ordinates than abscissae; no abscissae
    (bisearch_interp_fix_oob reads the first one before bisearch asserts that there is one); a table smaller than its axes. *)
Theorem C88_interp_refuted : interp zarith [0; 1; 2]%Z [5; 6]%Z 2%Z = OutOfBounds /\ interp_fix_oob zarith [] [] 0%Z 1%Z 2%Z = OutOfBounds /\
  interp zarith [] [] 0%Z = Raise AssertionError /\
  interp_2d zarith [0; 1]%Z [0; 1; 2]%Z {| d0 := 2; d1 := 2; d2 := 1; cell_list := [1; 2; 3; 4]%Z |} 0%Z 2%Z = OutOfBounds.
Proof. repeat split. Qed.
Print Assumptions C88_interp_refuted.

(** Linear: once the constructor with its default check accepts the nodes, value_at works for every x, and derivative() writes every ordinate,
    the slope across the neighbours (one-sided at the two ends), so that the result can be evaluated everywhere too. *)
Theorem C88_linear : forall (T : Type) (F : farith T) (distinct : list T -> bool) (xs ys : list T) (s : list T * list T),
  linear_new distinct xs ys true = Fine s ->
  s = (xs, ys) /\ 2 <= length xs /\ length ys = length xs /\ distinct xs = true /\
  (forall x, exists v, interp F (fst s) (snd s) x = Fine v) /\
  (exists ds, derivative F s = Fine (map Some ds) /\ length ds = length xs /\
    (forall x, exists v, interp F xs ds x = Fine v) /\
    forall i v, nth_error ds i = Some v -> exists xa xb ya yb,
      let a := if Nat.eqb i 0 then 0 else i - 1 in let b := if Nat.eqb i 0 then 1 else if Nat.eqb (i + 1) (length xs) then i else i + 1 in
      nth_error xs a = Some xa /\ nth_error xs b = Some xb /\ nth_error ys a = Some ya /\ nth_error ys b = Some yb /\
      v = f_div F (f_sub F yb ya) (f_sub F xb xa)).
Proof.
  intros T F distinct xs ys s H. unfold linear_new in H. cbn [andb] in H.
  destruct (Nat.eqb_spec (length ys) (length xs)) as [Hy|]; [|discriminate]. cbn [andb] in H. destruct (distinct xs) eqn:Hd; [|discriminate]. cbn [negb] in H.
  destruct (Nat.leb_spec 2 (length xs)) as [Hn|]; [|discriminate]. injection H as <-. cbn [fst snd].
  assert (Hne : xs <> []) by (intros ->; cbn in Hn; lia).
  split; [reflexivity|]. split; [assumption|]. split; [assumption|]. split; [reflexivity|].
  split; [intro x; destruct (interp_ok F xs ys x Hne ltac:(lia)) as (v & E & _); eauto|].
  destruct (derivative_ok F xs ys Hn Hy) as (out & E & l & -> & Hl & Hv). exists l. split; [assumption|]. split; [assumption|].
  split; [intro x; destruct (interp_ok F xs l x Hne ltac:(lia)) as (v & E' & _); eauto|].
  intros i v Hi. assert (Hin : i < length xs) by (rewrite <- Hl; apply nth_error_Some; congruence).
  destruct (Hv i v Hi) as (a & b & xa & xb & ya & yb & Hab & _ & _ & H1 & H2 & H3 & H4 & Ha & Hb & Hc & ->). exists xa, xb, ya, yb.
  destruct (Nat.eqb_spec i 0) as [Hz|Hz].
  - destruct (Ha Hz) as (-> & ->). auto.
  - destruct (Nat.eqb_spec (i + 1) (length xs)) as [Hz'|Hz'].
    + destruct (Hb Hz') as (-> & Ha'). replace (i - 1) with a by lia. auto.
    + destruct (Hc ltac:(lia) ltac:(lia)) as (Ha' & ->). replace (i - 1) with a by lia. auto.
Qed.
Print Assumptions C88_linear.

(** With check=False (the path derivative() itself takes) a shorter y is accepted: value_at then reads, and derivative() reads and
    writes, outside the arrays. *)
Theorem C88_linear_refuted : exists s, linear_new (fun _ => true) [0; 1; 2]%Z [5]%Z false = Fine s /\
  interp zarith (fst s) (snd s) 1%Z = OutOfBounds /\ derivative zarith s = OutOfBounds.
Proof. eexists. repeat split. Qed.
Print Assumptions C88_linear_refuted.

(** Histogram.add: bin numbers of any size and sign are dealt with inside the array; every bin gets exactly the weights with its number,
    one after the other; a wrong number of weights is refused before anything is written. *)
Theorem C88_histogram : forall (T : Type) (F : farith T) (ids : list Z) (ws data : list T),
  (exists out, add_unweighted F ids data = Fine out /\ deposited F ids (repeat (f_one F) (length ids)) data out) /\
  (length ids = length ws -> exists out, add_weighted F ids ws data = Fine out /\ deposited F ids ws data out) /\
  (length ids <> length ws -> add_weighted F ids ws data = Raise AssertionError).
Proof.
  intros T F ids ws data. split; [exact (unweighted_ok F ids data)|]. split; [exact (weighted_ok F ids ws data)|].
  intro H. unfold add_weighted. destruct (Nat.eqb_spec (length ids) (length ws)); [contradiction|reflexivity].
Qed.
Print Assumptions C88_histogram.
Example C88_histogram_ex : add_weighted zarith [1; -1; 3; 1; 7]%Z [10; 20; 30; 40; 50]%Z [0; 0; 0]%Z = Fine [0; 50; 0]%Z.
Proof. reflexivity. Qed.

(** DensityField: for any number of cells the constructor gives an n x n x n array of zeros or refuses; whatever batches of positions (of any
    values, NaN and infinity included) have been added, the next one is added inside the array or refused by an assertion. *)
Theorem C88_density : forall (T : Type) (F : farith T) (n : Z) (h : T),
  (n = 0%Z -> df_new F n = Raise ZeroDivisionError) /\ ((n < 0)%Z -> df_new F n = Raise ValueError) /\
  ((0 < n)%Z -> exists d, df_new F n = Fine d /\ cube n d /\ forall v, In v (cell_list d) -> v = f_zero F) /\
  (forall d, density F n h d -> cube n d /\
    forall ncols xs ws, Forall (fun x => length x = ncols) xs ->
      (ncols = 3 /\ (forall w, ws = Some w -> length xs = length w) -> exists d', df_add F n h d ncols xs ws = Fine d' /\ cube n d') /\
      (~ (ncols = 3 /\ (forall w, ws = Some w -> length xs = length w)) -> df_add F n h d ncols xs ws = Raise AssertionError)).
Proof.
  intros T F n h.
  assert (K : forall d, density F n h d -> cube n d).
  { intros d Hd. induction Hd as [d Hd|d ncols xs ws d' Hd IH Hx Ha].
    - destruct (df_new_ok F n) as [(_ & E)|[(_ & E)|(_ & d' & E & Hc & _)]]; rewrite E in Hd; congruence.
    - destruct (df_add_ok F n h d ncols xs ws IH Hx) as [(E & _)|(_ & _ & d'' & E & Hc)]; rewrite E in Ha; congruence. }
  split; [intros ->; reflexivity|]. split; [|split].
  - intro Hn. destruct (df_new_ok F n) as [(Hz & _)|[(_ & E)|(Hp & _)]]; [lia|assumption|lia].
  - intro Hn. destruct (df_new_ok F n) as [(Hz & _)|[(Hz & _)|(_ & d & E & Hc)]]; [lia|lia|]. eauto.
  - intros d Hd. apply K in Hd. split; [assumption|]. intros ncols xs ws Hx.
    destruct (df_add_ok F n h d ncols xs ws Hd Hx) as [(E & Hw)|(H3 & Hw & d' & E & Hc)].
    + split; [|auto]. intros (Hn & Hw'). exfalso. destruct Hw as [Hw|(w & Ew & Hw)]; [auto|]. apply Hw. now apply Hw'.
    + split; [eauto|]. intro Hno. exfalso. auto.
Qed.
Print Assumptions C88_density.
Example C88_density_ex : exists d, density zarith 2 1%Z d /\ cell_list d = [1; 0; 0; 0; 0; 0; 0; 5]%Z.
Proof.
  eexists. split; [|shelve]. eapply density_add with (ncols := 3) (xs := [[0; -2; 4]; [1; 3; 5]]%Z) (ws := Some [1; 5]%Z).
  - apply density_new. reflexivity.
  - repeat constructor.
  - vm_compute. reflexivity.
  Unshelve. reflexivity.
Qed.

(** Fields and classifiers: what the constructors accept has the size of the mesh, so interpolation (value_at) and the lookup of the nearest cell
    (web_type_at, lam_at) stay inside for all positions, and every element returned has been written. *)
Theorem C88_lookup : forall (T A : Type) (F : farith T) (n n' : Z) (h half : T) (d d' : arr3 T) (lam lam' : arr3 A) (last sorted : bool) (xs : list (list T)),
  mesh_new n = Fine n' -> shaped d -> shaped lam -> Forall (fun x => length x = 3) xs ->
  (field_new n' d = Fine d' -> d' = d /\ cube n d /\ exists out, value_at F n h d' 3 xs = Fine (map Some out) /\ length out = length xs) /\
  (classifier_new n' lam last sorted = Fine lam' -> lam' = lam /\ cube n lam /\
     exists out, cell_at F n h half lam' 3 xs = Fine (map Some out) /\ length out = length xs /\ forall v, In v out -> In v (cell_list lam)) /\
  (forall ncols, ncols <> 3 -> value_at F n h d ncols xs = Raise AssertionError /\ cell_at F n h half lam ncols xs = Raise AssertionError).
Proof.
  intros T A F n n' h half d d' lam lam' last sorted xs Hm Hd Hlam Hx. unfold mesh_new in Hm. destruct (Z.eqb_spec n 0); [discriminate|]. injection Hm as <-.
  split; [|split].
  - intro Hf. destruct (field_new_ok n d) as [(E & _)|(E & Hc)]; try assumption; rewrite E in Hf; [discriminate|]. injection Hf as <-.
    split; [reflexivity|]. split; [assumption|]. destruct (value_at_ok F n h d 3 xs Hc Hx eq_refl) as (out & Eo & l & -> & Hl). eauto.
  - intro Hc. unfold classifier_new in Hc. destruct last; [|discriminate].
    destruct (Z.eqb_spec n (Z.of_nat (d0 lam))); [|discriminate]. destruct (Z.eqb_spec n (Z.of_nat (d1 lam))); [|discriminate].
    destruct (Z.eqb_spec n (Z.of_nat (d2 lam))); [|discriminate]. destruct sorted; [|discriminate]. cbn [andb] in Hc. injection Hc as <-.
    assert (Hcu : cube n lam) by (split; [assumption|lia]). split; [reflexivity|]. split; [assumption|].
    destruct (cell_at_ok F n h half lam 3 xs Hcu Hx eq_refl) as (out & Eo & l & -> & Hl & Hin). eauto.
  - intros ncols Hn. unfold value_at, cell_at. destruct (Nat.eqb_spec ncols 3); [contradiction|]. auto.
Qed.
Print Assumptions C88_lookup.
Example C88_lookup_ex : cell_at zarith 2 1%Z 0%Z {| d0 := 2; d1 := 2; d2 := 2; cell_list := [10; 11; 12; 13; 14; 15; 16; 17]%Z |} 3 [[-1; 2; 3]; [0; 1; 0]]%Z = Fine [Some 15; Some 12]%Z
  /\ value_at zarith 2 1%Z {| d0 := 2; d1 := 2; d2 := 2; cell_list := [10; 11; 12; 13; 14; 15; 16; 17]%Z |} 3 [[-1; 2; 3]]%Z = Fine [Some 15]%Z.
Proof. split; reflexivity. Qed.

(** The kd mesh: building it from points of any values succeeds, the offsets are non-decreasing and none exceeds the number of points, and walking
    through any block of cells (beyond the box in any direction) reads the offsets inside their array and hands out slices of the points. *)
Theorem C88_kd_mesh : forall (T : Type) (F : farith T) (n : Z) (h : T) (argsort : list Z -> list Z) (xs : list (list T)),
  (0 < n)%Z -> Forall (fun x => length x = 3) xs -> indices argsort ->
  exists xs' firsts, meshing F n h argsort xs = Fine (xs', firsts) /\ length xs' = length xs /\ offsets n (length xs') firsts /\
    forall lb ub, exists slices, visit n firsts lb ub = Fine slices /\ Forall (fun '(b, e) => (0 <= b <= e)%Z /\ (e <= Z.of_nat (length xs'))%Z) slices.
Proof.
  intros T F n h argsort xs Hn Hx Ha. destruct (meshing_ok F n h argsort xs Hn Hx Ha) as ((xs', firsts) & E & Hl & Ho).
  exists xs', firsts. split; [assumption|]. split; [assumption|]. split; [assumption|]. intros lb ub. exact (visit_ok n (length xs') firsts lb ub Hn Ho).
Qed.
Print Assumptions C88_kd_mesh.

(** n_grids = -1 passes every check (the array of offsets is empty, as (-1)^3 + 1 says), and the first query reads outside it. *)
Theorem C88_kd_mesh_refuted : mesh_new (-1) = Fine (-1)%Z /\ exists xs' firsts,
  meshing zarith (-1) 1%Z (fun l => l) [] = Fine (xs', firsts) /\ visit (-1) firsts (0, 0, 0)%Z (1, 1, 1)%Z = OutOfBounds.
Proof. split; [reflexivity|]. exists [], []. split; reflexivity. Qed.
Print Assumptions C88_kd_mesh_refuted.

(** The loops over the Fourier modes (_smooth, _solve_grav, _find_tidal_ij): an array of the shape of a real transform is processed inside its bounds, every element of the result is
    written, once, with the image of the element at the same place, computed from the mode numbers i (or i - N beyond N // 2), i and 0..N//2;
    an array of another shape is refused. *)
Theorem C88_modes : forall (A B : Type) (N : nat) (f : Z -> Z -> Z -> A -> B) (d : arr3 A), shaped d ->
  (d0 d = N /\ d1 d = N /\ d2 d = N / 2 + 1 -> exists out, over_modes N f d = Fine out /\ same_dims out d /\ shaped out /\
     forall i0 i1 i2, i0 < N -> i1 < N -> i2 < N / 2 + 1 -> exists v,
       nth_error (cell_list d) ((i0 * N + i1) * (N / 2 + 1) + i2) = Some v /\
       nth_error (cell_list out) ((i0 * N + i1) * (N / 2 + 1) + i2) = Some (Some (f (mode_of N i0) (mode_of N i1) (Z.of_nat i2) v))) /\
  (~ (d0 d = N /\ d1 d = N /\ d2 d = N / 2 + 1) -> over_modes N f d = Raise AssertionError).
Proof.
  intros A B N f d Hs. split.
  - intros (H0 & H1 & H2). destruct (modes_ok N f d Hs H0 H1 H2) as (out & E & Hd & Hl & Hf). exists out. split; [assumption|]. split; [assumption|].
    split; [unfold shaped in *; destruct Hd as (-> & -> & ->); congruence|]. intros i0 i1 i2 Hi0 Hi1 Hi2.
    assert (Hp := pos_lt i0 i1 i2 N N (N / 2 + 1) Hi0 Hi1 Hi2).
    destruct (nth_error (cell_list d) ((i0 * N + i1) * (N / 2 + 1) + i2)) as [v|] eqn:Ev.
    + exists v. split; [reflexivity|]. apply Hf; assumption.
    + apply nth_error_None in Ev. rewrite Hs, H0, H1, H2 in Ev. lia.
  - intro H. unfold over_modes. destruct (Nat.eqb_spec (d0 d) N), (Nat.eqb_spec (d1 d) N), (Nat.eqb_spec (d2 d) (N / 2 + 1)); cbn [andb negb]; try reflexivity. tauto.
Qed.
Print Assumptions C88_modes.
Example C88_modes_ex : match over_modes 3 (fun a b c v => (a, b, c, v)) {| d0 := 3; d1 := 3; d2 := 2; cell_list := map Z.of_nat (seq 0 18) |} with
  Fine out => nth_error (cell_list out) 15 | _ => None end = Some (Some (-1, 1, 1, 15))%Z.
Proof. vm_compute. reflexivity. Qed.
