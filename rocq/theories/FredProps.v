(** Property theorems C89: Sum, Mean and StdDev in double precision. *)
From Coq Require Import ZArith Reals Lra Lia List Permutation.
Require Import Flocq.Core.Core Flocq.IEEE754.BinarySingleNaN.
From Verif Require Import Base ProcFloat InterpFloatProofs MeshFloatProofs BinFloatProofs FredModel FredSpec FredProofs FredProofs2 FredProofs3 FredProofs4.
Import ListNotations. Local Open Scope list_scope. Local Open Scope R_scope.

(** In whatever order and grouping numbers are added, with at most d additions on each: a finite result whose error is at most d times 2^-52 of
    the sum of the magnitudes. *)
Theorem C89_any_order d l s : sums d l s -> finite l -> INR d * eps <= 1 -> size l <= bpow radix2 1022 ->
  fin s = true /\ Rabs (val s - exact l) <= INR d * eps * size l.
Proof. exact (sums_bound d l s). Qed.
Print Assumptions C89_any_order.
(** ... hence two ways of adding the same numbers (an array and its rearrangement) differ by at most twice that. *)
Theorem C89_reordering d l l' s s' : sums d l s -> sums d l' s' -> Permutation l l' -> finite l -> INR d * eps <= 1 -> size l <= bpow radix2 1022 ->
  Rabs (val s - val s') <= 2 * INR d * eps * size l.
Proof.
  intros H H' P F Hd Z. destruct (sums_bound d l s H F Hd Z) as [_ E]. apply Permutation_sym in P. destruct (sums_bound d l s' (sums_order _ _ _ _ H' P) F Hd Z) as [_ E']. apply Rabs_le_inv in E, E'. apply Rabs_le. lra.
Qed.
Print Assumptions C89_reordering.
(** numpy's sum is such an addition, with 26 + log2 (n / 56) additions on each of n numbers; so is adding up from left to right, with n. *)
Theorem C89_numpy : adds np_sum np_depth /\ adds (add_up zero64) (fun n => n).
Proof.
  split; [exact np_sum_adds|]. intros l. pose proof (add_up_sums l 0 [] zero64) as H. apply H. apply sums_nothing; apply zero64_facts.
Qed.
Print Assumptions C89_numpy.
(** Whole numbers, or multiples of one power of two, whose magnitudes add up to at most 2^53 units are added exactly, whatever the order. *)
Theorem C89_integers d l s (e : Z) (z : b64 -> Z) : sums d l s -> (-1074 <= e <= 970)%Z ->
  (forall x, In x l -> fin x = true /\ val x = IZR (z x) * bpow radix2 e) -> (fold_right Z.add 0 (map (fun x => Z.abs (z x)) l) <= 2 ^ 53)%Z ->
  fin s = true /\ val s = IZR (fold_right Z.add 0%Z (map z l)) * bpow radix2 e.
Proof. exact (sums_multiples d l s e z). Qed.
Print Assumptions C89_integers.
(** A finite sum of numbers none of which is negative is not negative and at least each of them. *)
Theorem C89_nonneg d l s : sums d l s -> Forall (fun x => fin x = true /\ 0 <= val x) l -> fin s = true ->
  0 <= val s /\ forall x, In x l -> val x <= val s.
Proof. exact (sums_nonneg d l s). Qed.
Print Assumptions C89_nonneg.

(** Sum: within D(n) 2^-52 of the magnitudes of the chosen entries; with weights one rounding more, and the underflow of the products. *)
Theorem C89_sum total D x w m : adds total D -> well_formed x w m -> INR (D (length x)) * eps <= 1 -> let c := contributions x w m in
  (w = None -> Rsize c <= bpow radix2 1022 -> fin (f_sum total x w m) = true /\ Rabs (val (f_sum total x w m) - Rsum c) <= INR (D (length x)) * eps * Rsize c) /\
  (Rsize c <= bpow radix2 1020 -> (Z.of_nat (length x) <= 2 ^ 53)%Z -> fin (f_sum total x w m) = true /\
   Rabs (val (f_sum total x w m) - Rsum c) <= (INR (D (length x)) + 1) * eps * Rsize c + INR (length x) * bpow radix2 (-1074)).
Proof.
  intros A W Hd c. split.
  - intros -> S. exact (sum_plain total D x m A W Hd S).
  - intros S N. exact (sum_weighted total D x w m A W N Hd S).
Qed.
Print Assumptions C89_sum.
(** Count is exact; an empty selection has the fill value as mean, with and without weights. *)
Theorem C89_count total fill x w m : well_formed x w m -> f_count x m = length (chosen m x) /\ (chosen m x = [] -> f_mean total fill x w m = fill).
Proof.
  intros (_ & _ & Lm). assert (E : f_count x m = length (chosen m x)). { unfold f_count. destruct m as [m|]; cbn [chosen]; [|reflexivity]. apply count_chosen, Lm. reflexivity. }
  split; [exact E|]. intros N. unfold f_mean. rewrite E, N. reflexivity.
Qed.
Print Assumptions C89_count.
(** Mean: one rounding more than the sum; in particular outside the range of the chosen entries by no more than that. *)
Theorem C89_mean total D fill x m : adds total D -> well_formed x None m -> (Z.of_nat (length x) <= 2 ^ 53)%Z -> INR (D (length x)) * eps <= 1 ->
  let c := contributions x None m in let k := INR (length c) in c <> [] -> Rsize c <= bpow radix2 1022 -> let t := (INR (D (length x)) + 1) * eps * (Rsize c / k) + bpow radix2 (-1075) in
  fin (f_mean total fill x None m) = true /\ Rabs (val (f_mean total fill x None m) - Rsum c / k) <= t /\
  (forall a b, Forall (fun v => a <= v <= b) c -> a - t <= val (f_mean total fill x None m) <= b + t).
Proof.
  intros A W Hn Hd c k Ne S t. destruct (mean_plain total D fill x m A W Hn Hd Ne S) as [F E]. split; [exact F|]. split; [exact E|].
  intros a b R. assert (K : 0 < k) by (unfold k; apply lt_0_INR; destruct c; [congruence|cbn; lia]).
  assert (Sb : k * a <= Rsum c <= k * b). { unfold k. clear - R. induction R as [|v l [H1 H2] _ IH]; [cbn; lra|]. unfold Rsum in *. cbn [fold_right length]. rewrite S_INR. lra. }
  assert (M : a <= Rsum c / k <= b). { split; (apply (Rmult_le_reg_r k); [exact K|]); unfold Rdiv; rewrite Rmult_assoc, Rinv_l by lra; lra. }
  cbv zeta in E. fold c k t in E. apply Rabs_le_inv in E. lra.
Qed.
Print Assumptions C89_mean.
(** Weighted mean with weights none of which is negative and that are not all tiny: the error is at most (4 D(n) + 4) 2^-52 of the largest magnitude. *)
Theorem C89_weighted_mean total D fill x w m X : adds total D -> well_formed x (Some w) m -> (Z.of_nat (length x) <= 2 ^ 53)%Z -> INR (D (length x)) * eps <= / 8 ->
  Forall (fun a => 0 <= val a) w -> Forall (fun v => Rabs (val v) <= X) (chosen m x) ->
  let S := Rsum (contributions w None m) in bpow radix2 (-900) <= S <= bpow radix2 510 -> X <= bpow radix2 510 ->
  fin (f_mean total fill x (Some w) m) = true /\
  Rabs (val (f_mean total fill x (Some w) m) - Rsum (contributions x (Some w) m) / S) <= (4 * INR (D (length x)) + 4) * eps * X + bpow radix2 (-100).
Proof. exact (mean_weighted total D fill x w m X). Qed.
Print Assumptions C89_weighted_mean.
(** Standard deviation: finite and not negative; its relative error is at most (D(n) + 4) 2^-52, plus twice the error of the mean (and 2^-534);
    in particular at most 2 (D(n) + 1) 2^-52 |c| (plus 2^-534) when all chosen entries are c. *)
Theorem C89_std total D fill x m : adds total D -> well_formed x None m -> (Z.of_nat (length x) <= 2 ^ 53)%Z -> INR (D (length x)) * eps <= / 8 ->
  Forall (fun v => Rabs (val v) <= bpow radix2 480) x -> chosen m x <> [] -> let sd := f_std total fill x None m in
  fin sd = true /\ 0 <= val sd /\
  (let c := contributions x None m in let s := sqrt (variance_of c) in
   Rabs (val sd - s) <= (INR (D (length x)) + 4) * eps * s + 2 * ((INR (D (length x)) + 1) * eps * (Rsize c / INR (length c)) + bpow radix2 (-1075)) + bpow radix2 (-534)) /\
  (forall c, Forall (fun v => val v = c) (chosen m x) -> val sd <= 2 * (INR (D (length x)) + 1) * eps * Rabs c + bpow radix2 (-534)).
Proof.
  intros A W Hn Hd Hx Ne sd. destruct (std_ok total D fill x m A W Hn Hd Hx Ne) as [F P]. split; [exact F|]. split; [exact P|]. split; [exact (std_accurate total D fill x m A W Hn Hd Hx Ne)|].
  intros c Hc. exact (std_constant total D fill x m A W Hn Hd Hx Ne c Hc).
Qed.
Print Assumptions C89_std.

(** The double nearest to a tenth. *)
Definition tenth : b64 := @B754_finite 53 1024 false 7205759403792794 (-56) eq_refl.
(** Finding: the order matters: (1e16 + 1) - 1e16 is 0, (1e16 - 1e16) + 1 is 1. *)
Theorem C89_order_refuted : exists l l' total, adds total (fun n => n) /\ Permutation l l' /\ val (total l) <> val (total l').
Proof.
  set (a := of_Z64 (10 ^ 16)). set (b := of_Z64 (- 10 ^ 16)). exists [a; of_Z64 1; b], [a; b; of_Z64 1], (add_up zero64). split; [apply C89_numpy|]. split; [repeat constructor|].
  replace (add_up zero64 [a; of_Z64 1; b]) with (of_Z64 0) by (apply B2SF_inj; vm_compute; reflexivity). replace (add_up zero64 [a; b; of_Z64 1]) with (of_Z64 1) by (apply B2SF_inj; vm_compute; reflexivity).
  destruct (of_Z64_exact 0 ltac:(lia)) as [-> _]. destruct (of_Z64_exact 1 ltac:(lia)) as [-> _]. lra.
Qed.
Print Assumptions C89_order_refuted.
(** Finding: the mean of three equal numbers can be another number, above all of them, and their standard deviation is then not 0 (np_sum, and
    adding from left to right, on 0.1, 0.1, 0.1). *)
Theorem C89_constant_refuted fill : let x := [tenth; tenth; tenth] in
  (val tenth < val (f_mean np_sum fill x None None)) /\ 0 < val (f_std np_sum fill x None None).
Proof.
  intros x. split.
  - set (r := @B754_finite 53 1024 false 7205759403792795 (-56) eq_refl). replace (f_mean np_sum fill x None None) with r by (apply B2SF_inj; vm_compute; reflexivity).
    unfold r, tenth, val. cbn [B2R]. apply F2R_lt. cbn [cond_Zopp]. lia.
  - set (r := f_std np_sum fill x None None). assert (E : match r with B754_finite false _ _ _ => true | _ => false end = true) by (vm_compute; reflexivity).
    destruct r as [| | |s m' e' h]; try discriminate. destruct s; [discriminate|]. unfold val. cbn [B2R]. apply F2R_gt_0. cbn. lia.
Qed.
Print Assumptions C89_constant_refuted.

(** Non-vacuity. *)
Example C89_ex_sums : sums 2 [of_Z64 1; of_Z64 2; of_Z64 3] (add64 (of_Z64 3) (add64 (of_Z64 1) (of_Z64 2))).
Proof.
  apply (sums_order _ [of_Z64 3; of_Z64 1; of_Z64 2]); [|eapply perm_trans; [apply perm_swap|apply perm_skip, perm_swap]].
  apply (sums_add 1 [of_Z64 3] _ [of_Z64 1; of_Z64 2]); [apply (sums_more 0); [apply sums_one|lia]|]. apply (sums_add 0 [of_Z64 1] _ [of_Z64 2]); apply sums_one.
Qed.
Example C89_ex_integers : val (np_sum (map (fun k => of_Z64 (Z.of_nat k)) (seq 0 300))) = 44850.
Proof. replace (np_sum _) with (of_Z64 44850) by (apply B2SF_inj; vm_compute; reflexivity). apply (of_Z64_exact 44850). lia. Qed.
Example C89_ex_mean : let x := [of_Z64 1; of_Z64 2; of_Z64 4] in let m := Some [true; false; true] in
  well_formed x None m /\ chosen m x = [of_Z64 1; of_Z64 4] /\ INR (np_depth (length x)) * eps <= / 8 /\
  f_mean np_sum zero64 x None m = @B754_finite 53 1024 false 5629499534213120 (-51) eq_refl.
Proof.
  cbv zeta. split; [|split; [reflexivity|split; [|apply B2SF_inj; vm_compute; reflexivity]]].
  - split; [repeat constructor|split; [discriminate|]]. intros m' E. inversion E; reflexivity.
  - unfold eps. apply Rle_trans with (bpow radix2 5 * bpow radix2 (-52)); [apply Rmult_le_compat_r; [apply bpow_ge_0|]; rewrite INR_IZR_INZ; change (bpow radix2 5) with (IZR 32); apply IZR_le; vm_compute; discriminate|].
    rewrite <- bpow_plus. change (/ 8) with (bpow radix2 (-3)). apply bpow_le. lia.
Qed.
