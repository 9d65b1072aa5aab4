(** C25 and C26 in IEEE binary64 arithmetic.  [val x] is the real number a float stands for, [fin x] that it is one (no
    infinity, no NaN). *)
From Coq Require Import ZArith Reals Lra.
Require Import Flocq.Core.Core Flocq.IEEE754.BinarySingleNaN.
From Verif Require Import Base OrderSpec InterpModel ProcFloat InterpFloatModel InterpFloatProofs.
Local Open Scope list_scope. Local Open Scope R_scope.

(** C25: for finite non-decreasing nodes spanning at most 2^1022 and every finite query, both rounded weights are in [0, 1],
    they sum to one up to 2^-51, they belong to the nodes enclosing the query, and at a node they are exactly 1 and 0. *)
Theorem C25_weights_float xs q : (forall x, In x xs -> fin x = true) -> fin q = true -> ascending Bltb xs -> xs <> [] ->
  (forall x y, In x xs -> In y xs -> val y - val x <= bpow radix2 1022) ->
  exists l r wl wr, f_bisearch_interp_weight xs q = Ok (l, r, (wl, wr)) /\ (l < length xs)%nat /\ (r < length xs)%nat /\
    fin wl = true /\ fin wr = true /\ 0 <= val wl <= 1 /\ 0 <= val wr <= 1 /\ Rabs (val wl + val wr - 1) <= bpow radix2 (-51) /\
    ((exists x0, nth_error xs 0 = Some x0 /\ val q < val x0 /\ l = 0%nat /\ r = 0%nat /\ val wl = 0 /\ val wr = 1) \/
     (exists xn, nth_error xs (length xs - 1) = Some xn /\ val xn <= val q /\ l = (length xs - 1)%nat /\ r = (length xs - 1)%nat /\ val wl = 1 /\ val wr = 0) \/
     (exists xl xr, nth_error xs l = Some xl /\ nth_error xs r = Some xr /\ r = S l /\ val xl <= val q < val xr /\
        (val q = val xl -> val wl = 1 /\ val wr = 0))).
Proof. exact (f_interp_weight_spec xs q). Qed.
Print Assumptions C25_weights_float.

(** C26: the nodes are reproduced without any rounding error. *)
Theorem C26_nodes_float xs ys i x y : (forall x, In x xs -> fin x = true) -> (forall y, In y ys -> fin y = true) -> increasing Bltb xs ->
  (forall x y, In x xs -> In y xs -> val y - val x <= bpow radix2 1022) -> length ys = length xs ->
  nth_error xs i = Some x -> nth_error ys i = Some y ->
  exists v, f_bisearch_interp xs ys x = Ok v /\ fin v = true /\ val v = val y.
Proof. exact (f_interp_node xs ys i x y). Qed.
Print Assumptions C26_nodes_float.

(** Finding: unlike the exact interpolation, the rounded one leaves the range of the ordinates: between (0, 7) and (3, 7) it
    gives less than 7 at 1, and between (0, 3) and (5, 3) more than 3. *)
Theorem C26_bounded_float_refuted :
  (exists v, f_bisearch_interp [of_Z64 0; of_Z64 3] [of_Z64 7; of_Z64 7] (of_Z64 1) = Ok v /\ Bltb v (of_Z64 7) = true) /\
  (exists v, f_bisearch_interp [of_Z64 0; of_Z64 5] [of_Z64 3; of_Z64 3] (of_Z64 1) = Ok v /\ Bltb (of_Z64 3) v = true).
Proof. split; eexists; (split; [reflexivity|vm_compute; reflexivity]). Qed.
Print Assumptions C26_bounded_float_refuted.

(** The hypotheses are met by ordinary tables. *)
Example ex_float_table : let xs := [of_Z64 0; of_Z64 3; of_Z64 5] in
  (forall x, In x xs -> fin x = true) /\ increasing Bltb xs /\ exists w, f_bisearch_interp_weight xs (of_Z64 4) = Ok (1%nat, 2%nat, w).
Proof.
  cbv zeta. split; [intros x [<-|[<-|[<-|[]]]]; vm_compute; reflexivity|]. split.
  - intros i j a b L Ha Hb. do 3 (destruct i as [|i]; [do 3 (destruct j as [|j]; [try lia; cbn in Ha, Hb; injection Ha as <-; injection Hb as <-; vm_compute; reflexivity|]); cbn in Hb; destruct j; discriminate|]).
    cbn in Ha. destruct i; discriminate.
  - eexists. reflexivity.
Qed.
