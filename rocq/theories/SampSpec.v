(** Vocabulary for resampling (C51). *)
From Coq Require Import QArith.
From Verif Require Import Base BinSpec.
Local Open Scope list_scope. Local Open Scope nat_scope.

(** All columns of a dataset have [n] rows. *)
Definition equal_columns {V} (ds : list (string * list V)) (n : nat) : Prop := forall k v, In (k, v) ds -> length v = n.
(** [rows] are the rows of [v] at the positions [ids], in that order. *)
Definition rows_at {V} (v : list V) (ids : list nat) (rows : list V) : Prop := Forall2 (fun i r => nth_error v i = Some r) ids rows.
(** [out] is a resampling of the datasets: one list of row numbers per dataset, of size min(n, max_n), used for all its
    columns.  (A column name used again by a later dataset is taken from the later one.) *)
Definition resampling_of {V} (dsets : list (list (string * list V))) (maxs : list Z) (out : list (string * list V)) : Prop :=
  exists idss : list (list nat), length idss = length dsets /\
  (forall i ds mx, nth_error dsets i = Some ds -> nth_error maxs i = Some mx -> exists ids, nth_error idss i = Some ids /\
     forall k v, In (k, v) ds ->
       Z.of_nat (length ids) = Z.min (Z.of_nat (length v)) mx /\ Forall (fun t => t < length v) ids /\
       ((forall j ds', i < j -> nth_error dsets j = Some ds' -> ~ In k (map fst ds')) ->
        exists rows, od_get String.eqb out k = Some rows /\ rows_at v ids rows)) /\
  (forall k, In k (map fst out) <-> exists ds, In ds dsets /\ In k (map fst ds)).
(** Datasets whose columns are named differently and have the same length. *)
Definition good_dsets {V} (dsets : list (list (string * list V))) : Prop := Forall (fun ds => NoDup (map fst ds) /\ exists n, equal_columns ds n) dsets.
(** The values of one statistic over all calls. *)
Definition column (outs : list (list (string * Q))) (key : string) (vals : list Q) : Prop :=
  Forall2 (fun o q => od_get String.eqb o key = Some q) outs vals.
(** No requested statistic is called like the spread or the samples of another one. *)
Definition clean (keys : list string) : Prop := forall k k', In k keys -> In k' keys -> k <> (k' ++ "_sd")%string /\ k <> (k' ++ "_samples")%string.
