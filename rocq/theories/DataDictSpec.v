(** Specification vocabulary for DataDict, independent of the model's functions. *)
From Verif Require Import Base Str OdictSpec DataDictModel.
Open Scope string_scope.

(** [holds h v d]: the entries of the mapping [v] are those of the built-in dict at location [d]. *)
Inductive holds (h : heap) : value -> loc -> Prop :=
| holds_dict l e : nth_error h l = Some (Dict e) -> holds h (VRef l) l
| holds_dd l d e : nth_error h l = Some (DD d) -> nth_error h d = Some (Dict e) -> holds h (VRef l) d.

(** [entry h v k w]: the mapping [v] has the entry [k -> w]. *)
Definition entry (h : heap) (v : value) (k : string) (w : value) : Prop :=
  exists d e, holds h v d /\ nth_error h d = Some (Dict e) /\ In (k, w) e.

Definition is_mapping (h : heap) (v : value) : Prop := exists d, holds h v d.

(** Following one entry after the other. *)
Inductive reaches (h : heap) : value -> list string -> value -> Prop :=
| reaches_nil v : reaches h v [] v
| reaches_cons v k w ks u : entry h v k w -> reaches h w ks u -> reaches h v (k :: ks) u.

(** The names addressed by a str subscript: the whole string if it has no slash, else its non-empty
    slash-separated segments ([is_path], Str.v). *)
Inductive names (s : string) : list string -> Prop :=
| names_direct : has_char slash s = false -> names s [s]
| names_path p : has_char slash s = true -> is_path slash s p -> names s p.

(** Heap well-formedness: dicts have distinct keys and every DataDict owns a dict of its own. *)
Record wf (h : heap) : Prop := {
  wf_keys : forall l e, nth_error h l = Some (Dict e) -> NoDup (map fst e);
  wf_dd : forall l d, nth_error h l = Some (DD d) -> exists e, nth_error h d = Some (Dict e);
  wf_own : forall l1 l2 d, nth_error h l1 = Some (DD d) -> nth_error h l2 = Some (DD d) -> l1 = l2;
}.

Arguments wf_keys {h} _ l e _.
Arguments wf_dd {h} _ l d _.
Arguments wf_own {h} _ l1 l2 d _ _.

(** The two heaps differ at most in the dict at [d]. *)
Definition same_except (h h' : heap) (d : loc) : Prop :=
  List.length h' = List.length h /\ forall l, l <> d -> nth_error h' l = nth_error h l.

(** The entries (dict, name) used when following the names [ks] from [v] to [u]. *)
Inductive trace (h : heap) : value -> list string -> value -> list (loc * string) -> Prop :=
| trace_nil v : trace h v [] v []
| trace_cons v d k w ks u es :
    holds h v d -> entry h v k w -> trace h w ks u es -> trace h v (k :: ks) u ((d, k) :: es).

(** Left-to-right execution of single assignments / deletions, stopping at the first exception. *)
Inductive set_seq (self : value) : heap -> list key -> list value -> result unit -> heap -> Prop :=
| set_seq_nil h : set_seq self h [] [] (Ok tt) h
| set_seq_ok h k w h1 ks ws r h2 :
    setitem h self k w = (Ok tt, h1) -> set_seq self h1 ks ws r h2 -> set_seq self h (k :: ks) (w :: ws) r h2
| set_seq_err h k w e h1 ks ws :
    setitem h self k w = (Err e, h1) -> set_seq self h (k :: ks) (w :: ws) (Err e) h1.

Inductive del_seq (self : value) : heap -> list key -> result unit -> heap -> Prop :=
| del_seq_nil h : del_seq self h [] (Ok tt) h
| del_seq_ok h k h1 ks r h2 :
    delitem h self k = (Ok tt, h1) -> del_seq self h1 ks r h2 -> del_seq self h (k :: ks) r h2
| del_seq_err h k e h1 ks :
    delitem h self k = (Err e, h1) -> del_seq self h (k :: ks) (Err e) h1.

(** Mutations of the mapping [c] itself: direct (slash-free) names, update/|=, clear. *)
Inductive direct_mutation (h : heap) (c : value) : heap -> Prop :=
| dm_set k w : has_char slash k = false -> direct_mutation h c (snd (setitem h c (KStr k) w))
| dm_del k : has_char slash k = false -> direct_mutation h c (snd (delitem h c (KStr k)))
| dm_update o : direct_mutation h c (snd (update h c o))
| dm_clear : direct_mutation h c (snd (clear h c)).

Inductive direct_mutations (c : value) : heap -> heap -> Prop :=
| dms_nil h : direct_mutations c h h
| dms_cons h h1 h2 : direct_mutation h c h1 -> direct_mutations c h1 h2 -> direct_mutations c h h2.
