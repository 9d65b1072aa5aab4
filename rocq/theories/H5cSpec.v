(** Vocabulary of C95. *)
From Coq Require Import List.
From Verif Require Import Base Str H5Model H5Spec H5cModel.
Local Open Scope list_scope. Local Open Scope nat_scope.

(** Every array of the mapping has as many elements as its shape says, all of its dtype (any numpy array). *)
Inductive arrays_ok : data -> Prop :=
| ao_leaf l : (forall d, stored_as l = Some d -> dset_ok d) -> arrays_ok (DLeaf l)
| ao_map items : (forall k v, In (k, v) items -> arrays_ok v) -> arrays_ok (DMap items).

(** The file after any number of attempts to dump the same mapping, each with any flag, each stopped somewhere (or complete). *)
Inductive attempts (g : nat) (items : list (key * data)) : file -> file -> Prop :=
| at_none h : attempts g items h h
| at_more h h1 h2 flag : stopped flag h g items h1 -> attempts g items h1 h2 -> attempts g items h h2.

(** Number of members of a mapping, at all depths together. *)
Fixpoint members (d : data) : nat := match d with DLeaf _ => 0 | DMap items => fold_right (fun kv n => S (members (snd kv)) + n) 0 items end.
(** Exactly [n] operations. *)
Inductive nsteps (flag : string) : nat -> conf -> conf -> Prop :=
| ns_0 c : nsteps flag 0 c c
| ns_S n a b c : step flag a b -> nsteps flag n b c -> nsteps flag (S n) a c.
