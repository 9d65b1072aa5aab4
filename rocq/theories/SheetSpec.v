(** Vocabulary for the spreadsheet round trip. *)
From Verif Require Import Base Str SheetModel.
Local Open Scope list_scope. Local Open Scope nat_scope.

(** A Python dict has each key once, at every level. *)
Inductive unique_keys {T} : node T -> Prop :=
| uk_table t : unique_keys (Table t)
| uk_dict es : NoDup (map fst es) -> (forall k v, In (k, v) es -> unique_keys v) -> unique_keys (Dict es).

(** No key contains a dot, no inner dict is empty. *)
Inductive plain {T} : node T -> Prop :=
| pl_table t : plain (Table t)
| pl_dict es : (forall k v, In (k, v) es -> has_char dot k = false /\ plain v /\ v <> Dict []) -> plain (Dict es).

(** No top-level dict is stored under the empty name. *)
Definition top_named {T} (es : list (string * node T)) : Prop := forall sub, ~ In (EmptyString, Dict sub) es.

(** The access paths of a nested dict with the tables at their ends, in order. *)
Fixpoint paths {T} (v : node T) : list (list string * T) :=
  match v with
  | Table t => [([], t)]
  | Dict es => flat_map (fun kv => map (fun p => (fst kv :: fst p, snd p)) (paths (snd kv))) es
  end.
