(** YAML documents and nested configuration levels. *)
From Verif Require Import Base.
Local Open Scope list_scope. Local Open Scope nat_scope.

(** What yaml.load returns (mappings with string keys). *)
Inductive yaml := YMap (m : list (string * yaml)) | YStr (s : string) | YList (l : list yaml) | YNum (z : Z) | YNull.

(** [child v k w]: [v] is a mapping whose entry [k] is [w]. *)
Definition child (v : yaml) (k : string) (w : yaml) : Prop := exists m, v = YMap m /\ od_get String.eqb m k = Some w.

(** [chain v ks vs]: vs = [v0; v1; ...] are the nodes met from [v] along [ks] ([v] itself first). *)
Inductive chain : yaml -> list string -> list yaml -> Prop :=
| chain_nil v : chain v [] [v]
| chain_cons v k w ks vs : child v k w -> chain w ks vs -> chain v (k :: ks) (v :: vs).

(** The value of [k] at the deepest of the levels (outermost first) that defines it. *)
Definition deepest (levels : list yaml) (k : string) (v : yaml) : Prop :=
  exists outer level inner, levels = outer ++ level :: inner /\ child level k v /\ (forall x w, In x inner -> ~ child x k w).

Definition is_map (v : yaml) : Prop := exists m, v = YMap m.
