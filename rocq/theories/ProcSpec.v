(** Specification vocabulary for the properties of core/dataproc (C32-C36, C67). *)
From Coq Require Import QArith.
From Verif Require Import Base BinSpec.
Local Open Scope list_scope. Local Open Scope nat_scope.

(** Sum of a list of integers. *)
Fixpoint Zsum (l : list Z) : Z := match l with [] => 0%Z | a :: l' => (a + Zsum l')%Z end.
(** The value of [k] in the rightmost mapping that has it. *)
Fixpoint rightmost {V} (ds : list (odict string V)) (k : string) : option V :=
  match ds with
  | [] => None
  | d :: ds' => match rightmost ds' k with Some v => Some v | None => od_get String.eqb d k end
  end.
Definition present {V} (ds : list (option (odict string V))) : list (odict string V) := flat_map (fun d => match d with Some d => [d] | None => [] end) ds.
(** Position [i] is selected by the optional Boolean mask. *)
Definition sel_at (where_ : option (list bool)) i : bool := match where_ with None => true | Some w => nth i w false end.
