(** Specification vocabulary for DataTable. *)
From Coq Require Import Sorted.
From Verif Require Import Base OdictSpec DataTableModel.

(** Any array (view) over storage that exists in [b]. *)
Definition old (b : bufs) (a : arr) : Prop := buf a < length b.

Definition items_old (b : bufs) (items : list (string * arr)) : Prop :=
  forall k a, In (k, a) items -> old b a.

(** A sequence of in-place element writes [a[i] = x]. *)
Definition writes (b : bufs) (ws : list (arr * nat * row)) : bufs :=
  fold_left (fun b w => wr b (fst (fst w)) (snd (fst w)) (snd w)) ws b.
Definition through (P : arr -> Prop) (ws : list (arr * nat * row)) : Prop :=
  forall w, In w ws -> P (fst (fst w)).

(** [a'] is a view of the same storage as [a]. *)
Definition same_storage (a a' : arr) : Prop := buf a = buf a'.

(** The columns of [t'] (made going from store [b] to [b']) share nothing with the storage that existed
    before nor with one another: no sequence of writes on one side is visible on the other. *)
Definition isolated (b b' : bufs) (t' : list (string * arr)) : Prop :=
  (forall a, old b a -> rd b' a = rd b a) /\
  (forall ws k a, through (old b) ws -> In (k, a) t' -> rd (writes b' ws) a = rd b' a) /\
  (forall ws a, through (fun x => exists k c, In (k, c) t' /\ same_storage x c) ws -> old b a ->
      rd (writes b' ws) a = rd b a) /\
  (forall ws k c k2 c2, In (k, c) t' -> In (k2, c2) t' -> k <> k2 -> through (same_storage c) ws ->
      rd (writes b' ws) c2 = rd b' c2).

(** The contents of a table: column names and their rows. *)
Definition vals (b : bufs) (t : list (string * arr)) : list (string * list row) :=
  map (fun x => (fst x, rd b (snd x))) t.

(** Row [j] of the result is row [ps[j]] of the source. *)
Definition picks (ps : list nat) (src dst : list row) : Prop :=
  length dst = length ps /\
  forall j p, nth_error ps j = Some p -> exists x, nth_error src p = Some x /\ nth_error dst j = Some x.

(** Abstract view of a table for histories: a partial map from column names to rows. *)
Definition amap := string -> option (list row).
Definition a_set (m : amap) (k : string) (r : list row) : amap :=
  fun k' => if string_dec k' k then Some r else m k'.
Definition a_del (m : amap) (k : string) : amap := fun k' => if string_dec k' k then None else m k'.
Fixpoint a_set_all (m : amap) (kvs : list (string * list row)) : amap :=
  match kvs with [] => m | (k, r) :: kvs' => a_set_all (a_set m k r) kvs' end.
(** Deletion of several names stops at the first missing one. *)
Fixpoint a_del_all (m : amap) (ks : list string) : amap :=
  match ks with
  | [] => m
  | k :: ks' => match m k with Some _ => a_del_all (a_del m k) ks' | None => m end
  end.
(** [val] reads the array arguments. *)
Definition a_step (val : arr -> list row) (m : amap) (o : top) : amap :=
  match o with
  | TSet k a => a_set m k (val a)
  | TSetTuple ks vs =>
      if Nat.eq_dec (length ks) (length vs) then a_set_all m (combine ks (map val vs)) else m
  | TDel k => a_del m k
  | TDelTuple ks => a_del_all m ks
  | TUpdate o _ => a_set_all m (map (fun x => (fst x, val (snd x))) o)
  | TClear => fun _ => None
  end.
Definition top_old (b : bufs) (o : top) : Prop :=
  match o with
  | TSet _ a => old b a
  | TSetTuple _ vs => forall a, In a vs -> old b a
  | TUpdate o _ => items_old b o /\ NoDup (map fst o)    (* a mapping has distinct keys *)
  | _ => True
  end.
Definition abs (st : table * bufs) : amap := fun k => option_map (rd (snd st)) (od_get String.eqb (fst st) k).

(** The column order prescribed for every operation. *)
Definition k_add (ks : list string) (k : string) : list string :=
  if in_dec string_dec k ks then ks else ks ++ [k].
Fixpoint k_del_all (ks : list string) (dels : list string) : list string :=
  match dels with
  | [] => ks
  | k :: dels' => if in_dec string_dec k ks then k_del_all (remove string_dec k ks) dels' else ks
  end.
Definition k_step (ks : list string) (o : top) : list string :=
  match o with
  | TSet k _ => k_add ks k
  | TSetTuple l vs => if Nat.eq_dec (length l) (length vs) then fold_left k_add l ks else ks
  | TDel k => remove string_dec k ks
  | TDelTuple l => k_del_all ks l
  | TUpdate o _ => fold_left k_add (map fst o) ks
  | TClear => []
  end.

(** Python's reading of a slice bound on [n] rows: counted from the end when negative. *)
Definition from_end (n : nat) (x : Z) : Z := if (x <? 0)%Z then (x + Z.of_nat n)%Z else x.
