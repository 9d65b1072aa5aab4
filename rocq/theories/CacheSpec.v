(** What a caller sees of a cache: the events of an execution, and what an entry must be after them. *)
From Verif Require Import Base.
Local Open Scope list_scope.

Section Events.
  Context {K V : Type}.
  (** [ECall k]: the fallback for [k] starts. [EDone k r]: it ended with [r] (a value, which the caller gets, or an exception,
      which the caller sees). [EHit k v]: a request was answered with [v] without calling a fallback. [EPut k v]: an explicit
      put_cache. *)
  Inductive event := ECall (k : K) | EDone (k : K) (r : result V) | EHit (k : K) (v : V) | EPut (k : K) (v : V).

  (** The event supplies an entry for [k]. *)
  Definition supplies (k : K) (e : event) : Prop :=
    match e with EDone k' (Ok _) | EHit k' _ | EPut k' _ => k' = k | _ => False end.

  (** The value most recently computed or put for [k], [init] if there is none. *)
  Inductive latest (k : K) (init : option V) : list event -> option V -> Prop :=
  | latest_nil : latest k init [] init
  | latest_done t o v : latest k init t o -> latest k init (t ++ [EDone k (Ok v)]) (Some v)
  | latest_put t o v : latest k init t o -> latest k init (t ++ [EPut k v]) (Some v)
  | latest_other t o e : latest k init t o -> (forall v, e <> EDone k (Ok v)) -> (forall v, e <> EPut k v) -> latest k init (t ++ [e]) o.
End Events.
Arguments event : clear implicits.
