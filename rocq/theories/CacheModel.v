(** Model of the caches of /repo/src/pyhipp/core/abc.py:127-162 (HasCache, HasMultiCache) and of the collection of predefined
    cosmologies built on them (/repo/src/pyhipp/astro/cosmology/model.py:253-290).

    A client of a cache is an arbitrary program over it: it requests keys, each with a fallback that is itself such a program
    (so fallbacks may use the same cache, raise, and so on), puts entries, may catch the exceptions of its requests, and
    may branch on every value it gets.  Keys are hashable and compared by [keqb] (an unhashable key raises TypeError
    in Python and never reaches the dictionary). *)
From Verif Require Import Base CacheSpec.
Local Open Scope list_scope.

Section Cache.
  Context {K V : Type}.
  Variable keqb : K -> K -> bool.

  (** core/abc.py:133-144, 151-162: a client program: it asks the cache with a fallback (itself a program), stores, returns or raises. *)
  Inductive prog :=
  | Ret (v : V)
  | Raise (e : exn)
  | Get (k : K) (fallback : prog) (cont : result V -> prog)
  | Put (k : K) (v : V) (cont : prog).

  (** abc.py:137-138: store the value, if the fallback returned one. *)
  Definition keep (c : list (K * V)) (k : K) (r : result V) : list (K * V) := match r with Ok v => od_set keqb c k v | Err _ => c end.
  (** abc.py:127-144 HasCache.get_cache_or, put_cache, along a client's program.  Returns the outcome, the cache and the
      events. *)
  Fixpoint run (p : prog) (c : list (K * V)) : result V * list (K * V) * list (event K V) :=
    match p with
    | Ret v => (Ok v, c, [])
    | Raise e => (Err e, c, [])
    | Put k v p' => let '(r, c', t) := run p' (od_set keqb c k v) in (r, c', EPut k v :: t)
    | Get k fb cont =>
        match od_get keqb c k with
        | Some v => let '(r, c', t) := run (cont (Ok v)) c in (r, c', EHit k v :: t)
        | None =>
            let '(r1, c1, t1) := run fb c in
            let '(r, c', t) := run (cont r1) (keep c1 k r1) in (r, c', ECall k :: t1 ++ EDone k r1 :: t)
        end
    end.

  (** core/abc.py:133-141: No fallback asks, directly or through other fallbacks, for the key it is the fallback of. *)
  Fixpoint requests (k : K) (p : prog) : Prop :=
    match p with
    | Ret _ | Raise _ => False
    | Put _ _ p' => requests k p'
    | Get k' fb cont => k' = k \/ requests k fb \/ exists r, requests k (cont r)
    end.
  (** abc.py:133-141. *)
  Fixpoint no_self_request (p : prog) : Prop :=
    match p with
    | Ret _ | Raise _ => True
    | Put _ _ p' => no_self_request p'
    | Get k fb cont => ~ requests k fb /\ no_self_request fb /\ forall r, no_self_request (cont r)
    end.
End Cache.
Arguments prog : clear implicits.

Section Multi.
  Context {K S V : Type}.
  Variables (keqb : K -> K -> bool) (seqb : S -> S -> bool).
  (** abc.py:147-162 HasMultiCache.get_cache_or.  The sub-dictionary object is never replaced, so reading it again after the
      fallback gives the same object.  There is no put_cache; [Put] stands for nothing here and writes like a successful
      fallback would. *)
  Definition msub (m : list (K * list (S * V))) (k : K) : list (S * V) := match od_get keqb m k with Some d => d | None => [] end.
  (** abc.py:151-162. *)
  Definition mset (m : list (K * list (S * V))) (k : K) (s : S) (v : V) := od_set keqb m k (od_set seqb (msub m k) s v).
  (** abc.py:151-162. *)
  Definition mget (m : list (K * list (S * V))) (k : K) (s : S) : option V := od_get seqb (msub m k) s.
  (** abc.py:151-162, store the value, if the fallback returned one. *)
  Definition mkeep (m : list (K * list (S * V))) (k : K) (s : S) (r : result V) := match r with Ok v => mset m k s v | Err _ => m end.
  (** abc.py:151-162 [get_cache_or]. *)
  Fixpoint mrun (p : prog (K * S) V) (m : list (K * list (S * V))) : result V * list (K * list (S * V)) * list (event (K * S) V) :=
    match p with
    | Ret v => (Ok v, m, [])
    | Raise e => (Err e, m, [])
    | Put (k, s) v p' => let '(r, m', t) := mrun p' (mset m k s v) in (r, m', EPut (k, s) v :: t)
    | Get (k, s) fb cont =>
        let m0 := if od_mem keqb m k then m else od_set keqb m k [] in
        match od_get seqb (msub m0 k) s with
        | Some v => let '(r, m', t) := mrun (cont (Ok v)) m0 in (r, m', EHit (k, s) v :: t)
        | None =>
            let '(r1, m1, t1) := mrun fb m0 in
            let '(r, m', t) := mrun (cont r1) (mkeep m1 k s r1) in (r, m', ECall (k, s) :: t1 ++ EDone (k, s) r1 :: t)
        end
    end.
End Multi.

(** model.py:253-290 _Predefined: [files] says what load(name) does (a missing or invalid file raises); every successful load
    makes a new object, identified by the number of loads before it.  [session] performs p[name] for each name and lists
    what each gave. *)
Definition model_obj : Type := nat * string.
(** model.py:282-285 [load]. *)
Definition load (files : string -> option exn) (n : nat) (name : string) : result model_obj :=
  match files name with None => Ok (n, name) | Some e => Err e end.
(** model.py:253-285, the number of models made so far and the loaded ones by name. *)
Definition pstate : Type := nat * list (string * model_obj).
(** model.py:264-265 [__getitem__]. *)
Definition access (files : string -> option exn) (s : pstate) (name : string) : result model_obj * pstate :=
  match od_get String.eqb (snd s) name with
  | Some o => (Ok o, s)
  | None => match load files (fst s) name with
            | Ok o => (Ok o, (S (fst s), od_set String.eqb (snd s) name o))
            | Err e => (Err e, s)
            end
  end.
(** model.py:253-285, several accesses in turn. *)
Fixpoint session (files : string -> option exn) (s : pstate) (names : list string) : list (result model_obj) * pstate :=
  match names with
  | [] => ([], s)
  | n :: names' => let '(r, s1) := access files s n in let '(rs, s2) := session files s1 names' in (r :: rs, s2)
  end.
(** model.py:254-263 the constructor. *)
Definition predefined (files : string -> option exn) : result pstate :=
  bind (load files 0 "tng"%string) (fun a => bind (load files 1 "eagle"%string) (fun b =>
  Ok (2, od_set String.eqb (od_set String.eqb [] "tng"%string a) "eagle"%string b))).
