(** Model of /repo/src/pyhipp/stats/sampling.py and the part of random.py it uses.
    Simplifications: dictionary keys have no "/" (DataDict then behaves as a plain dictionary); a column is a list of rows of any
    type; statistics are rationals (exact arithmetic), and [Root v] stands for the square root of [v]. *)
From Coq Require Import QArith.
From Verif Require Import Base BinSpec.
Local Open Scope list_scope. Local Open Scope nat_scope.

(** sampling.py:49-69, random.py:96-98: What the random generator will produce: the [j]-th number of its [c]-th call, an arbitrary natural number (taken modulo the
    population).  Every sequence of outcomes is obtained from some [draws]. *)
Definition draws := nat -> nat -> nat.
(** random.py:96-98 Rng.choice(n, size=size): numpy raises ValueError for a negative size and for an empty population, unless
    nothing is drawn. *)
Definition choice (d : draws) (c : nat) (n : nat) (size : Z) : result (list nat) :=
  if (size <? 0)%Z then Err ValueError
  else if Nat.eqb n 0 && (0 <? size)%Z then Err ValueError
  else Ok (map (fun j => d c j mod n) (seq 0 (Z.to_nat size))).

(** sampling.py:49-69: v[ids] *)
Definition take_rows {V} (v : list V) (ids : list nat) : result (list V) :=
  mapM (fun i => match nth_error v i with Some x => Ok x | None => Err IndexError end) ids.

(** sampling.py:13-47: An argument that can be iterated again and again (list, tuple), or only once (generator, iterator). *)
Inductive iterable (A : Type) := Again (l : list A) | Once (l : list A).
Arguments Again {A}. Arguments Once {A}.
(** sampling.py:13-47, iterating over the argument. *)
Definition read {A} (it : iterable A) : list A * iterable A := match it with Again l => (l, Again l) | Once l => (l, Once []) end.

Notation set_ := (od_set String.eqb).
Notation get_ := (od_get String.eqb).
Notation dset V := (list (string * list V)).

(** sampling.py:62-68, the columns of one dataset; [ids] once drawn, [c] counts the calls of the generator. *)
Fixpoint cols_loop {V} (d : draws) (max_n : Z) (cols : dset V) (ids : option (list nat)) (c : nat) (out : dset V) : result (dset V * nat) :=
  match cols with
  | [] => Ok (out, c)
  | (k, v) :: cols' =>
      bind (match ids with
            | Some ids => Ok (ids, c)
            | None => rmap (fun ids => (ids, S c)) (choice d c (length v) (Z.min (Z.of_nat (length v)) max_n))
            end) (fun '(ids, c) =>
      bind (take_rows v ids) (fun rows => cols_loop d max_n cols' (Some ids) c (set_ out k rows)))
  end.
(** sampling.py:62-68. *)
Fixpoint dsets_loop {V} (d : draws) (l : list (dset V * Z)) (c : nat) (out : dset V) : result (dset V * nat) :=
  match l with
  | [] => Ok (out, c)
  | (ds, max_n) :: l' => bind (cols_loop d max_n ds None c out) (fun '(out, c) => dsets_loop d l' c out)
  end.
(** sampling.py:49-69 Bootstrap.__resample on the datasets read from the iterables. *)
Definition resample {V} (d : draws) (dsets : list (dset V)) (max_sizes : option (list Z)) (c : nat) : result (dset V * nat) :=
  let max_ns := match max_sizes with None => map (fun _ => (2 ^ 60)%Z) dsets | Some l => l end in
  if Nat.eqb (length max_ns) (length dsets) then dsets_loop d (combine dsets max_ns) c [] else Err AssertionError.

(** sampling.py:13-47: Keyword arguments of the statistics function. *)
Inductive arg (V C : Type) := Col (l : list V) | Const (x : C).
Arguments Col {V C}. Arguments Const {V C}.
(** sampling.py:13-47. *)
Definition kwargs V C := list (string * arg V C).
(** sampling.py:27-33: the loop; [stats_fn i kw] is the result of the [i]-th call.  Returns each call's keywords and result. *)
Fixpoint boot_loop {V C} (stats_fn : nat -> kwargs V C -> result (list (string * Q))) (d : draws) (n i : nat)
    (dsets : iterable (dset V)) (maxs : option (iterable Z)) (stats_kw : list (string * C)) (c : nat)
    : result (list (kwargs V C * list (string * Q))) :=
  match n with
  | 0 => Ok []
  | S n' =>
      let '(l, dsets') := read dsets in
      let ms := option_map (fun m => fst (read m)) maxs in
      let maxs' := option_map (fun m => snd (read m)) maxs in
      bind (resample d l ms c) (fun '(ds, c) =>
      let kw := od_update String.eqb (map (fun '(k, v) => (k, Col v)) ds) (map (fun '(k, x) => (k, Const x)) stats_kw) in
      bind (stats_fn i kw) (fun o =>
      bind (boot_loop stats_fn d n' (S i) dsets' maxs' stats_kw c) (fun rest => Ok ((kw, o) :: rest))))
  end.
(** sampling.py:27-47: An entry of the result. *)
Inductive cell := Num (q : Q) | Root (q : Q) | Samples (l : list Q).
(** sampling.py:27-33, .mean(0). *)
Definition qmean (l : list Q) : Q := (Qsum l / inject_Z (Z.of_nat (length l)))%Q.
(** stacking.py:5-6 Stack.mean_and_sd: x.mean(0), x.std(0). *)
Definition qvar (l : list Q) : Q := qmean (map (fun a => (a - qmean l) * (a - qmean l))%Q l).
(** sampling.py:36-43, one key. *)
Definition add_key (keep : bool) (outs : list (list (string * Q))) (acc : list (string * cell)) (key : string) : result (list (string * cell)) :=
  bind (mapM (fun o => match get_ o key with Some q => Ok q | None => Err KeyError end) outs) (fun vals =>
    let acc := set_ (set_ acc key (Num (qmean vals))) (key ++ "_sd")%string (Root (qvar vals)) in
    Ok (if keep then set_ acc (key ++ "_samples")%string (Samples vals) else acc)).
(** sampling.py:36-43, in the order of the keys. *)
Fixpoint add_keys keep outs acc keys : result (list (string * cell)) :=
  match keys with [] => Ok acc | k :: keys' => bind (add_key keep outs acc k) (fun acc => add_keys keep outs acc keys') end.
(** sampling.py:36-47: dict.setdefault *)
Definition setdefault (acc : list (string * cell)) (kv : string * cell) : list (string * cell) :=
  if od_mem String.eqb acc (fst kv) then acc else set_ acc (fst kv) (snd kv).
(** sampling.py:13-47 Bootstrap.resampled_call; also returns the calls that were made. *)
Definition resampled_call {V C} (stats_fn : nat -> kwargs V C -> result (list (string * Q))) (dsets : iterable (dset V)) (keys_out : list string)
    (stats_kw : list (string * C)) (n_resample : Z) (d : draws) (keep : bool) (maxs : option (iterable Z))
    : result (list (string * cell) * list (kwargs V C)) :=
  bind (boot_loop stats_fn d (Z.to_nat n_resample) 0 dsets maxs stats_kw 0) (fun calls =>
  let outs := map snd calls in
  bind (add_keys keep outs [] keys_out) (fun acc =>
  match outs with
  | [] => Err IndexError
  | o :: _ => Ok (fold_left setdefault (map (fun '(k, q) => (k, Num q)) o) acc, map fst calls)
  end)).

(** ** RandomNoise, over the reals *)
From Coq Require Import Reals.
(** sampling.py:72-82. *)
Record noise := { sigma : R; in_lg : bool }.
(** sampling.py:74-82 RandomNoise.__init__. *)
Definition noise_init (s : R) (dist : string) (lg : bool) : result noise :=
  if String.eqb dist "normal" then Ok {| sigma := s; in_lg := lg |} else Err AssertionError.
(** sampling.py:84-98: 10.0**x *)
Definition pow10 (x : R) : R := Rpower 10 x.
(** sampling.py:84-98: A single row or a table. *)
Inductive noisy := One (l : list R) | Many (rows : list (list R)).
(** sampling.py:84-99 add_to; [z r j] is the [j]-th standard normal number of repeat [r] (rows are drawn in order). *)
Definition add_to (nz : noise) (z : nat -> nat -> R) (x : list R) (n_repeats : nat) : noisy :=
  let rows := map (fun r => map (fun '(j, a) => let dx := (z r j * sigma nz)%R in
                                   if in_lg nz then (a * pow10 dx)%R else (a + dx)%R) (combine (seq 0 (length x)) x)) (seq 0 n_repeats) in
  if Nat.eqb n_repeats 1 then One (nth 0 rows []) else Many rows.
