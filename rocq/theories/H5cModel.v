(** Group.dump of /repo/src/pyhipp/io/h5/named_objs.py as a sequence of separate operations, so that it can be stopped between any two of them
    (KeyboardInterrupt, or any exception raised from outside).  The operations themselves are those of H5Model.v. *)
From Verif Require Import Base Str H5Model.
Local Open Scope list_scope.

(** io/h5/named_objs.py:386-390: one turn of the loop still to be made: the group, the key and the value. *)
Definition job := (nat * key * data)%type.
(** io/h5/named_objs.py:386: the loop of Group.dump over the items of a mapping. *)
Definition jobs_of (g : nat) (items : list (key * data)) : list job := map (fun kv => (g, fst kv, snd kv)) items.

(** A dump in progress: the turns still to be made (innermost loop first) and the file; or an exception has left it (io/h5/named_objs.py:364-390). *)
Inductive conf := Run (todo : list job) (h : file) | Raised (e : exn) (h : file).

(** io/h5/named_objs.py:387-390: one turn: a mapping makes (or opens) a group, and its own items come next; anything else is one dataset.  The keys
    are strings after the scan (382-384). *)
Inductive step (flag : string) : conf -> conf -> Prop :=
| step_group g k its js h g1 h1 : create_group h g k flag = (Ok g1, h1) ->
    step flag (Run ((g, KStr k, DMap its) :: js) h) (Run (jobs_of g1 its ++ js) h1)
| step_group_err g k its js h e h1 : create_group h g k flag = (Err e, h1) ->
    step flag (Run ((g, KStr k, DMap its) :: js) h) (Raised e h1)
| step_dset g k l js h i h1 : ds_create h g k l flag = (Ok i, h1) ->
    step flag (Run ((g, KStr k, DLeaf l) :: js) h) (Run js h1)
| step_dset_err g k l js h e h1 : ds_create h g k l flag = (Err e, h1) ->
    step flag (Run ((g, KStr k, DLeaf l) :: js) h) (Raised e h1).
(** Any number of turns (io/h5/named_objs.py:386-390). *)
Inductive steps (flag : string) : conf -> conf -> Prop :=
| steps_refl c : steps flag c c
| steps_next a b c : step flag a b -> steps flag b c -> steps flag a c.

(** The file when Group.dump(data, flag) of group [g] (io/h5/named_objs.py:364-390) is stopped between two operations, or before the first, or
    after the last. *)
Definition stopped (flag : string) (h : file) (g : nat) (items : list (key * data)) (h' : file) : Prop :=
  exists js, steps flag (Run (jobs_of g items) h) (Run js h').

(** io/h5/named_objs.py:609-622: the value under its path: [nest [k1; k2] v] is {k1: {k2: v}}. *)
Definition nest (ks : list string) (v : data) : data := fold_right (fun k v => DMap [(KStr k, v)]) v ks.
