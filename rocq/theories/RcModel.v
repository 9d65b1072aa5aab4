(** Model of /repo/src/pyhipp/plot/runtime_config.py.  Sections are dictionary objects shared by reference between the class-level
    defaults, the style sheets and the instances, so they live in a store; matplotlib's rcParams is a flat table, [known] says
    which names it accepts. *)
From Verif Require Import Base FmtModel.
Local Open Scope list_scope. Local Open Scope nat_scope.

(** runtime_config.py:5-90, one section (a dict). *)
Definition section := list (string * pv).
(** runtime_config.py:5-90, a reference to a section object. *)
Definition secref := nat.
(** runtime_config.py:5-90: The store of section objects, and configuration dictionaries: section name to section object. *)
Record world := { sections : list section; default : list (string * secref); sheets : list (string * list (string * secref)) }.
(** runtime_config.py:91-93, config_dict. *)
Definition config := list (string * secref).
(** runtime_config.py:112-115, matplotlib.rcParams. *)
Definition rc_table := list (string * pv).

(** runtime_config.py:91-110: __init__: a shallow copy of the class's default dictionary, then update; update replaces whole sections. *)
Definition cfg_update (c : config) (other : option (list (string * secref))) : config :=
  match other with None => c | Some o => od_update String.eqb c o end.
(** runtime_config.py:91-93. *)
Definition cfg_init (w : world) (cfg : option (list (string * secref))) : config := cfg_update (default w) cfg.
(** runtime_config.py:117-126 use_stylesheets( *names, set_global=...): configuration when it ended or raised. *)
Fixpoint use_sheets (w : world) (c : config) (names : list string) : result unit * config :=
  match names with
  | [] => (Ok tt, c)
  | n :: names' => match od_get String.eqb (sheets w) n with
                   | None => (Err KeyError, c)
                   | Some o => use_sheets w (cfg_update c (Some o)) names'
                   end
  end.
(** runtime_config.py:112-115: matplotlib.rc's abbreviations. *)
Definition rc_alias (k : string) : string :=
  match od_get String.eqb [("lw", "linewidth"); ("ls", "linestyle"); ("c", "color"); ("fc", "facecolor"); ("ec", "edgecolor"); ("mew", "markeredgewidth"); ("aa", "antialiased")]%string k with
  | Some v => v | None => k end.
(** runtime_config.py:112-115, the full name of a parameter. *)
Definition rc_name (sec k : string) : string := (sec ++ "." ++ rc_alias k)%string.
(** runtime_config.py:112-115: matplotlib.rc(group, **kw) *)
Fixpoint rc_set (known : string -> bool) (sec : string) (t : rc_table) (s : section) : result unit * rc_table :=
  match s with
  | [] => (Ok tt, t)
  | (k, v) :: s' => if known (rc_name sec k) then rc_set known sec (od_set String.eqb t (rc_name sec k) v) s' else (Err KeyError, t)
  end.
(** runtime_config.py:112-115 set_global *)
Fixpoint set_global (w : world) (known : string -> bool) (t : rc_table) (c : config) : result unit * rc_table :=
  match c with
  | [] => (Ok tt, t)
  | (sec, r) :: c' => match rc_set known sec t (nth r (sections w) []) with
                      | (Ok _, t') => set_global w known t' c'
                      | (Err e, t') => (Err e, t')
                      end
  end.
(** runtime_config.py:91-126: What a client can do: the methods, or writing into a section through inst.config_dict[sec][k] = v. *)
Inductive rc_op := RUpdate (o : list (string * secref)) | RSheets (names : list string) | RGlobal | RWrite (sec k : string) (v : pv).
(** runtime_config.py:91-126, class attributes, one instance, rcParams. *)
Record session := { world_of : world; inst : config; table_of : rc_table }.
(** runtime_config.py:91-126, one action. *)
Definition rc_step (known : string -> bool) (s : session) (o : rc_op) : session :=
  match o with
  | RUpdate c => {| world_of := world_of s; inst := cfg_update (inst s) (Some c); table_of := table_of s |}
  | RSheets n => {| world_of := world_of s; inst := snd (use_sheets (world_of s) (inst s) n); table_of := table_of s |}
  | RGlobal => {| world_of := world_of s; inst := inst s; table_of := snd (set_global (world_of s) known (table_of s) (inst s)) |}
  | RWrite sec k v =>
      match od_get String.eqb (inst s) sec with
      | None => s
      | Some r => {| world_of := {| sections := upd_nth (sections (world_of s)) r (od_set String.eqb (nth r (sections (world_of s)) []) k v);
                                    default := default (world_of s); sheets := sheets (world_of s) |};
                     inst := inst s; table_of := table_of s |}
      end
  end.
(** runtime_config.py:91-93: The contents of a configuration. *)
Definition contents (w : world) (c : config) (sec k : string) : option pv :=
  match od_get String.eqb c sec with Some r => od_get String.eqb (nth r (sections w) []) k | None => None end.
