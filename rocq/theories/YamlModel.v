(** Model of /repo/src/pyhipp/io/yaml.py (class ConfigFileParser) on a loaded document; a missing file raises at line 18. *)
From Verif Require Import Base Str YamlSpec.
Local Open Scope list_scope. Local Open Scope nat_scope.

(** yaml.py:17-38: [data[k]], k a str: lists, strings, numbers and None raise TypeError. *)
Definition y_get (v : yaml) (k : string) : result yaml :=
  match v with
  | YMap m => match od_get String.eqb m k with Some w => Ok w | None => Err KeyError end
  | _ => Err TypeError
  end.
(** yaml.py:17-38: [k in data]: a key of a mapping, a substring of a string, an element of a list; otherwise TypeError. *)
Definition y_in (k : string) (v : yaml) : result bool :=
  match v with
  | YMap m => Ok (od_mem String.eqb m k)
  | YStr s => Ok (match String.index 0 k s with Some _ => true | None => false end)
  | YList l => Ok (existsb (fun w => match w with YStr s => String.eqb s k | _ => false end) l)
  | YNum _ => Err TypeError
  | YNull => Err TypeError
  end.
(** [d[k] = v] on the DataDict (data_dict.py:56-86).  A key with a slash is a path: whatever happens then (which exception
    depends on the entries), [k] itself never becomes a key; modelled as KeyError. *)
Definition dd_set (d : odict string yaml) (k : string) (v : yaml) : result (odict string yaml) :=
  if has_char "/"%char k then Err KeyError else Ok (od_set String.eqb d k v).
(** yaml.py:40-43 __try_parse. *)
Fixpoint try_parse (keys : list string) (d : odict string yaml) (data : yaml) : result (odict string yaml) :=
  match keys with
  | [] => Ok d
  | k :: keys' =>
      bind (y_in k data) (fun b =>
        if b then bind (y_get data k) (fun v => bind (dd_set d k v) (fun d => try_parse keys' d data))
        else try_parse keys' d data)
  end.
(** yaml.py:22-23 *)
Fixpoint descend (data : yaml) (nodes : list string) : result yaml :=
  match nodes with [] => Ok data | k :: ks => bind (y_get data k) (fun w => descend w ks) end.
(** yaml.py:28-30 *)
Fixpoint nested_loop (keys : list string) (d : odict string yaml) (data : yaml) (nodes : list string) : result (odict string yaml) :=
  match nodes with
  | [] => Ok d
  | k :: ks => bind (y_get data k) (fun w => bind (try_parse keys d w) (fun d => nested_loop keys d w ks))
  end.
(** yaml.py:17-38 get. *)
Definition get (data : yaml) (init_nodes nested_nodes keys : list string) : result (odict string yaml) :=
  bind (descend data init_nodes) (fun data =>
  bind (try_parse keys [] data) (fun d =>
  bind (nested_loop keys d data nested_nodes) (fun d =>
    if forallb (od_mem String.eqb d) keys then Ok d else Err KeyError))).
