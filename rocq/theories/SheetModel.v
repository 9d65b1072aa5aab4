(** Model of /repo/src/pyhipp/io/excel/__init__.py (class Excel).
    pandas is external: a workbook is the ordered list of its sheets; writing a table and reading it back gives the same
    table (float formatting, index column and dtype changes are pandas'); writing a sheet name a second time overlays the
    cells ([overlay]); the writer refuses some names ([ok_name], e.g. characters like '/'; ValueError) and an empty
    workbook (openpyxl: IndexError). *)
From Verif Require Import Base Str.
Local Open Scope list_scope. Local Open Scope nat_scope.

Section Sheets.
  Context {T : Type}.                         (* tables: pandas.DataFrame *)
  Variable ok_name : string -> bool.
  Variable overlay : T -> T -> T.

  (** io/excel/__init__.py:64-70, a table, or a mapping of names to nodes. *)
  Inductive node := Table (t : T) | Dict (es : list (string * node)).
  Notation dict := (list (string * node)).

  (** excel/__init__.py:64-70, the separator. *)
  Definition dot : ascii := "."%char.
  (** excel/__init__.py:64-70, the sheet name of a path. *)
  Definition dotted (prefix k : string) : string :=
    if is_empty prefix then k else String.append prefix (String dot k).

  (** excel/__init__.py:64-70 dump_file on a writer: the calls of to_excel(sheet_name, table), in order. *)
  Fixpoint sheets_of (prefix : string) (d : node) : list (string * T) :=
    match d with
    | Table t => [(prefix, t)]
    | Dict es => flat_map (fun kv => sheets_of (dotted prefix (fst kv)) (snd kv)) es
    end.

  (** excel/__init__.py:64-70: DataFrame.to_excel on an open writer. *)
  Definition to_excel (book : list (string * T)) (name : string) (t : T) : result (list (string * T)) :=
    if ok_name name
    then Ok (od_set String.eqb book name (match od_get String.eqb book name with Some old => overlay old t | None => t end))
    else Err ValueError.
  (** excel/__init__.py:64-70, one sheet after the other. *)
  Fixpoint write_all (book : list (string * T)) (calls : list (string * T)) : result (list (string * T)) :=
    match calls with [] => Ok book | (n, t) :: calls' => bind (to_excel book n t) (fun b => write_all b calls') end.
  (** excel/__init__.py:59-63: with pd.ExcelWriter(file) as writer: ..., then saved. *)
  Definition dump_file (d : node) (sheet_prefix : string) : result (list (string * T)) :=
    bind (write_all [] (sheets_of sheet_prefix d)) (fun book => match book with [] => Err IndexError | _ => Ok book end).

  (** excel/__init__.py:94-97: the walk with setdefault; no dict is shared, so updating in place is the same as rebuilding.  When a table is in
      the way, [setdefault] is not an attribute of a DataFrame (AttributeError), and as the last container it would get a
      column assigned (treated as ValueError). *)
  Fixpoint put (d : dict) (path : list string) (v : node) : result dict :=
    match path with
    | [] => Err IndexError
    | [k] => Ok (od_set String.eqb d k v)
    | k :: ((_ :: _) as rest) =>
        match od_get String.eqb d k with
        | None => rmap (fun sub => od_set String.eqb d k (Dict sub)) (put [] rest v)
        | Some (Dict sub) => rmap (fun sub => od_set String.eqb d k (Dict sub)) (put sub rest v)
        | Some (Table _) => Err (match rest with [_] => ValueError | _ => AttributeError end)
        end
    end.
  (** excel/__init__.py:85-98 __reorder_input. *)
  Fixpoint reorder_loop (d : dict) (items : list (string * T)) : result dict :=
    match items with
    | [] => Ok d
    | (key, val) :: items' =>
        bind (if negb (has_char dot key) then Ok (od_set String.eqb d key (Table val)) else put d (split_on dot key) (Table val))
             (fun d => reorder_loop d items')
    end.
  (** excel/__init__.py:85-98. *)
  Definition reorder_input (items : list (string * T)) : result dict := reorder_loop [] items.
  (** excel/__init__.py:72-83 load_file.  With as_datatables, [v.to_dict(orient='series', index=False)] is evaluated for every sheet, and
      pandas raises ValueError ('index=False' is only valid for 'split' and 'tight'). *)
  Definition load_file (book : list (string * T)) (as_datatables reorder : bool) : result dict :=
    if as_datatables && negb (Nat.eqb (length book) 0) then Err ValueError
    else if reorder then reorder_input book else Ok (map (fun kv => (fst kv, Table (snd kv))) book).
End Sheets.
Arguments node : clear implicits.
Arguments Table {T}. Arguments Dict {T}.
