(** C22: spreadsheets. *)
From Verif Require Import Base Str SheetModel SheetSpec SheetProofs.
Local Open Scope list_scope. Local Open Scope nat_scope.

(** C22: a nested dict of tables that was written comes back unchanged (same keys, same nesting, same order) exactly when no
    key contains a dot, no inner dict is empty and no top-level dict is stored under the empty name.  [ok_name] and
    [overlay] (which names the writer takes, what writing a sheet twice does) are arbitrary. *)
Theorem C22_round_trip T ok_name overlay (es : list (string * node T)) book :
  unique_keys (Dict es) -> dump_file ok_name overlay (Dict es) "" = Ok book ->
  (load_file book false true = Ok es <-> plain (Dict es) /\ top_named es).
Proof.
  intros Hu Hd. split.
  - intros Hl. eapply round_trip_only; eassumption.
  - intros [Hp Ht]. eapply round_trip; eassumption.
Qed.
Print Assumptions C22_round_trip.

(** C22: whatever workbook is read, the result has no dotted key and no empty inner dict. *)
Theorem C22_loaded_shape T (book : list (string * T)) es : load_file book false true = Ok es -> plain (Dict es).
Proof. apply load_plain. Qed.
Print Assumptions C22_loaded_shape.

(** C22: the sheet names are the access paths joined by dots, in order; without reordering they are returned as they are. *)
Theorem C22_sheet_names T ok_name overlay (es : list (string * node T)) book :
  unique_keys (Dict es) -> plain (Dict es) -> top_named es -> dump_file ok_name overlay (Dict es) "" = Ok book ->
  book = map (fun p => (join_with dot (fst p), snd p)) (paths (Dict es)) /\
  load_file book false false = Ok (map (fun p => (join_with dot (fst p), Table (snd p))) (paths (Dict es))).
Proof.
  intros Hu Hp Ht Hd. apply dump_book in Hd; [|assumption..]. split; [assumption|]. subst book.
  unfold load_file. cbn [andb]. rewrite map_map. reflexivity.
Qed.
Print Assumptions C22_sheet_names.

(** Finding: load_file(as_datatables=True) always raises. *)
Theorem C22_as_datatables_refuted T ok_name overlay (d : node T) prefix book reorder :
  dump_file ok_name overlay d prefix = Ok book -> load_file book true reorder = Err ValueError.
Proof.
  unfold dump_file. destruct (write_all _ _ [] _) as [[|s b]|]; cbn [bind]; intros H; try discriminate.
  injection H as <-. reflexivity.
Qed.
Print Assumptions C22_as_datatables_refuted.

(** Non-vacuity: a nested dict that round-trips, and three that do not. *)
Definition any (_ : string) := true. Definition last_wins (_ t : nat) := t.
Definition back (d : list (string * node nat)) := bind (dump_file any last_wins (Dict d) "") (fun b => load_file b false true).
Definition nested : list (string * node nat) :=
  [("panel_a", Dict [("galaxies", Table 1); ("halos", Table 2)]); ("top", Table 3); ("x", Dict [("y", Dict [("", Table 4)])])]%string.
Example ex_nested : back nested = Ok nested. Proof. reflexivity. Qed.
Example ex_nested_ok : unique_keys (Dict nested) /\ plain (Dict nested) /\ top_named nested.
Proof.
  split; [|split].
  - unfold nested. repeat (constructor; intros; cbn in *; try intuition (try discriminate; try congruence)).
    all: repeat match goal with H : (_, _) = (_, _) |- _ => injection H as <- <- end;
      repeat (constructor; intros; cbn in *; try intuition (try discriminate; try congruence));
      repeat match goal with H : (_, _) = (_, _) |- _ => injection H as <- <- end; repeat (constructor; intros; cbn in *; try intuition (try discriminate; try congruence));
      repeat match goal with H : (_, _) = (_, _) |- _ => injection H as <- <- end; constructor.
  - apply (load_plain (match dump_file any last_wins (Dict nested) "" with Ok b => b | _ => [] end)). reflexivity.
  - intros sub H. cbn in H. intuition discriminate.
Qed.
Example ex_dot : back [("a.b", Table 1)]%string = Ok [("a", Dict [("b", Table 1)])]%string. Proof. reflexivity. Qed.
Example ex_empty_inner : back [("a", Dict []); ("b", Table 1)]%string = Ok [("b", Table 1)]%string. Proof. reflexivity. Qed.
Example ex_collision : back [("a", Dict [("b", Table 1)]); ("a.b", Table 2)]%string = Ok [("a", Dict [("b", Table 2)])]%string.
Proof. reflexivity. Qed.
Example ex_blocked : back [("a", Table 1); ("a.b", Table 2)]%string = Err ValueError. Proof. reflexivity. Qed.

(** What dump_file refuses: nothing to write (IndexError) or a sheet name the writer does not take (ValueError); it succeeds otherwise. *)
Theorem C22_dump_errors T ok_name overlay (es : list (string * node T)) :
  match dump_file ok_name overlay (Dict es) "" with
  | Ok _ => paths (Dict es) <> [] /\ forall n t, In (n, t) (sheets_of "" (Dict es)) -> ok_name n = true
  | Err e => (e = IndexError /\ paths (Dict es) = []) \/ (e = ValueError /\ exists n t, In (n, t) (sheets_of "" (Dict es)) /\ ok_name n = false)
  end.
Proof.
  assert (Len : forall (v : node T) p, length (sheets_of p v) = length (paths v)).
  { fix IH 1. intros [t|l] p; [reflexivity|]. cbn [sheets_of paths]. induction l as [|[k v] l IHl]; [reflexivity|]. cbn [flat_map fst snd]. rewrite !app_length, map_length, IHl, (IH v). reflexivity. }
  assert (W : forall calls book, match write_all ok_name overlay book calls with
     | Ok b => (forall n t, In (n, t) calls -> ok_name n = true) /\ (b = [] -> book = [] /\ calls = []) /\ (calls = [] -> b = book)
     | Err e => e = ValueError /\ exists n t, In (n, t) calls /\ ok_name n = false end).
  { induction calls as [|[n t] calls IH]; intros book; [split; [intros ? ? []|]; split; auto|]. cbn [write_all]. unfold to_excel at 1. destruct (ok_name n) eqn:O; cbn [bind].
    - set (b1 := od_set String.eqb book n _). specialize (IH b1). destruct (write_all ok_name overlay b1 calls) as [b|e].
      + destruct IH as (A & B & C). split; [intros n' t' [E|I]; [congruence|exact (A n' t' I)]|]. split; [|discriminate]. intros ->. destruct (B eq_refl) as [B1 _]. exfalso. unfold b1 in B1.
        destruct book as [|[n0 t0] book]; cbn in B1; [discriminate|]. destruct (String.eqb n n0); discriminate.
      + destruct IH as (-> & n' & t' & I & E). split; [reflexivity|]. exists n', t'. split; [right; exact I|exact E].
    - split; [reflexivity|]. exists n, t. split; [left; reflexivity|exact O]. }
  unfold dump_file. specialize (W (sheets_of "" (Dict es)) []). specialize (Len (Dict es) ""%string). destruct (write_all ok_name overlay [] (sheets_of "" (Dict es))) as [[|p b]|e]; cbn [bind].
  - left. split; [reflexivity|]. destruct W as (_ & B & _). destruct (B eq_refl) as [_ E]. rewrite E in Len. destruct (paths (Dict es)); [reflexivity|discriminate].
  - destruct W as (A & _ & C). split; [|exact A]. intros E. rewrite E in Len. destruct (sheets_of "" (Dict es)); [discriminate (C eq_refl)|discriminate].
  - right. exact W.
Qed.
Print Assumptions C22_dump_errors.
(** Sheets whose names clash as paths.  A table stands where a later sheet needs a dictionary: an error.  Finding: the other way round
    the later table silently replaces everything below that name. *)
Theorem C22_clash_refuted T (t u : T) : load_file [("a", t); ("a.b", u)]%string false true = Err ValueError /\
  load_file [("a", t); ("a.b.c", u)]%string false true = Err AttributeError /\
  load_file [("a.b", u); ("a", t)]%string false true = Ok [("a", Table t)]%string.
Proof. repeat split; reflexivity. Qed.
Print Assumptions C22_clash_refuted.
Example C22_empty_dump : dump_file (fun _ => true) (fun _ t => t) (Dict [("a", Dict [])]%string : node nat) "" = Err IndexError. Proof. reflexivity. Qed.
