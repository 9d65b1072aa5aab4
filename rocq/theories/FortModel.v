(** Model of /repo/src/pyhipp/io/binary/fortran.py (class BinaryFile) for a file opened for reading.
    The file is a list of bytes, the state of the object is the position.  An array of dtype with [itemsize] s is the list
    of its elements, each given by its s raw bytes (decoding of the elements is numpy's).  The machine is little-endian. *)
From Coq.Strings Require Import Byte.
From Verif Require Import Base.
Local Open Scope list_scope. Local Open Scope nat_scope.

(** fortran.py:39-48, 57-66: The [dtype] argument: np.dtype instances have an integer [itemsize]; for a scalar type such as np.int32 (also accepted
    by np.fromfile) [np.int32.itemsize] is a descriptor and [descriptor * n] raises TypeError. *)
Record dtype := { itemsize : nat; is_instance : bool }.
(** fortran.py:44-55, np.int32. *)
Definition np_int32 : dtype := {| itemsize := 4; is_instance := false |}.

(** fortran.py:30-55, value or exception and the new position. *)
Definition outcome (A : Type) := (result A * nat)%type.   (* value or exception, and the new position *)

(** fortran.py:30-31 seek (io.BufferedReader): a negative target position raises OSError. *)
Definition seek (file : list byte) (pos : nat) (offset : Z) (whence : nat) : outcome nat :=
  let base := match whence with 0 => 0%Z | 1 => Z.of_nat pos | _ => Z.of_nat (length file) end in
  if (base + offset <? 0)%Z then (Err OSError, pos) else (Ok (Z.to_nat (base + offset)), Z.to_nat (base + offset)).

(** fortran.py:33-34 load_bytes: f.read(n). *)
Definition load_bytes (file : list byte) (pos : nat) (n : Z) : outcome (list byte) :=
  if (n <? -1)%Z then (Err ValueError, pos)
  else let bs := if (n =? -1)%Z then skipn pos file else firstn (Z.to_nat n) (skipn pos file) in (Ok bs, pos + length bs).

(** fortran.py:39-42: Consecutive pieces of [s] bytes, an incomplete last piece is dropped. *)
Fixpoint pieces (fuel s : nat) (bs : list byte) : list (list byte) :=
  match fuel with
  | 0 => []
  | S fuel' => if Nat.leb s (length bs) then firstn s bs :: pieces fuel' s (skipn s bs) else []
  end.

(** fortran.py:39-42: np.fromfile(f, dtype, count): reads at most [count] elements (all when negative) and gives back what it found; the
    position is where the C library's fread stopped (the end of the file if a short element was met). *)
Definition fromfile (file : list byte) (pos : nat) (d : dtype) (count : Z) : outcome (list (list byte)) :=
  let s := itemsize d in
  if Nat.eqb s 0 then (Err ValueError, pos)
  else
    let avail := skipn pos file in
    let want := if (count <? 0)%Z then length avail / s * s else Z.to_nat count * s in
    let bs := firstn want avail in
    (Ok (pieces (length bs) s bs), pos + length bs).

(** fortran.py:57-66 _rec_size. *)
Definition rec_size (d : dtype) (n : option Z) : result Z :=
  if is_instance d then Ok (Z.of_nat (itemsize d) * match n with Some n => n | None => 1 end)%Z else Err TypeError.

(** fortran.py:36-37 skip_rec. *)
Definition skip_rec (file : list byte) (pos : nat) (d : dtype) (n : option Z) : outcome unit :=
  match rec_size d n with
  | Err e => (Err e, pos)
  | Ok k => let '(r, pos') := seek file pos k 1 in (rmap (fun _ => tt) r, pos')
  end.

(** fortran.py:39-42 load_rec; without [n] the first element of a one-element array (IndexError if there is none), here the
    one-element list. *)
Definition load_rec (file : list byte) (pos : nat) (d : dtype) (n : option Z) : outcome (list (list byte)) :=
  match n with
  | None => match fromfile file pos d 1 with
            | (Ok (x :: _), pos') => (Ok [x], pos')
            | (Ok [], pos') => (Err IndexError, pos')
            | (Err e, pos') => (Err e, pos')
            end
  | Some n => fromfile file pos d n
  end.

(** fortran.py:44-55: The value of a 4-byte little-endian signed integer. *)
Definition int32_of (bs : list byte) : Z :=
  let u := fold_right (fun b acc => (Z.of_N (Byte.to_N b) + 256 * acc)%Z) 0%Z bs in if (u <? 2 ^ 31)%Z then u else (u - 2 ^ 32)%Z.

(** fortran.py:44-55: self.load_rec(np.int32) *)
Definition load_marker (file : list byte) (pos : nat) : outcome Z :=
  let '(r, pos') := load_rec file pos np_int32 None in (rmap (fun xs => int32_of (concat xs)) r, pos').

(** fortran.py:50-55 load_sect. *)
Definition load_sect (file : list byte) (pos : nat) (d : dtype) (n : option Z) : outcome (list (list byte)) :=
  match load_marker file pos with
  | (Err e, p) => (Err e, p)
  | (Ok n1, p) =>
      match load_rec file p d n with
      | (Err e, p) => (Err e, p)
      | (Ok data, p) =>
          match load_marker file p with
          | (Err e, p) => (Err e, p)
          | (Ok n2, p) => ((if (n1 =? n2)%Z then Ok data else Err AssertionError), p)
          end
      end
  end.

(** fortran.py:44-48 skip_sect. *)
Definition skip_sect (file : list byte) (pos : nat) (d : dtype) (n : option Z) : outcome unit :=
  match load_marker file pos with
  | (Err e, p) => (Err e, p)
  | (Ok n1, p) =>
      match skip_rec file p d n with
      | (Err e, p) => (Err e, p)
      | (Ok _, p) =>
          match load_marker file p with
          | (Err e, p) => (Err e, p)
          | (Ok n2, p) => ((if (n1 =? n2)%Z then Ok tt else Err AssertionError), p)
          end
      end
  end.

(** fortran.py:44-55: A reading session: the loads and skips a caller makes, stopping at the first exception. *)
Inductive sop := Load (d : dtype) (n : option Z) | Skip (d : dtype) (n : option Z).
(** fortran.py:44-55, one call. *)
Definition sop_run (file : list byte) (pos : nat) (o : sop) : outcome (option (list (list byte))) :=
  match o with
  | Load d n => let '(r, p) := load_sect file pos d n in (rmap Some r, p)
  | Skip d n => let '(r, p) := skip_sect file pos d n in (rmap (fun _ => None) r, p)
  end.
(** fortran.py:44-55, several calls. *)
Fixpoint session (file : list byte) (pos : nat) (ops : list sop) : outcome (list (option (list (list byte)))) :=
  match ops with
  | [] => (Ok [], pos)
  | o :: ops' =>
      match sop_run file pos o with
      | (Err e, p) => (Err e, p)
      | (Ok a, p) => let '(r, p') := session file p ops' in (rmap (cons a) r, p')
      end
  end.

(** ** vocabulary for the theorems *)
(** fortran.py:57-66: Number of elements asked for. *)
Definition count_of (n : option Z) : nat := match n with Some n => Z.to_nat n | None => 1 end.
(** fortran.py:57-66, the count is not negative. *)
Definition nonneg (n : option Z) : Prop := match n with Some n => (0 <= n)%Z | None => True end.

(** fortran.py:44-55, its dtype argument. *)
Definition sop_dtype (o : sop) := match o with Load d _ => d | Skip d _ => d end.
(** fortran.py:44-55, its count argument. *)
Definition sop_count (o : sop) := match o with Load _ n => n | Skip _ n => n end.
(** fortran.py:57-66: The operation asks for exactly the record's size. *)
Definition sop_fits (o : sop) (payload : list byte) : Prop :=
  itemsize (sop_dtype o) <> 0 /\ nonneg (sop_count o) /\ count_of (sop_count o) * itemsize (sop_dtype o) = length payload /\
  match o with Skip d _ => is_instance d = true | _ => True end.
(** fortran.py:44-55, a load returns the elements of the record, a skip nothing. *)
Definition answer (o : sop) (payload : list byte) (a : option (list (list byte))) : Prop :=
  match o, a with
  | Load d n, Some xs => concat xs = payload /\ length xs = count_of n /\ Forall (fun x => length x = itemsize d) xs
  | Skip _ _, None => True
  | _, _ => False
  end.
