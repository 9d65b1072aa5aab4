(** Model of /repo/src/pyhipp/astro/coords/cvt.py over exact numbers.  [pyfloat] is Python's float(str): any function from
    strings to numbers or ValueError. *)
From Coq Require Import QArith.
From Verif Require Import Base Str.
Local Open Scope Q_scope.

(** cvt.py:5-6, 12-13: The argument: a string, or a sequence of numbers. *)
Inductive angle_arg := AStr (s : string) | ATup (l : list Q).
(** cvt.py:7, 14, the separator. *)
Definition colon : ascii := ":"%char.
(** cvt.py:6-8, 13-15: split and convert, then unpack into three. *)
Definition fields (pyfloat : string -> result Q) (a : angle_arg) : result (Q * Q * Q) :=
  bind (match a with AStr s => mapM pyfloat (split_on colon s) | ATup l => Ok l end) (fun l =>
  match l with [a; b; c] => Ok (a, b, c) | _ => Err ValueError end).
(** cvt.py:5-10 *)
Definition dms_to_deg (pyfloat : string -> result Q) (a : angle_arg) : result Q :=
  bind (fields pyfloat a) (fun '(d, m, s) => Ok (d + m / 60 + s / 3600)).
(** cvt.py:12-17 *)
Definition hms_to_deg (pyfloat : string -> result Q) (a : angle_arg) : result Q :=
  bind (fields pyfloat a) (fun '(h, m, s) => Ok ((h + m / 60 + s / 3600) * 15)).
