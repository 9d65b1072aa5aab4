(** astro/coords/cvt.py in IEEE double precision (Flocq binary64).  [pyfloat] is Python's float(str): any function from strings to doubles or an
    exception.  frame.py's shift_to in doubles is ProcModel.shift_to over ProcFloat.arith64. *)
From Coq Require Import ZArith List.
Require Import Flocq.Core.Core Flocq.IEEE754.BinarySingleNaN.
From Verif Require Import Base Str ProcFloat.
Import ListNotations. Local Open Scope list_scope.

(** cvt.py:5-6, 12-13: the argument, a string or a sequence of numbers (integers up to 2^53 are converted exactly). *)
Inductive f_angle_arg := FStr (s : string) | FTup (l : list b64).
(** cvt.py:6-8, 13-15: split and convert, then unpack into three. *)
Definition f_fields (pyfloat : string -> result b64) (a : f_angle_arg) : result (b64 * b64 * b64) :=
  bind (match a with FStr s => mapM pyfloat (split_on ":"%char s) | FTup l => Ok l end) (fun l =>
  match l with [a; b; c] => Ok (a, b, c) | _ => Err ValueError end).
(** cvt.py:9, 16: d + m / 60. + s / 3600., from the left. *)
Definition f_combine (d m s : b64) : b64 := add64 (add64 d (div64 m (of_Z64 60))) (div64 s (of_Z64 3600)).
(** cvt.py:5-10. *)
Definition f_dms_to_deg (pyfloat : string -> result b64) (a : f_angle_arg) : result b64 :=
  bind (f_fields pyfloat a) (fun '(d, m, s) => Ok (f_combine d m s)).
(** cvt.py:12-17. *)
Definition f_hms_to_deg (pyfloat : string -> result b64) (a : f_angle_arg) : result b64 :=
  bind (f_fields pyfloat a) (fun '(h, m, s) => Ok (mul64 (f_combine h m s) (of_Z64 15))).
