(** Model of /repo/src/pyhipp/stats/kernel.py over the real numbers. *)
From Coq Require Import Reals.
From Verif Require Import Base Str.
Local Open Scope list_scope. Local Open Scope R_scope.

(** kernel.py:21-68: A kernel: Gaussian or Tophat with its parameter. *)
Inductive kernel := Gaussian (sigma : R) | Tophat (radius : R).
(** kernel.py:32-36 Gaussian._impl (for sigma <> 0; numpy divides by zero without an exception), 48-51 Tophat._impl; one distance.
    14-16 __call__ on an array works elementwise. *)
Definition kernel_at (k : kernel) (d : R) : R :=
  match k with
  | Gaussian sigma => exp (-0.5 * (d * d) / (sigma * sigma))
  | Tophat radius => if Rlt_dec d radius then 1 else 0
  end.
(** kernel.py:14-16. *)
Definition kernel_call (k : kernel) (ds : list R) : list R := map (kernel_at k) ds.
(** kernel.py:58-68 Tophat._ball_volume; the recursion goes down by two. *)
Fixpoint ball (n : nat) (r : R) : R :=
  match n with
  | O => 1
  | S O => 2 * r
  | S (S m) => 2 * PI / INR n * r * r * ball m r
  end.
(** kernel.py:58-68. *)
Definition ball_volume (n : Z) (r : R) : result R := if (n <? 0)%Z then Err AssertionError else Ok (ball (Z.to_nat n) r).
(** kernel.py:58-68: The radius None: [2.0 * None] is a TypeError; only dimension 0 never looks at it. *)
Definition ball_volume_none (n : Z) : result R := if (n <? 0)%Z then Err AssertionError else if (n =? 0)%Z then Ok 1 else Err TypeError.
(** kernel.py:53-56 Tophat.volume. *)
Definition tophat_kernel_volume (radius : R) (n : Z) (max_radius : option R) : result R :=
  match max_radius with Some m => ball_volume n (Rmin m radius) | None => ball_volume_none n end.

(** kernel.py:71, 84-95: what a kernel may be given as, and _Predefined.create.  The table is a DataDict with the two entries; its lookup
    ignores slashes around the name (C01).  [kw] are the keyword arguments by name; the constructors accept sigma / radius
    (and name, not modelled). *)
Inductive spec := SKernel (k : kernel) | SName (s : string) | SNumber (x : R) | SPair (s : string) (kw : list (string * R)).
(** kernel.py:75-82, 86. *)
Definition key_of (k : kernel) : string := match k with Gaussian _ => "gaussian" | Tophat _ => "tophat" end.
(** kernel.py:26-30, 43-46, the constructor with one keyword. *)
Definition one_arg (param : string) (mk : R -> kernel) (kw : list (string * R)) : result kernel :=
  match kw with
  | [] => Ok (mk 1)
  | [(p, v)] => if String.eqb p param then Ok (mk v) else Err TypeError
  | _ => Err TypeError
  end.
(** kernel.py:84-95. *)
Definition lookup (key : string) (kw : list (string * R)) : result kernel :=
  if String.eqb key "gaussian" then one_arg "sigma" Gaussian kw else if String.eqb key "tophat" then one_arg "radius" Tophat kw else Err KeyError.
(** kernel.py:84-95. *)
Definition construct (s : string) (kw : list (string * R)) : result kernel :=
  if has_char "/" s then
    match nonempty_segments "/" s with
    | [] => Err AssertionError
    | [key] => lookup key kw
    | key :: _ => if (String.eqb key "gaussian" || String.eqb key "tophat")%bool then Err TypeError else Err KeyError
    end
  else lookup s kw.
(** kernel.py:84-95 [create]. *)
Definition create (k : spec) : result (string * kernel) :=
  match k with
  | SKernel k => Ok (key_of k, k)
  | SName s => rmap (pair s) (construct s [])
  | SNumber x => rmap (pair "gaussian"%string) (construct "gaussian" [("sigma"%string, x)])
  | SPair s kw => rmap (pair s) (construct s kw)
  end.
