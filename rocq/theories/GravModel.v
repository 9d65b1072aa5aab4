(** Model of /repo/src/pyhipp/field/cubic_box/{gravity,smoothing,fft}.py and the Fourier part of mass_assignment.py, over
    the real numbers instead of float64.  Arrays are functions of their indices (GravSpec.grid), with the shape given
    separately; scipy's transforms are the documented sums of GravSpec.v; numpy.linalg.eigvalsh is a parameter. *)
From Coq Require Import Reals List ZArith.
From Verif Require Import Base GravSpec.
Local Open Scope R_scope.

(** gravity.py:147,149,180,182, smoothing.py:119,121,202,204: the integer wave number of index [i]. *)
Definition wave (n i : nat) : Z := if Nat.ltb (n / 2) i then (Z.of_nat i - Z.of_nat n)%Z else Z.of_nat i.
(** gravity.py:146-151, the vector ki of index (i0,i1,i2). *)
Definition kvec (n i0 i1 i2 : nat) : R * R * R := (IZR (wave n i0), IZR (wave n i1), INR i2).
(** gravity.py:25-29, |k|^2. *)
Definition sum_sq (k : R * R * R) : R := let '(a, b, c) := k in a * a + b * b + c * c.
(** gravity.py:25-29 _GreenFn3d.at_ki. *)
Definition green (k : R * R * R) : R := if Rlt_dec (sum_sq k) (/ 1000000) then 0 else -1 / sum_sq k.
(** gravity.py:38-44, a component of k. *)
Definition comp (k : R * R * R) (i : nat) : R := let '(a, b, c) := k in match i with O => a | S O => b | _ => c end.
(** gravity.py:131-187, a real number times a complex one. *)
Definition scal (a : R) (z : cplx) : cplx := (a * fst z, a * snd z).
(** gravity.py:38-44 _TidalTensor.at_ki. *)
Definition tidal_at (k : R * R * R) (phi : cplx) (a b : nat) : cplx := scal (- (comp k a * comp k b)) phi.
(** mass_assignment.py:31-39 shape_at_ki, 41-45 shape_at_ki_nd; 66-75 _NoneShapeFn is the constant 1. *)
Definition shape_at_ki (n : nat) (k : R) : R :=
  if Rlt_dec (Rabs k) (/ 1000000) then 1 else let x := PI * k / INR n in let sinc := sin x / x in sinc * sinc.
(** mass_assignment.py:31-39 or none. *)
Definition shape_nd (correct : bool) (n : nat) (k : R * R * R) : R :=
  if correct then let '(a, b, c) := k in 1 * shape_at_ki n a * shape_at_ki n b * shape_at_ki n c else 1.
(** smoothing.py:22-41 _Gaussian. *)
Definition gauss_window (r l_box : R) (k : R * R * R) : R := exp (-0.5 * (2 * PI * r / l_box) ^ 2 * sum_sq k).
(** smoothing.py:43-44 volume: (2 pi r^2)^(3/2). *)
Definition gauss_volume (r : R) : R := Rpower (2 * PI * r ^ 2) (3 / 2).
(** smoothing.py:54-77 _Tophat. *)
Definition tophat_at (kr : R) : R := if Rlt_dec kr (/ 1000000) then 1 else 3 * (sin kr - kr * cos kr) / kr ^ 3.
(** smoothing.py:66-75. *)
Definition tophat_window (r l_box : R) (k : R * R * R) : R := tophat_at (sqrt (sum_sq k) * (2 * PI * r / l_box)).
(** smoothing.py:77-78. *)
Definition tophat_volume (r : R) : R := 4 / 3 * PI * r ^ 3.

(** gravity.py:121-129, smoothing.py:178-186 _normalize. *)
Definition normalize (n : nat) (rho : grid R) : result (grid R) :=
  if Rlt_dec (mean n rho) (/ 10000000000) then Err ValueError else Ok (fun i j k => rho i j k / mean n rho - 1).
(** gravity.py:131-164 _solve_grav: the smoothed density and the potential. *)
Definition delta_sm_k (n : nat) (l_box r : R) (correct : bool) (delta : grid cplx) : grid cplx := fun i0 i1 i2 =>
  let k := kvec n i0 i1 i2 in scal (/ shape_nd correct n k * gauss_window r l_box k) (delta i0 i1 i2).
(** gravity.py:131-164 [_solve_grav], all modes. *)
Definition phi_k (n : nat) (l_box r : R) (correct : bool) (delta : grid cplx) : grid cplx := fun i0 i1 i2 =>
  scal (green (kvec n i0 i1 i2)) (delta_sm_k n l_box r correct delta i0 i1 i2).
(** gravity.py:166-187 _find_tidal_ij. *)
Definition tidal_k (n : nat) (phi : grid cplx) (a b : nat) : grid cplx := fun i0 i1 i2 => tidal_at (kvec n i0 i1 i2) (phi i0 i1 i2) a b.
(** gravity.py:49-74 Result; [t_eig] is lam. *)
Record tidal := { t_delta : grid R; t_delta_sm : grid R; t_phi : grid cplx; t_T : nat -> nat -> grid R; t_lam : grid (R * R * R) }.
(** gravity.py:86-119 TidalField.run.  The backward transform of the (n,n,n/2+1) array has last axis 2*(n/2): for odd n it
    cannot be stored in the (n,n,n,3,3) array (ValueError; for n = 1 scipy already refuses). The loop at 108-114 computes
    the component (a,b) with b <= a and copies it to (b,a). *)
Definition tidal_run (eig : (nat -> nat -> R) -> R * R * R) (n : nat) (l_box r : R) (correct : bool) (rho : grid R) : result tidal :=
  match normalize n rho with
  | Err e => Err e
  | Ok delta =>
      let h := Nat.div n 2 in
      if Nat.eqb (2 * h) n then
        let dk := rfftn n delta in
        let phi := phi_k n l_box r correct dk in
        let T a b := if Nat.leb b a then irfftn n h (tidal_k n phi a b) else irfftn n h (tidal_k n phi b a) in
        Ok {| t_delta := delta; t_delta_sm := irfftn n h (delta_sm_k n l_box r correct dk); t_phi := phi; t_T := T;
              t_lam := fun i j k => eig (fun a b => T a b i j k) |}
      else Err ValueError
  end.
(** smoothing.py:91-105 FFTSmoothing.run, window chosen by name. *)
Definition window (method : string) (r l_box : R) : result (R * R * R -> R) :=
  if String.eqb method "gaussian" then Ok (gauss_window r l_box)
  else if String.eqb method "tophat" then Ok (tophat_window r l_box) else Err ValueError.
(** smoothing.py:107-126 FFTSmoothing._smooth (no shape correction), 188-214 FourierSpaceSmoothing._smooth (with). *)
Definition smooth_k (n : nat) (correct : bool) (w : R * R * R -> R) (x : grid cplx) : grid cplx := fun i0 i1 i2 =>
  let k := kvec n i0 i1 i2 in scal (/ shape_nd correct n k * w k) (x i0 i1 i2).
(** smoothing.py:91-105 FFTSmoothing.run: the smoothed array must again be cubic of side n (field.py:24-31), so odd n fails. *)
Definition fft_smooth (n : nat) (l_box r : R) (method : string) (x : grid R) : result (grid R) :=
  match window method r l_box with
  | Err e => Err e
  | Ok w => let h := Nat.div n 2 in
      if Nat.eqb h 0 then Err ValueError
      else if Nat.eqb (2 * h) n then Ok (irfftn n h (smooth_k n false w (rfftn n x))) else Err AssertionError
  end.
(** smoothing.py:152-176 FourierSpaceSmoothing.run: delta_x, and delta_sm_x with the length of its last axis. *)
Definition fourier_smooth (n : nat) (l_box r : R) (method : string) (rho : grid R) : result (grid R * grid R * nat) :=
  match window method r l_box with
  | Err e => Err e
  | Ok w => match normalize n rho with
      | Err e => Err e
      | Ok delta => let h := Nat.div n 2 in
          if Nat.eqb h 0 then Err ValueError else Ok (delta, irfftn n h (smooth_k n true w (rfftn n delta)), (2 * h)%nat)
      end
  end.
