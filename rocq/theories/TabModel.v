(** Model of the tabulated quantities of /repo/src/pyhipp/astro/cosmology/halo_theory.py (lg_sigma, dlg_sigma_dlg_m, lg_delta_c, the tables behind
    them) and of the interpolator of lg sigma in /repo/src/pyhipp/astro/cosmology/power_spectrum.py.  Floats are real numbers: no rounding, no NaN. *)
From Coq Require Import Reals.
From Verif Require Import Base InterpModel LinModel CosmModel PowModel HaloModel.
Local Open Scope list_scope. Local Open Scope R_scope.

(** What halo_theory.py:193-202 reads from the data file: the five datasets; [None]: that dataset, or the group it is in, is not there. *)
Record table := { t_z : option (list R); t_delta_c : option (list R); t_m : option (list R); t_sigma : option (list R); t_dsigma : option (list R) }.
(** halo_theory.py:193-202: h5py's [g['name']]: KeyError if missing. *)
Definition item (d : option (list R)) : result (list R) := match d with Some x => Ok x | None => Err KeyError end.

(** halo_theory.py:221-225 __find_quantity_info: the first and last entry and the mean of the differences of neighbours.  (The mean of no
    differences, NaN in numpy, is 0 here; tables that short have been refused before.) *)
Record info := { i_first : R; i_last : R; i_step : R }.
(** numpy.diff, halo_theory.py:224 *)
Fixpoint diffs (xs : list R) : list R := match xs with a :: ((b :: _) as t) => b - a :: diffs t | _ => [] end.
(** ndarray.mean, halo_theory.py:224 *)
Definition mean (xs : list R) : R := fold_right Rplus 0 xs / INR (length xs).
(** halo_theory.py:221-225 *)
Definition find_info (xs : list R) : result info :=
  match xs with [] => Err IndexError | x0 :: _ => Ok {| i_first := x0; i_last := last xs x0; i_step := mean (diffs xs) |} end.

(** halo_theory.py:208-219: the dictionary __interp. *)
Record interps := { n_z : info; n_delta_c : info; n_m : info; n_sigma : info; n_dsigma : info;
  f_sigma : R -> result R; f_dsigma : R -> result R; f_delta_c : R -> result R }.
(** halo_theory.py:192-219 __interp: the file is read, three interpolators are built, the five ranges are found, in this order. *)
Definition read_interps (file : option table) : result interps :=
  match file with
  | None => Err FileNotFoundError
  | Some t =>
      bind (item (t_z t)) (fun z => bind (item (t_delta_c t)) (fun delta_c => bind (item (t_m t)) (fun lg_m =>
      bind (item (t_sigma t)) (fun sigma => bind (item (t_dsigma t)) (fun dsigma =>
      bind (interp1d lg_m sigma false) (fun fs => bind (interp1d lg_m dsigma false) (fun fd => bind (interp1d z delta_c false) (fun fc =>
      bind (find_info z) (fun i1 => bind (find_info delta_c) (fun i2 => bind (find_info lg_m) (fun i3 => bind (find_info sigma) (fun i4 =>
      bind (find_info dsigma) (fun i5 =>
        Ok {| n_z := i1; n_delta_c := i2; n_m := i3; n_sigma := i4; n_dsigma := i5; f_sigma := fs; f_dsigma := fd; f_delta_c := fc |})))))))))))))
  end.

(** halo_theory.py:142-155 lg_sigma, dlg_sigma_dlg_m, lg_delta_c *)
Inductive quantity := LgSigma | DLgSigma | LgDeltaC.
(** halo_theory.py:146, 152, 155: which interpolator of the dictionary is called *)
Definition pick (i : interps) (q : quantity) : R -> result R := match q with LgSigma => f_sigma i | DLgSigma => f_dsigma i | LgDeltaC => f_delta_c i end.
(** halo_theory.py:191-192 (functools.cached_property), 142-155: the object remembers the dictionary of its first successful reading; a reading that
    raises is not remembered.  [file] is what the data file holds at the time of the call.  An array of queries is answered entry by entry; interp1d
    raises ValueError if any is out of range. *)
Definition ask (cache : option interps) (file : option table) (q : quantity) (xs : list R) : result (list R) * option interps :=
  match cache with
  | Some i => (mapM (pick i q) xs, Some i)
  | None => match read_interps file with Err e => (Err e, None) | Ok i => (mapM (pick i q) xs, Some i) end
  end.
(** halo_theory.py:142-155, 193-218: A history of calls, each with the contents of the data file at its time. *)
Fixpoint asks (cache : option interps) (calls : list (option table * quantity * list R)) : list (result (list R)) :=
  match calls with
  | [] => []
  | (file, q, xs) :: rest => let '(r, cache') := ask cache file q xs in r :: asks cache' rest
  end.

(** ** numerical/interpolate.py over the real numbers (InterpModel.v has it over rationals) *)
(** numerical/interpolate.py:10-31: [<] of floats without NaN *)
Definition Rltb (a b : R) : bool := if Rlt_dec a b then true else false.
(** interpolate.py:65-77, 80-94, 97-100 *)
Definition linear_value (xs ys : list R) (q : R) : result R :=
  bind (bisearch Rltb xs q) (fun l =>
  bind (if (l <? 0)%Z then Ok (0%nat, 0%nat, (0, 1))
        else if (Z.of_nat (length xs) - 1 <? l + 1)%Z then Ok ((length xs - 1)%nat, (length xs - 1)%nat, (1, 0))
        else bind (at_ xs (Z.to_nat l)) (fun xl => bind (at_ xs (Z.to_nat (l + 1))) (fun xr =>
               let dl := q - xl in let dr := xr - q in let dx := dl + dr in Ok (Z.to_nat l, Z.to_nat (l + 1), (dr / dx, dl / dx)))))
       (fun '(l, r, (wl, wr)) => bind (at_ ys l) (fun yl => bind (at_ ys r) (fun yr => Ok (yl * wl + yr * wr))))).
(** interpolate.py:140-143: [(x_nodes[1:] - x_nodes[:-1]).all()] *)
Fixpoint all_differ (xs : list R) : bool :=
  match xs with a :: ((b :: _) as t) => (if Req_EM_T (b - a) 0 then false else true) && all_differ t | _ => true end.
(** interpolate.py:130-149: Linear(x_nodes, y_nodes, True); its value_at *)
Definition linear_checked (xs ys : list R) : result (R -> result R) :=
  if Nat.eqb (length ys) (length xs) && all_differ xs then
    if Nat.leb 2 (length xs) then Ok (linear_value xs ys) else Err AssertionError
  else Err AssertionError.

(** power_spectrum.py:695 [np.log10(np.sqrt(sigma_sqr))] *)
Definition lg (x : R) : R := ln x / ln 10.
(** power_spectrum.py:682-697 interp_lg_sigma_at_lg_mass; sigma^2 as in PowModel.v ([T]: the transfer function). *)
Definition interp_lg_sigma (T : R -> R) (c : cosm) (lm1 lm2 : R) (n : nat) : result (R -> result R) :=
  let lm := linspace lm1 lm2 n in
  linear_checked lm (map (fun x => lg (sqrt (sigma_sqr_at_mass T c (Rpower 10 x) 0))) lm).
