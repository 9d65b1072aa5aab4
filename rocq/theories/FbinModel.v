(** BinnedData and BiSearchBins of /repo/src/pyhipp/stats/binning.py in IEEE-754 binary64 (Flocq), dtype float, shape (). *)
From Coq Require Import ZArith List Bool.
Require Import Flocq.Core.Core Flocq.IEEE754.BinarySingleNaN.
From Verif Require Import Base ProcFloat BinModel BinFloatModel FredModel GfltModel.
Import ListNotations. Local Open Scope list_scope. Local Open Scope nat_scope.

(** binning.py:230 np.sort's comparison: NaN behind all numbers. *)
Definition sort_lt (a b : b64) : bool := Bltb a b || (negb (is_nan a) && is_nan b).
(** binning.py:226-240 BiSearchBins.__init__ on a one-dimensional array. *)
Definition fs_new (edges : list b64) : result (list b64) := let e := np_sort sort_lt edges in if 2 <=? length e then Ok e else Err AssertionError.
(** Either class (binning.py:122-172). *)
Inductive xbins := Equal (s : fbins) | Explicit (edges : list b64).
(** binning.py:190-194; 242-244 (np.searchsorted(.., side='right') - 1, the expression of grid.py:41-46). *)
Definition x_locate (b : xbins) (x : b64) : Z := match b with Equal s => f_locate s x | Explicit e => f_grid_locate e x end.
(** binning.py:205-207, 254-256 [n_bins]. *)
Definition x_bins (b : xbins) : Z := match b with Equal s => fb_n s | Explicit e => (Z.of_nat (length e) - 1)%Z end.
(** binning.py:263-276. *)
Record fdata := { fd_bins : xbins; fd_data : list b64 }.
(** binning.py:263-276: np.zeros. *)
Definition fd_new (b : xbins) : fdata := {| fd_bins := b; fd_data := repeat zero64 (Z.to_nat (x_bins b)) |}.
(** binning.py:297-298, 307-308. *)
Definition fd_at (data : list b64) (id : Z) (w : b64) : list b64 :=
  if (0 <=? id)%Z && (id <? Z.of_nat (length data))%Z then upd_nth data (Z.to_nat id) (add64 (nth (Z.to_nat id) data zero64) w) else data.
(** binning.py:292-298 (data[id] += 1) and 300-308. *)
Definition fd_add (s : fdata) (x : list b64) (w : option (list b64)) : result fdata :=
  let ids := map (x_locate (fd_bins s)) x in
  match w with
  | None => Ok {| fd_bins := fd_bins s; fd_data := fold_left (fun d id => fd_at d id (of_Z64 1)) ids (fd_data s) |}
  | Some w => if length ids =? length w
              then Ok {| fd_bins := fd_bins s; fd_data := fold_left (fun d p => fd_at d (fst p) (snd p)) (combine ids w) (fd_data s) |}
              else Err AssertionError
  end.
(** binning.py:284-290: a caller that goes on after an exception. *)
Definition fd_step (s : fdata) (c : list b64 * option (list b64)) : fdata := match fd_add s (fst c) (snd c) with Ok s' => s' | Err _ => s end.
(** binning.py:284-290: a history of add calls. *)
Definition fd_run (s : fdata) (h : list (list b64 * option (list b64))) : fdata := fold_left fd_step h s.
