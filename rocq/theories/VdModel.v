(** Model of /repo/src/pyhipp/astro/stats/lss.py, BinnedVolumeDensity (without noise). *)
From Coq Require Import QArith Reals Qreals.
From Verif Require Import Base OrderSpec BinSpec BinModel FrameModel.
Local Open Scope list_scope. Local Open Scope nat_scope.

(** lss.py:67-81: np.histogram(x, bins=edges, weights): edges must not decrease; half-open bins, the last one closed (numpy's documented
    behaviour for explicit edges). *)
Definition np_histogram_edges (x : list Q) (e : list Q) (w : option (list Q)) : result (list Q * list Q) :=
  let ws := match w with None => repeat 1%Q (length x) | Some w => w end in
  if negb (Nat.eqb (length x) (length ws)) then Err ValueError
  else if negb (nondecreasing e) then Err ValueError
  else Ok (map (fun i => weight_where (in_window e i (S i)) (combine x ws)) (seq 0 (length e - 1)), e).
(** binning.py:107-120 Hist1D.from_overlapped_bins with explicit edges. *)
Definition from_overlapped_edges (x : list Q) (e : list Q) (sub_bins : nat) (w : option (list Q)) : result hist1d :=
  bind (np_histogram_edges x e w) (fun '(h0, e) =>
  bind (edges_to_centers e sub_bins) (fun c =>
  bind (edges_to_widths e sub_bins) (fun d =>
  bind (combine_adjacent_bins h0 (Z.of_nat sub_bins)) (fun h =>
    Ok {| h_x := c; h_dx := d; h_h := h; h_sub_e := e; h_sub_h := h |})))).

(** lss.py:65-82 __hist: the statistic computed on one resampled set (weights present or not). *)
Definition vd_hist (s : list (Q * Q)) (weighted : bool) (bins : Z + list Q) (sub_bins : nat) (range : Q * Q) (volume : Q) : result (hist1d * list Q) :=
  let x := map fst s in let w := if weighted then Some (map snd s) else None in
  bind (match bins with inl n => from_overlapped_bins x n sub_bins (fst range) (snd range) w | inr e => from_overlapped_edges x e sub_bins w end)
       (fun r => Ok (r, zipwith (fun h dx => h / (volume * dx))%Q (h_h r) (h_dx r))).
(** lss.py:76 lg_y = dp.Num.safe_lg(y, lo=lg_y_pad) *)
Definition lg_y (pad : R) (y : list Q) : list R := map (fun v => safe_lg pad (Q2R v)) y.
(** lss.py:43-62: binning specification, selection of the samples, [ids] one draw of the bootstrap (positions in the selected
    sample, as many as there are). *)
Definition in_sel (lo hi : Q) (p : Q * Q) : bool := Qle_bool lo (fst p) && Qltb (fst p) hi.
(** lss.py:18-65, the samples inside the range. *)
Definition select (x : list Q) (w : option (list Q)) (lo hi : Q) : list (Q * Q) := filter (in_sel lo hi) (hist_samples x w).
(** lss.py:18-65, range and bins. *)
Definition binning (quant : list Q -> Q -> Q) (x : list Q) (bins : Z + list Q) (sub_bins : nat) (range p_range : option (Q * Q)) : result ((Z + list Q) * nat * (Q * Q)) :=
  bind (match bins with inl _ => rmap Some (parse_p_range_spec quant (Some x) range p_range) | inr _ => Ok range end)
       (fun range => parse_sub_bin_spec bins sub_bins range).
(** lss.py:18-65, a bootstrap resample. *)
Definition draw (s : list (Q * Q)) (ids : list nat) : list (Q * Q) := map (fun i => nth i s (0, 0)%Q) ids.
(** lss.py:18-65. *)
Definition from_raw (quant : list Q -> Q -> Q) (x : list Q) (w : option (list Q)) (volume : Q) (bins : Z + list Q) (sub_bins : nat)
    (range p_range : option (Q * Q)) (ids : list nat) : result (hist1d * list Q) :=
  bind (binning quant x bins sub_bins range p_range) (fun '(b, s, (lo, hi)) =>
    vd_hist (draw (select x w lo hi) ids) (match w with Some _ => true | None => false end) b s (lo, hi) volume).
