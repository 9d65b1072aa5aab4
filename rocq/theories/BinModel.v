(** Model of /repo/src/pyhipp/stats/binning.py.

    Arithmetic is over exact rationals.  A sample may also be an infinity or NaN ([num]).  Arrays are
    one-dimensional lists (the [shape] argument of BinnedData is ()). *)
From Coq Require Import QArith Qround Qminmax.
From Verif Require Import Base OrderSpec BinSpec.
Local Open Scope list_scope. Local Open Scope nat_scope.

(** ** numpy helpers *)
(** binning.py:230 (np.sort): np.sort (the result does not depend on the algorithm up to the order of equivalent elements). *)
Fixpoint ins {T} (lt : T -> T -> bool) (x : T) (l : list T) : list T :=
  match l with [] => [x] | y :: l' => if lt y x then y :: ins lt x l' else x :: l end.
(** binning.py:230, np.sort. *)
Definition np_sort {T} (lt : T -> T -> bool) (l : list T) : list T := fold_right (ins lt) [] l.
(** binning.py:244: np.searchsorted(edges, x, side='right') on a sorted array: the length of the prefix not above [x]. *)
Fixpoint searchsorted_right {T} (lt : T -> T -> bool) (edges : list T) (x : T) : nat :=
  match edges with [] => 0 | e :: es => if lt x e then 0 else S (searchsorted_right lt es x) end.
(** plot/two_dim.py:83-93: np.searchsorted(edges, x, side='left'). *)
Fixpoint searchsorted_left {T} (lt : T -> T -> bool) (edges : list T) (x : T) : nat :=
  match edges with [] => 0 | e :: es => if lt e x then S (searchsorted_left lt es x) else 0 end.
(** binning.py:211: np.linspace(a, b, num, endpoint). *)
Definition linspace (a b : Q) (num : nat) : list Q :=
  map (fun k => a + inject_Z (Z.of_nat k) * ((b - a) / inject_Z (Z.of_nat (num - 1))))%Q (seq 0 num).
(** binning.py:66, np.linspace(..., endpoint=False). *)
Definition linspace_open (a b : Q) (num : nat) : list Q :=
  map (fun k => a + inject_Z (Z.of_nat k) * ((b - a) / inject_Z (Z.of_nat num)))%Q (seq 0 num).
(** binning.py:193, np.clip. *)
Definition zclip (lo hi i : Z) : Z := Z.min (Z.max i lo) hi.
(** binning.py:192: float64 -> int64 [astype] on x86-64: every value that does not fit (and NaN, infinities) becomes -2^63. *)
Definition int64_cast (z : Z) : Z := (if (-2^63 <=? z) && (z <? 2^63) then z else -2^63)%Z.
(** Element-wise arithmetic of two slices (binning.py:75, 81, 102, 172). *)
Fixpoint zipwith {A B C} (f : A -> B -> C) (l : list A) (l' : list B) : list C :=
  match l, l' with a :: l, b :: l' => f a b :: zipwith f l l' | _, _ => [] end.

(** ** Bins *)
(** binning.py:225-240 BiSearchBins.__init__; 242-244 locate, for any element type. *)
Definition bs_new {T} (lt : T -> T -> bool) (edges : list T) : result (list T) :=
  let e := np_sort lt edges in if Nat.leb 2 (length e) then Ok e else Err AssertionError.
(** binning.py:242-244. *)
Definition bs_locate {T} (lt : T -> T -> bool) (edges : list T) (x : T) : Z := (Z.of_nat (searchsorted_right lt edges x) - 1)%Z.

(** binning.py:175-188 EqualSpaceBins.__init__. *)
Record es_bins := { es_b : Q; es_e : Q; es_n : Z; es_step : Q }.
(** binning.py:175-188. *)
Definition es_new (b e : Q) (n : Z) : result es_bins :=
  if negb (Qltb b e) then Err AssertionError else if negb (0 <? n)%Z then Err AssertionError
  else Ok {| es_b := b; es_e := e; es_n := n; es_step := ((e - b) / inject_Z n)%Q |}.
(** binning.py:190-194 EqualSpaceBins.locate, one sample. *)
Definition es_locate (s : es_bins) (x : num) : Z :=
  let id := match x with
            | Fin q => int64_cast (Qfloor ((q - es_b s) / es_step s))
            | _ => (- 2 ^ 63)%Z
            end in
  zclip (-1) (es_n s) id.
(** binning.py:209-211 EqualSpaceBins.x_edges. *)
Definition es_edges (s : es_bins) : list Q := linspace (es_b s) (es_e s) (Z.to_nat (es_n s) + 1).

(** Either class, as used through the common interface [Bins] (binning.py:122-172). *)
Inductive bins := ES (s : es_bins) | BS (edges : list Q).
(** binning.py:175-188. *)
Definition make_es (b e : Q) (n : Z) : result bins := rmap ES (es_new b e n).
(** binning.py:226-240. *)
Definition make_bs (edges : list Q) : result bins := rmap BS (bs_new Qltb edges).
(** binning.py:190-194, 242-244. *)
Definition locate (b : bins) (x : num) : Z :=
  match b with ES s => es_locate s x | BS edges => bs_locate np_lt (map Fin edges) x end.
(** binning.py:196-215, 246-261 [n_bins]. *)
Definition n_bins (b : bins) : Z := match b with ES s => es_n s | BS edges => (Z.of_nat (length edges) - 1)%Z end.
(** binning.py:209-211, 246-261 [x_edges]. *)
Definition x_edges (b : bins) : list Q := match b with ES s => es_edges s | BS edges => edges end.
(** binning.py:169-172 x_centers. *)
Definition x_centers (b : bins) : list Q :=
  zipwith (fun l r => (1 # 2) * (l + r))%Q (removelast (x_edges b)) (tl (x_edges b)).
(** binning.py:139-147 locate_bound. *)
Definition locate_bound (b : bins) (lower upper : bool) (x : num) : Z :=
  let i := locate b x in
  let i := if lower then Z.max i 0 else i in
  if upper then Z.min i (n_bins b - 1) else i.
(** binning.py:149-159 locate_nearest, finite sample. *)
Definition edge_at (b : bins) (i : Z) : Q := nth (Z.to_nat i) (x_edges b) 0%Q.
(** binning.py:149-159. *)
Definition locate_nearest (b : bins) (x : Q) : Z :=
  let l := locate_bound b true true (Fin x) in
  let r := (l + 1)%Z in
  if Qltb (x - edge_at b l) (edge_at b r - x) then l else r.

(** ** BinnedData, binning.py:263-310 *)
(** binning.py:263-310, as above. *)
Record binned := { bd_bins : bins; bd_data : list Q }.
(** binning.py:263-282. *)
Definition bd_new (b : bins) : binned := {| bd_bins := b; bd_data := repeat 0%Q (Z.to_nat (n_bins b)) |}.
(** binning.py:292-308, data[id] += w for ids inside the range. *)
Definition add_at (data : list Q) (id : Z) (w : Q) : list Q :=
  if ((0 <=? id) && (id <? Z.of_nat (length data)))%Z
  then upd_nth data (Z.to_nat id) (nth (Z.to_nat id) data 0 + w)%Q else data.
(** binning.py:284-290 add; 292-298 unweighted; 300-308 weighted. *)
Definition bd_add (s : binned) (x : list num) (w : option (list Q)) : result binned :=
  let ids := map (locate (bd_bins s)) x in
  match w with
  | None => Ok {| bd_bins := bd_bins s; bd_data := fold_left (fun d id => add_at d id 1%Q) ids (bd_data s) |}
  | Some w => if Nat.eqb (length ids) (length w)
              then Ok {| bd_bins := bd_bins s; bd_data := fold_left (fun d p => add_at d (fst p) (snd p)) (combine ids w) (bd_data s) |}
              else Err AssertionError
  end.
(** binning.py:284-290: A caller that goes on after an exception. *)
Definition bd_step (s : binned) (c : list num * option (list Q)) : binned :=
  match bd_add s (fst c) (snd c) with Ok s' => s' | Err _ => s end.
(** binning.py:284-290, a history of add. *)
Definition bd_run (s : binned) (h : list (list num * option (list Q))) : binned := fold_left bd_step h s.

(** ** class Bin, static helpers *)
(** binning.py:9-33 parse_p_range_spec; [quant x p] stands for np.quantile. *)
Definition list_min (l : list Q) : result Q := match l with [] => Err ValueError | a :: l => Ok (fold_left Qmin l a) end.
(** binning.py:9-33, x.max(). *)
Definition list_max (l : list Q) : result Q := match l with [] => Err ValueError | a :: l => Ok (fold_left Qmax l a) end.
(** binning.py:9-33. *)
Definition parse_p_range_spec (quant : list Q -> Q -> Q) (x : option (list Q)) (range p_range : option (Q * Q)) : result (Q * Q) :=
  match x with
  | None => match range, p_range with Some r, None => Ok r | _, _ => Err AssertionError end
  | Some x =>
      match range, p_range with
      | None, None => bind (list_min x) (fun lo => bind (list_max x) (fun hi => Ok (lo, hi)))
      | None, Some (p, q) => Ok (quant x p, quant x q)
      | Some r, None => Ok r
      | Some (lo, hi), Some (p, q) => Ok (Qmax lo (quant x p), Qmin hi (quant x q))
      end
  end.
(** binning.py:60-70 insert_sub_bins_into_edges. *)
Definition insert_sub_bins (e : list Q) (sub_bins : nat) : result (list Q) :=
  if Nat.eqb sub_bins 1 then Ok e
  else match e with
       | [] => Err IndexError
       | _ => Ok (concat (zipwith (fun lo hi => linspace_open lo hi sub_bins) (removelast e) (tl e)) ++ [last e 0%Q])
       end.
(** binning.py:35-58 parse_sub_bin_spec: [inl n] a number of bins, [inr e] explicit edges. *)
Definition parse_sub_bin_spec (b : Z + list Q) (sub_bins : nat) (range : option (Q * Q)) : result ((Z + list Q) * nat * (Q * Q)) :=
  if negb (Nat.leb 1 sub_bins) then Err AssertionError
  else match b with
       | inl n => match range with Some r => Ok (inl (n * Z.of_nat sub_bins)%Z, sub_bins, r) | None => Err AssertionError end
       | inr e => bind (insert_sub_bins e sub_bins) (fun e' =>
                    match range with
                    | Some _ => Err AssertionError
                    | None => match e' with [] => Err IndexError | lo :: _ => Ok (inr e', sub_bins, (lo, last e' 0%Q)) end
                    end)
       end.
(** binning.py:72-82 edges_to_centers, edges_to_widths.  [e[:-0]] is empty, so stride 0 broadcasts an empty
    array with [e]. *)
Definition strided {C} (f : Q -> Q -> C) (e : list Q) (stride : nat) : result (list C) :=
  match stride with
  | 0 => if Nat.leb (length e) 1 then Ok [] else Err ValueError
  | _ => Ok (zipwith f (firstn (length e - stride) e) (skipn stride e))
  end.
(** binning.py:72-76. *)
Definition edges_to_centers := strided (fun lo hi => (1 # 2) * (lo + hi))%Q.
(** binning.py:78-82. *)
Definition edges_to_widths := strided (fun lo hi => hi - lo)%Q.
(** binning.py:84-105 combine_adjacent_bins, one-dimensional. *)
Definition combine_adjacent_bins (x : list Q) (n_comb : Z) : result (list Q) :=
  if negb (1 <=? n_comb)%Z then Err AssertionError
  else let n_out := (Z.of_nat (length x) - n_comb + 1)%Z in
       if negb (0 <? n_out)%Z then Err AssertionError
       else Ok (fold_left (fun out b => zipwith Qplus out (firstn (Z.to_nat n_out) (skipn b x)))
                          (seq 1 (Z.to_nat n_comb - 1)) (firstn (Z.to_nat n_out) x)).

(** ** Hist1D.from_overlapped_bins, binning.py:107-120 *)
(** binning.py:112: np.histogram(x, bins=n, range=(lo, hi), weights) for finite samples: numpy's uniform-bin branch. *)
Definition hist_index (lo hi : Q) (n : Z) (x : Q) : Z :=
  let i := Qfloor ((x - lo) / (hi - lo) * inject_Z n) in if (i =? n)%Z then (i - 1)%Z else i.
(** binning.py:112, np.histogram. *)
Definition np_histogram (x : list Q) (n : Z) (lo hi : Q) (w : option (list Q)) : result (list Q * list Q) :=
  let ws := match w with None => repeat 1%Q (length x) | Some w => w end in
  if negb (Nat.eqb (length x) (length ws)) then Err ValueError
  else if (n <? 1)%Z then Err ValueError
  else if Qltb hi lo then Err ValueError
  else let '(lo, hi) := if Qeq_bool lo hi then ((lo - (1 # 2))%Q, (hi + (1 # 2))%Q) else (lo, hi) in
       let kept := filter (fun p => Qle_bool lo (fst p) && Qle_bool (fst p) hi) (combine x ws) in
       Ok (fold_left (fun d p => add_at d (hist_index lo hi n (fst p)) (snd p)) kept (repeat 0%Q (Z.to_nat n)),
           linspace lo hi (Z.to_nat n + 1)).
(** binning.py:107-119, the result. *)
Record hist1d := { h_x : list Q; h_dx : list Q; h_h : list Q; h_sub_e : list Q; h_sub_h : list Q }.
(** binning.py:108-119. *)
Definition from_overlapped_bins (x : list Q) (n : Z) (sub_bins : nat) (lo hi : Q) (w : option (list Q)) : result hist1d :=
  bind (np_histogram x n lo hi w) (fun '(h0, e) =>
  bind (edges_to_centers e sub_bins) (fun c =>
  bind (edges_to_widths e sub_bins) (fun d =>
  bind (combine_adjacent_bins h0 (Z.of_nat sub_bins)) (fun h =>
    Ok {| h_x := c; h_dx := d; h_h := h; h_sub_e := e; h_sub_h := h |})))).

(** ** core/dataproc/grid.py *)
(** grid.py:13-24 Grid1d.__init__ (an explicit sequence of locations), 26-46 its properties. *)
Definition nondecreasing (l : list Q) : bool := forallb (fun b => b) (zipwith Qle_bool (removelast l) (tl l)).
(** grid.py:13-24. *)
Definition grid1d (locs : list Q) : result (list Q) :=
  if Nat.leb 1 (length locs) && nondecreasing locs then Ok locs else Err AssertionError.
(** grid.py:31-34. *)
Definition grid_centers (locs : list Q) : result (list Q) :=
  grid1d (zipwith (fun l r => (1 # 2) * (l + r))%Q (removelast locs) (tl locs)).
(** grid.py:37-39. *)
Definition grid_extent (locs : list Q) : Q * Q := (nth 0 locs 0%Q, last locs 0%Q).
(** grid.py:41-46. *)
Definition grid_locate (locs : list Q) (x : num) : Z := bs_locate np_lt (map Fin locs) x.
(** grid.py:78-84 GridMd.__init__; 117-150 properties. *)
Definition gridmd (ls : list (list Q)) : result (list (list Q)) :=
  bind (mapM grid1d ls) (fun gs => match gs with [] => Err AssertionError | _ => Ok gs end).
(** grid.py:117-123. *)
Definition md_n_locs (gs : list (list Q)) : list nat := map (@length Q) gs.
(** grid.py:138-139. *)
Definition md_centers (gs : list (list Q)) : result (list (list Q)) := bind (mapM grid_centers gs) gridmd.
(** grid.py:142-143. *)
Definition md_extent (gs : list (list Q)) : list (Q * Q) := map grid_extent gs.
(** grid.py:145-150. *)
Definition md_locate (gs : list (list Q)) (x : list num) : list Z := zipwith (fun x g => grid_locate g x) x gs.
(** np.meshgrid( *locs_1d, indexing='ij'), flattened in C order: the points of the product grid, last axis
    fastest.  [locs] (grid.py:125-127) is this list, one coordinate per returned array. *)
Fixpoint cart (gs : list (list Q)) : list (list Q) :=
  match gs with [] => [[]] | g :: gs' => flat_map (fun a => map (cons a) (cart gs')) g end.
(** indexing='xy' (grid.py:129-131 [locs_xy]): the first two axes are exchanged in the layout, the points are the same. *)
Definition cart_xy (gs : list (list Q)) : list (list Q) :=
  match gs with
  | g0 :: g1 :: gs' => flat_map (fun b => flat_map (fun a => map (fun t => a :: b :: t) (cart gs')) g0) g1
  | _ => cart gs
  end.
(** grid.py:97-115 applied, scalar-valued [f]: the values in C order of the result array. *)
Definition md_applied {V} (xy : bool) (gs : list (list Q)) (f : list Q -> V) : list V :=
  map f (if xy then cart_xy gs else cart gs).
(** grid.py:97-115: C-order position of a multi-index in an array of the given shape. *)
Fixpoint ravel (shape idx : list nat) : nat :=
  match shape, idx with
  | _ :: shape', i :: idx' => i * fold_right Nat.mul 1 shape' + ravel shape' idx'
  | _, _ => 0
  end.

(** ** vocabulary for the theorems *)
(** binning.py:175-188, 226-240: A bins object built by one of the two constructors. *)
Definition made (b : bins) : Prop := (exists lo hi n, make_es lo hi n = Ok b) \/ (exists es, make_bs es = Ok b).
(** binning.py:190-194: The cast to int64 is harmless for this sample. *)
Definition castable (b : bins) (x : num) : Prop :=
  match b with
  | BS _ => True
  | ES s => exists q, x = Fin q /\ (- 2 ^ 63 <= Qfloor ((q - es_b s) / es_step s) < 2 ^ 63)%Z
  end.
