(** Model of /repo/src/pyhipp/plot/two_dim.py: density estimators on the plane and Scatter2D.  Arithmetic over Q; an empty
    histogram (0/0 = NaN in numpy) is excluded by the theorems' hypotheses. *)
From Coq Require Import QArith Reals Qreals.
From Verif Require Import Base OrderSpec BinSpec BinModel NearSpec KernModel NearModel.
Local Open Scope list_scope. Local Open Scope nat_scope.

(** two_dim.py:69-81: np.histogramdd: the edges of one axis, from a number of bins and a range, or given (then the range is ignored). *)
Definition axis_edges (bins : Z + list Q) (range : Q * Q) : result (list Q) :=
  match bins with
  | inl n => if (n <? 1)%Z then Err ValueError
             else if Qltb (snd range) (fst range) then Err ValueError
             else let '(lo, hi) := if Qeq_bool (fst range) (snd range) then ((fst range - (1 # 2))%Q, (snd range + (1 # 2))%Q) else range in
                  Ok (linspace lo hi (Z.to_nat n + 1))
  | inr e => if nondecreasing e then Ok e else Err ValueError
  end.
(** two_dim.py:69-81: np.histogramdd: searchsorted(edges, v, side='right'), one less for values equal to the last edge; the first of numpy's
    bins is the one below all edges, so one less again. *)
Definition dd_index (e : list Q) (v : Q) : Z :=
  let c := Z.of_nat (searchsorted_right Qltb e v) in ((if Qeq_bool v (last e 0%Q) then c - 1 else c) - 1)%Z.
(** two_dim.py:69-81: The weights bincount-ed into cell (i, j). *)
Definition dd_cell (x_e y_e : list Q) (s : list ((Q * Q) * Q)) (i j : nat) : Q :=
  weight_where (fun p => Z.eqb (dd_index x_e (fst p)) (Z.of_nat i) && Z.eqb (dd_index y_e (snd p)) (Z.of_nat j)) s.
(** two_dim.py:69-81, the width of a bin. *)
Definition width (e : list Q) (i : nat) : Q := (nth (S i) e 0 - nth i e 0)%Q.
(** two_dim.py:69-81, the array of the histogram. *)
Definition table (n m : nat) (f : nat -> nat -> Q) : list (list Q) := map (fun i => map (f i) (seq 0 m)) (seq 0 n).
(** two_dim.py:83-93, z[i, j]. *)
Definition at2 (z : list (list Q)) (i j : nat) : Q := nth j (nth i z []) 0%Q.
(** two_dim.py:69-81, what fit stores. *)
Record hist2d := { h2_xe : list Q; h2_ye : list Q; h2_z : list (list Q) }.
(** two_dim.py:69-81, the points with their weights. *)
Definition samples2 (x y : list Q) (w : option (list Q)) : list ((Q * Q) * Q) :=
  combine (combine x y) (match w with None => repeat 1%Q (length x) | Some w => w end).
(** two_dim.py:68-82 Histogram2D.fit: np.histogram2d(..., density=True). *)
Definition h2_fit (x_bins y_bins : Z + list Q) (x_range y_range : Q * Q) (x y : list Q) (w : option (list Q)) : result hist2d :=
  if negb (Nat.eqb (length x) (length y)) then Err ValueError
  else if negb (Nat.eqb (length x) (length (match w with None => repeat 1%Q (length x) | Some w => w end))) then Err ValueError
  else bind (axis_edges x_bins x_range) (fun ex => bind (axis_edges y_bins y_range) (fun ey =>
    let n := length ex - 1 in let m := length ey - 1 in
    let h := table n m (dd_cell ex ey (samples2 x y w)) in
    let s := Qsum (map Qsum h) in
    Ok {| h2_xe := ex; h2_ye := ey; h2_z := table n m (fun i j => at2 h i j / width ex i / width ey j / s)%Q |})).
(** two_dim.py:83-93 Histogram2D.on, one point; [zero]: out_of_range = 'zero'. *)
Definition h2_on (zero : bool) (h : hist2d) (x y : Q) : Q :=
  let n_x := Z.of_nat (length (h2_xe h) - 1) in let n_y := Z.of_nat (length (h2_ye h) - 1) in
  let x_id := (Z.of_nat (searchsorted_left Qltb (h2_xe h) x) - 1)%Z in
  let y_id := (Z.of_nat (searchsorted_left Qltb (h2_ye h) y) - 1)%Z in
  let x_id' := zclip 0 (n_x - 1) x_id in let y_id' := zclip 0 (n_y - 1) y_id in
  let v := at2 (h2_z h) (Z.to_nat x_id') (Z.to_nat y_id') in
  if zero && (negb (Z.eqb x_id x_id') || negb (Z.eqb y_id y_id')) then 0%Q else v.
(** two_dim.py:32-45 on_meshgrid with explicit locations: meshgrid, flattened, evaluated, reshaped. *)
Definition mesh_flat (xy : bool) (x y : list Q) : list (Q * Q) :=
  if xy then flat_map (fun b => map (fun a => (a, b)) x) y else flat_map (fun a => map (fun b => (a, b)) y) x.
(** two_dim.py:31-45, .reshape. *)
Definition reshape {A} (rows cols : nat) (l : list A) : list (list A) := map (fun r => firstn cols (skipn (r * cols) l)) (seq 0 rows).
(** two_dim.py:31-45. *)
Definition on_meshgrid {A} (on : Q -> Q -> A) (xy : bool) (x y : list Q) : list (list A) :=
  let zs := map (fun p => on (fst p) (snd p)) (mesh_flat xy x y) in
  if xy then reshape (length y) (length x) zs else reshape (length x) (length y) zs.

(** two_dim.py:130-166 Scatter2D.__init__ with the default estimator: range, edges, centres, the fitted histogram. *)
Definition default_range (range : option ((Q * Q) * (Q * Q))) (x y : list Q) : result ((Q * Q) * (Q * Q)) :=
  match range with
  | Some r => Ok r
  | None => bind (list_min x) (fun a => bind (list_max x) (fun b => bind (list_min y) (fun c => bind (list_max y) (fun d => Ok ((a, b), (c, d))))))
  end.
(** two_dim.py:168-178, 232-235, the centres of the bins. *)
Definition centers (e : list Q) : list Q := zipwith (fun hi lo => (1 # 2) * (hi + lo))%Q (tl e) (removelast e).
(** two_dim.py:130-166, what the constructor stores. *)
Record scatter := { s_data : list Q * list Q; s_edges : list Q * list Q; s_h : hist2d; s_tr : Q -> Q }.
(** two_dim.py:130-166. *)
Definition scatter2d (x y : list Q) (range : option ((Q * Q) * (Q * Q))) (n_bins : Z * Z) (w : option (list Q)) (tr : Q -> Q) : result scatter :=
  bind (default_range range x y) (fun '(x_r, y_r) =>
    let ex := linspace (fst x_r) (snd x_r) (Z.to_nat (fst n_bins + 1)) in let ey := linspace (fst y_r) (snd y_r) (Z.to_nat (snd n_bins + 1)) in
    rmap (fun h => {| s_data := (x, y); s_edges := (ex, ey); s_h := h; s_tr := tr |}) (h2_fit (inl (fst n_bins)) (inl (snd n_bins)) x_r y_r x y w)).
(** two_dim.py:232-243 density_on_mesh, transformed_density_on_mesh. *)
Definition mesh_density (s : scatter) : list (list Q) := on_meshgrid (h2_on true (s_h s)) true (centers (fst (s_edges s))) (centers (snd (s_edges s))).
(** two_dim.py:237-243. *)
Definition mesh_z (s : scatter) : list (list Q) := map (map (s_tr s)) (mesh_density s).
(** two_dim.py:245-251 cum_prob_mass, of the flattened mesh. *)
Fixpoint cumsum_from (acc : Q) (l : list Q) : list Q := match l with [] => [] | a :: l' => (acc + a)%Q :: cumsum_from (acc + a)%Q l' end.
(** two_dim.py:245-251. *)
Definition cum_prob (zs : list Q) : list Q * list Q :=
  let sorted := np_sort Qltb zs in let c := cumsum_from 0 sorted in (sorted, map (fun v => v / last c 0)%Q c).
(** two_dim.py:253-259 z_level_at_percentile, one percentile. *)
Definition z_level (zs : list Q) (p : Q) (id_shift : Z) : Q :=
  let '(sorted, prob) := cum_prob zs in
  let id := zclip 0 (Z.of_nat (length prob) - 1) (Z.of_nat (searchsorted_left Qltb prob (1 - p)%Q) + id_shift) in
  nth (Z.to_nat id) sorted 0%Q.
(** two_dim.py:180-208 contour, for at least one percentile: matplotlib refuses a colour map beside colours, levels that do
    not increase, and (contourf) fewer than two levels. *)
Fixpoint strictly_up (l : list Q) : bool := match l with a :: ((b :: _) as l') => Qltb a b && strictly_up l' | _ => true end.
(** two_dim.py:180-208. *)
Definition contour (zs : list Q) (ps : list Q) (use_fill colors cmap : bool) : result (list Q) :=
  let levels := map (fun p => z_level zs p 0) ps in
  if colors && cmap then Err ValueError
  else if use_fill && Nat.ltb (length levels) 2 then Err ValueError
  else if strictly_up levels then Ok levels else Err ValueError.
(** two_dim.py:211-230 scatter: the samples handed to matplotlib. *)
Definition shown (s : scatter) (hidden_in_p : option Q) : list (Q * Q) :=
  let pts := combine (fst (s_data s)) (snd (s_data s)) in
  match hidden_in_p with
  | None => pts
  | Some p => filter (fun q => Qltb (s_tr s (h2_on true (s_h s) (fst q) (snd q))) (z_level (concat (mesh_z s)) p (-1))) pts
  end.

(** two_dim.py:95-125 KNearestNeighbor2D: fit and evaluation at one point.  sklearn's NearestNeighbors by its contract (see
    NearModel); distances are squared, so that pi r^2 needs no square root. *)
Definition sq_dist (a b : Q * Q) : Q := ((fst a - fst b) * (fst a - fst b) + (snd a - snd b) * (snd a - snd b))%Q.
(** two_dim.py:116-125. *)
Definition k2_on (k : nat) (x y : list Q) (w : option (list Q)) (q : Q * Q) : result ext :=
  let pts := combine x y in
  let k_used := Nat.min k (length x) in
  if Nat.eqb k_used 0 then Err ValueError
  else bind (query Qltb sq_dist pts q k_used) (fun nb =>
    let r2 := last (map fst nb) 0%Q in
    let s := (PI * Q2R r2)%R in
    Ok (match w with None => ediv (INR k_used) s | Some w => ediv (Q2R (Qsum (map (fun p => nth (snd p) w 0%Q) nb))) s end)).
