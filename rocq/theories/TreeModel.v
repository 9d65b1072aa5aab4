(** Model of /repo/src/pyhipp/field/neighbor/kd_tree.py over the real numbers.  scipy's KDTree is external: its
    query_ball_point is a parameter [ball], assumed in the theorems to meet its documented contract. *)
From Coq Require Import Reals List.
From Verif Require Import Base FrameModel.
Import ListNotations.
Local Open Scope R_scope. Local Open Scope list_scope.

(** kd_tree.py:46-50, one coordinate difference; the second mask is taken after the first shift. *)
Definition min_image (l dx : R) : R :=
  let l_half := / 2 * l in
  let dx := if Rlt_dec l_half dx then dx - l else dx in
  if Rlt_dec dx (- l_half) then dx + l else dx.
(** kd_tree.py:46-52, x - x0. *)
Definition sub_vec (a b : list R) : list R := map (fun p => fst p - snd p) (combine a b).
(** kd_tree.py:46-52 PE.__d for one pair of points. *)
Definition pdist (l : R) (x1 x2 : list R) : R := norm (map (min_image l) (sub_vec x2 x1)).
(** kd_tree.py:30-44 query_r_1; [data] are the points of the tree. *)
Definition in_box (l : R) (x : list R) : bool := forallb (fun v => if Rle_dec 0 v then if Rlt_dec v l then true else false else false) x.
(** kd_tree.py:30-44. *)
Definition query_r_1 (ball : list R -> R -> list nat) (l : R) (data : list (list R)) (x : list R) (r : R) (return_d : bool)
  : result (list nat * option (list R)) :=
  if in_box l x then
    let ids := ball x r in
    Ok (ids, if return_d then Some (map (fun i => pdist l x (nth i data [])) ids) else None)
  else Err AssertionError.
