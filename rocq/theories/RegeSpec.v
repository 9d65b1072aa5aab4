(** Vocabulary for the entry points of the regression (C87). *)
From Coq Require Import QArith Qabs.
From Verif Require Import Base ReduModel RegrModel.
Local Open Scope list_scope. Local Open Scope nat_scope.

(** The Euclidean distance of points with one coordinate. *)
Definition line_dist (a b : list Q) : Q := match a, b with [u], [v] => Qabs (u - v) | _, _ => 0%Q end.
(** What an array of results says about query [i] (a single number says the same about all). *)
Definition entry_of {A} (i : nat) (o : out A) : option A := match o with S0 a => Some a | V1 l => nth_error l i end.
Definition entry (i : nat) (v : value) : option value :=
  match v with
  | VZ o => option_map (fun a => VZ (S0 a)) (entry_of i o)
  | VN o => option_map (fun a => VN (S0 a)) (entry_of i o)
  | VR o => option_map (fun a => VR (S0 a)) (entry_of i o)
  | VL o => option_map (fun a => VL (S0 a)) (entry_of i o)
  | VQ o => option_map (fun a => VQ (S0 a)) (entry_of i o)
  | VB o => option_map (fun a => VB (S0 a)) (entry_of i o)
  | VSd mu sd => match entry_of i mu, entry_of i sd with Some a, Some b => Some (VSd (S0 a) (S0 b)) | _, _ => None end
  end.
