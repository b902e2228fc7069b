(** Model of TRACE's estimate of the neighbourhood radius and of the clustering with it, over the
    real numbers (TraceModel.v takes the radius as an argument).  Simplifications: exact
    arithmetic instead of float64; the two coordinates of the instance space, so n = 2 and
    gamma(0.5 * n + 1) = gamma(2) = 1. *)
From Coq Require Import Reals List Bool.
From Verif Require TraceModel.
Import ListNotations.
Open Scope R_scope.

Notation point := (R * R)%type.

(** np.max / np.min of a column *)
Definition column_max (l : list R) : R := match l with [] => 0 | v :: t => fold_left Rmax t v end.
Definition column_min (l : list R) : R := match l with [] => 0 | v :: t => fold_left Rmin t v end.
(** trace.py:853: ranges *)
Definition ranges (x : list point) : R * R :=
  (column_max (map fst x) - column_min (map fst x), column_max (map snd x) - column_min (map snd x)).
(** scipy.special.gamma(2) *)
Definition gamma_2 : R := 1.
(** trace.py:836-857 [epsilon], n = 2; the power 1.0 / n is a square root *)
Definition epsilon (x : list point) (k : nat) : R :=
  let numerator := fst (ranges x) * snd (ranges x) * INR k * gamma_2 in
  let denominator := INR (length x) * sqrt (PI ^ 2) in
  sqrt (numerator / denominator).
(** trace.py:859-884 [dist], two columns *)
Definition dist (a b : point) : R := sqrt ((fst b - fst a) ^ 2 + (snd b - snd a) ^ 2).
(** trace.py:919, 936: d <= eps *)
Definition near (x : list point) (eps : R) (i j : nat) : bool :=
  match nth_error x i, nth_error x j with
  | Some a, Some b => if Rle_dec (dist a b) eps then true else false
  | _, _ => false
  end.
(** trace.py:886-952 [dbscan] *)
Definition dbscan (x : list point) (k : nat) (eps : R) : option (list Z) :=
  TraceModel.dbscan_labels (near x eps) (length x) k.
(** trace.py:812-834 [run_dbscan] *)
Definition run_dbscan (y_bin : list bool) (data : list point) : option (list Z) :=
  let nn := TraceModel.min_points y_bin in
  dbscan data nn (epsilon data nn).
