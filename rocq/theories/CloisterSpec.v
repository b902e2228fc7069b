(** Vocabulary for the CLOISTER properties. *)
From Verif Require Import Mat CloisterModel.
Set Implicit Arguments.
Open Scope nat_scope.
Open Scope list_scope.

(** Smallest and largest value of a feature without missing values. *)
Definition is_min (l : list num) (m : num) : Prop :=
  exists q, m = Some q /\ In m l /\ forall v, In v l -> exists w, v = Some w /\ (q <= w)%Q.
Definition is_max (l : list num) (m : num) : Prop :=
  exists q, m = Some q /\ In m l /\ forall v, In v l -> exists w, v = Some w /\ (w <= q)%Q.

(** The corner of the bounding box with the maximum of feature j where [b j], else the minimum *)
Definition corner (x : list (list num)) (n : nat) (b : nat -> bool) : list num :=
  map (fun j => if b j then col_max (column None x j) else col_min (column None x j)) (seq 0 n).

(** Points with rational coordinates, up to equality of rationals. *)
Definition same_point (p q : list Q) : Prop := Forall2 Qeq p q.
Fixpoint mix (t : Q) (p q : list Q) : list Q :=
  match p, q with a :: p', b :: q' => (t * a + (1 - t) * b)%Q :: mix t p' q' | _, _ => [] end.
(** The convex hull: the smallest set containing the points and closed under mixing. *)
Inductive conv (s : list Q -> Prop) : list Q -> Prop :=
| conv_point p q : s p -> same_point p q -> conv s q
| conv_mix t p q r : (0 <= t)%Q -> (t <= 1)%Q -> conv s p -> conv s q -> length p = length q ->
    same_point (mix t p q) r -> conv s r.
(** in the convex hull of a list of points without NaN *)
Definition in_hull (pts : list (list num)) (p : list Q) : Prop :=
  conv (fun q => In (map Some q) pts) p.

(** What is assumed of the convex hull routine when it succeeds: it returns positions of points
    whose convex hull contains all the points. *)
Definition hull_correct (hull : list (list num) -> option (list nat)) : Prop :=
  forall pts vs, hull pts = Some vs ->
    (forall i, In i vs -> i < length pts) /\
    forall p, In (map Some p) pts -> in_hull (map (fun i => nth i pts []) vs) p.

(** np.sign agrees: both positive, both negative or both zero *)
Definition same_sign (a b : num) : Prop :=
  exists p q, a = Some p /\ b = Some q /\
    ((0 < p /\ 0 < q) \/ (p < 0 /\ q < 0) \/ (p == 0 /\ q == 0))%Q.
(** Features j and k have a significant correlation (p-value not above [p_val]) of r *)
Definition significant {E} (pearson : list num -> list num -> res E (num * num)) (x : list (list num))
    (p_val : Q) (j k : nat) (r : Q) : Prop :=
  exists p, pearson (column None x j) (column None x k) = Ok (Some r, p) /\ ~ (exists q, p = Some q /\ (p_val < q)%Q).
(** A point contradicts the correlations of the data: features that rise together have different
    signs, or features that move oppositely have the same sign. *)
Definition contradicts {E} (pearson : list num -> list num -> res E (num * num)) (x : list (list num))
    (n : nat) (p_val c_thres : Q) (v : list num) : Prop :=
  exists j k r, j < k < n /\ significant pearson x p_val j k r /\
    (((c_thres < r)%Q /\ ~ same_sign (nth j v None) (nth k v None)) \/
     ((r < - c_thres)%Q /\ same_sign (nth j v None) (nth k v None))).
(** n features, no missing value, at least one instance *)
Definition complete (x : list (list num)) (n : nat) : Prop :=
  x <> [] /\ forall row, In row x -> length row = n /\ ~ In None row.
