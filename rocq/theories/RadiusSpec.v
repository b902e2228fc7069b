(** Vocabulary for C121.  Nothing here refers to the model's clustering or radius. *)
From Coq Require Import Reals List.
Import ListNotations.
Open Scope R_scope.

(** [w] is the difference of the largest and the smallest number of a list *)
Definition is_range (l : list R) (w : R) : Prop :=
  exists lo hi, In lo l /\ In hi l /\ (forall v, In v l -> lo <= v <= hi) /\ w = hi - lo.
(** the area of the smallest upright rectangle around the points *)
Definition is_box_area (x : list (R * R)) (a : R) : Prop :=
  exists w h, is_range (map fst x) w /\ is_range (map snd x) h /\ a = w * h.
(** rows i and j of [x] are at most [eps] apart *)
Definition within (x : list (R * R)) (eps : R) (i j : nat) : Prop :=
  exists a b, nth_error x i = Some a /\ nth_error x j = Some b /\
    (fst a - fst b) * (fst a - fst b) + (snd a - snd b) * (snd a - snd b) <= eps * eps.
Inductive linked (x : list (R * R)) (eps : R) (i : nat) : nat -> Prop :=
| linked_here : linked x eps i i
| linked_step : forall j l, linked x eps i j -> within x eps j l -> linked x eps i l.
(** more than [k] rows, itself included, are within [eps] of row i *)
Definition crowded (x : list (R * R)) (k : nat) (eps : R) (i : nat) : Prop :=
  exists l, NoDup l /\ length l = (k + 1)%nat /\ forall j, In j l -> within x eps i j.
(** -1 for the rows that no chain joins to a crowded row; the other rows are grouped by the chains *)
Definition clustering (x : list (R * R)) (k : nat) (eps : R) (lab : list Z) : Prop :=
  length lab = length x /\
  (forall i, (i < length x)%nat ->
    nth i lab 0%Z = (-1)%Z /\ ~ (exists j, linked x eps i j /\ crowded x k eps j) \/
    (1 <= nth i lab 0)%Z /\ (exists j, linked x eps i j /\ crowded x k eps j)) /\
  (forall i j, (i < length x)%nat -> (j < length x)%nat -> (1 <= nth i lab 0)%Z ->
    (nth i lab 0%Z = nth j lab 0%Z <-> linked x eps i j)).

(** moving, stretching by the same factor in all directions, mirroring *)
Definition moved (p q c : R) (mirror_1 mirror_2 : bool) (a : R * R) : R * R :=
  (p + (if mirror_1 then - c else c) * fst a, q + (if mirror_2 then - c else c) * snd a).
(** exchanging the axes *)
Definition exchanged (a : R * R) : R * R := (snd a, fst a).
(** turning the plane by an angle *)
Definition turned (angle : R) (a : R * R) : R * R :=
  (cos angle * fst a - sin angle * snd a, sin angle * fst a + cos angle * snd a).
