(** Vocabulary for the properties of TRACE (C50-C53, C84-).  Nothing here refers to the model's
    clustering, geometry loops or bookkeeping. *)
From Coq Require Import ZArith QArith List Bool Permutation.
Import ListNotations.
Open Scope nat_scope.

(** the squared distance of two points of the plane *)
Definition sqdist (a b : Z * Z) : Z :=
  let '(a1, a2) := a in let '(b1, b2) := b in
  ((a1 - b1) * (a1 - b1) + (a2 - b2) * (a2 - b2))%Z.
(** rows i and j of [x] are at most [eps] apart *)
Definition within (x : list (Z * Z)) (eps : Z) (i j : nat) : Prop :=
  exists a b, nth_error x i = Some a /\ nth_error x j = Some b /\ (sqdist a b <= eps * eps)%Z.
(** steps of length at most [eps] lead from row i to row j *)
Inductive linked (x : list (Z * Z)) (eps : Z) (i : nat) : nat -> Prop :=
| linked_here : linked x eps i i
| linked_step : forall j l, linked x eps i j -> within x eps j l -> linked x eps i l.
(** more than [k] rows, itself included, are within [eps] of row i *)
Definition crowded (x : list (Z * Z)) (k : nat) (eps : Z) (i : nat) : Prop :=
  exists l, NoDup l /\ length l = k + 1 /\ forall j, In j l -> within x eps i j.

(** a clustering: -1 for the rows in no cluster, clusters numbered from 1 without gaps *)
Record clustering (x : list (Z * Z)) (k : nat) (eps : Z) (lab : list Z) : Prop := {
  cl_length : length lab = length x;
  cl_noise : forall i, i < length x ->
    ((nth i lab 0 = -1)%Z <-> ~ exists j, linked x eps i j /\ crowded x k eps j);
  cl_positive : forall i, i < length x -> (nth i lab 0 = -1 \/ 1 <= nth i lab 0)%Z;
  cl_same : forall i j, i < length x -> j < length x -> (1 <= nth i lab 0)%Z ->
    ((nth i lab 0 = nth j lab 0)%Z <-> linked x eps i j);
  cl_no_gap : forall i c, i < length x -> (1 <= c <= nth i lab 0)%Z -> In c lab }.

(** Regions are given by a test of membership.  The instances in a region, and those of them that
    are flagged. *)
Definition inside {P} (contains : P -> bool) (z : list P) : nat := length (filter contains z).
Definition flagged_inside {P} (contains : P -> bool) (z : list P) (flags : list bool) : nat :=
  length (filter (fun qf : P * bool => contains (fst qf) && snd qf) (combine z flags)).
Definition flagged {P} (z : list P) (flags : list bool) (q : P) : Prop := In (q, true) (combine z flags).
Definition three_distinct {P} (S : P -> Prop) : Prop :=
  exists a b c, S a /\ S b /\ S c /\ a <> b /\ b <> c /\ a <> c.
(** the pieces that the purity threshold rules out *)
Definition impure {P} (contains : P -> bool) (z : list P) (flags : list bool) (purity : Q) : Prop :=
  0 < inside contains z /\
  (inject_Z (Z.of_nat (flagged_inside contains z flags)) < purity * inject_Z (Z.of_nat (inside contains z)))%Q.
(** textbook DBSCAN only walks through crowded points *)
Inductive density_reachable (x : list (Z * Z)) (k : nat) (eps : Z) (i : nat) : nat -> Prop :=
| dr_here : density_reachable x k eps i i
| dr_step : forall j l, density_reachable x k eps i j -> crowded x k eps j -> within x eps j l ->
              density_reachable x k eps i l.
