(** Vocabulary for the uniformity of a set of instances: distances and nearest neighbours. *)
From Coq Require Import Reals List Arith.
Import ListNotations.
Set Implicit Arguments.
Open Scope R_scope.
Open Scope list_scope.

(** the Euclidean distance of two points *)
Fixpoint sum_sq (u v : list R) : R :=
  match u, v with
  | a :: u, b :: v => (a - b) * (a - b) + sum_sq u v
  | _, _ => 0
  end.
Definition euclid (u v : list R) : R := sqrt (sum_sq u v).
(** [d] is the distance from point [i] to the nearest other point *)
Definition nearest_other (ps : list (list R)) (i : nat) (d : R) : Prop :=
  (exists j, (j < length ps)%nat /\ j <> i /\ euclid (nth i ps []) (nth j ps []) = d) /\
  (forall j, (j < length ps)%nat -> j <> i -> d <= euclid (nth i ps []) (nth j ps [])).

(** arithmetic mean and corrected standard deviation *)
Definition total (l : list R) : R := fold_right Rplus 0 l.
Definition average (l : list R) : R := total l / INR (length l).
Definition deviation (l : list R) : R :=
  sqrt (total (map (fun v => (v - average l) ^ 2) l) / (INR (length l) - 1)).
(** a point scaled by [c] and shifted by [t] *)
Definition moved (c : R) (t : list R) (p : list R) : list R :=
  map (fun q => c * fst q + snd q) (combine p t).
