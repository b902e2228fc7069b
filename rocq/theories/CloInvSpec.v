(** Vocabulary for the properties about what CLOISTER's boundaries depend on. *)
From Coq Require Import Permutation.
From Verif Require Import Mat CloisterModel CloisterSpec InstOrderSpec.
Set Implicit Arguments.
Open Scope nat_scope.
Open Scope list_scope.

Definition equal_point (p q : list num) : Prop := Forall2 same_number p q.
(** Two boundaries that enclose the same points of the plane. *)
Definition same_region (z z' : list (list num)) : Prop := forall p, in_hull z p <-> in_hull z' p.

(** What is assumed of the correlation coefficient: it does not depend on the order of the pairs of values, on
    which feature is named first, on the units. *)
Definition order_blind {E} (pearson : list num -> list num -> res E (num * num)) : Prop :=
  forall u v u' v', length u = length v -> length u' = length v' ->
    Permutation (combine u v) (combine u' v') -> pearson u v = pearson u' v'.
Definition symmetric {E} (pearson : list num -> list num -> res E (num * num)) : Prop :=
  forall u v, pearson u v = pearson v u.
Definition unit_blind {E} (pearson : list num -> list num -> res E (num * num)) : Prop :=
  forall k l u v, (0 < k)%Q -> (0 < l)%Q ->
    pearson (map (option_map (Qmult k)) u) (map (option_map (Qmult l)) v) = pearson u v.
(** Whether the convex hull routine succeeds depends on nothing but the set of points. *)
Definition set_determined (hull : list (list num) -> option (list nat)) : Prop :=
  forall pts pts',
    (forall p, In p pts -> exists q, In q pts' /\ equal_point p q) ->
    (forall q, In q pts' -> exists p, In p pts /\ equal_point p q) ->
    (hull pts = None <-> hull pts' = None).

(** A row with its columns in another order: column j is the former column number [nth j s]. *)
Definition in_order (s : list nat) (row : list num) : list num := map (fun j => nth j row None) s.
(** A row with every column in a unit of its own. *)
Definition in_units (c : list Q) (row : list num) : list num :=
  map (fun p => option_map (Qmult (snd p)) (fst p)) (combine row c).
(** The correlation coefficient does not depend on the zero points. *)
Definition zero_blind {E} (pearson : list num -> list num -> res E (num * num)) : Prop :=
  forall d e u v, length u = length v ->
    pearson (map (option_map (Qplus d)) u) (map (option_map (Qplus e)) v) = pearson u v.
(** A point moved by a vector. *)
Fixpoint moved (w p : list Q) : list Q :=
  match w, p with a :: w', b :: p' => (a + b)%Q :: moved w' p' | _, _ => [] end.
