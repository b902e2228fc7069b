(** Vocabulary for the property about the order of the instances. *)
From Coq Require Import Permutation.
From Verif Require Import Base Num.
Set Implicit Arguments.

(** one row of the metadata *)
Record instance (L S : Type) := {
  i_label : L; i_source : S; i_features : list num; i_performances : list num }.

(** the same number, or both missing *)
Definition same_number (a b : num) : Prop :=
  match a, b with Some x, Some y => (x == y)%Q | None, None => True | _, _ => False end.

(** the same values in another order *)
Definition reordered (l l' : list Q) : Prop := exists m, Permutation l m /\ Forall2 Qeq m l'.

(** A transformation of a list of values is blind to their order if the image of a value does not depend on
    the position of any value. *)
Definition order_blind (transform : list Q -> list num) : Prop :=
  (forall l, length (transform l) = length l) /\
  forall l l' i i' v v', reordered l l' -> nth_error l i = Some v -> nth_error l' i' = Some v' -> (v == v')%Q ->
    same_number (nth i (transform l) None) (nth i' (transform l') None).
