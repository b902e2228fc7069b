(** Vocabulary for the property about the scale of a feature. *)
From Coq Require Import Reals.
From Verif Require Import Base Num InstOrderSpec.
Set Implicit Arguments.

(** The value of a feature on another scale (Celsius to Fahrenheit: 9/5 and 32); missing values stay
    missing. *)
Definition on_scale (a b : Q) (v : Num.num) : Num.num := option_map (fun q => (a * q + b)%Q) v.
(** A transformation of a list of values that keeps its length and treats equal values alike. *)
Definition well_behaved (transform : list Q -> list Num.num) : Prop :=
  (forall l, length (transform l) = length l) /\
  forall l l', Forall2 Qeq l l' -> Forall2 same_number (transform l) (transform l').
