(** Vocabulary for the property about the order of the algorithms in PRELIM. *)
From Coq Require Import Permutation.
From Verif Require Import Base Num Ext PrelimModel PrelimSpec UnitsSpec.
Set Implicit Arguments.

(** [row'] lists the same algorithms in another order: its algorithm number i is algorithm number
    [idx_i] of [row]. *)
Definition listed_as (idx : list nat) {A} (row row' : list A) : Prop :=
  Permutation idx (seq 0 (length row)) /\ restricted_to idx row row'.

(** Algorithm k alone has the best performance, b. *)
Definition sole_best (o : popts) (row : list num) (k : nat) (b : Q) : Prop :=
  nth_error row k = Some (Some b) /\
  forall j v, j <> k -> nth_error row j = Some (Some v) -> beats o b v.

(** The performance [v] is missing or beaten or equalled by one in the row. *)
Definition not_better (o : popts) (v : num) (row : list num) : Prop :=
  v = None \/ exists q b, v = Some q /\ In (Some b) row /\ ~ beats o q b.
