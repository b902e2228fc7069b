(** Vocabulary for the property about what PILOT's analytic projection depends on. *)
Set Warnings "-notation-overridden,-ambiguous-paths".
From mathcomp Require Import all_ssreflect all_algebra.
Set Implicit Arguments.
Unset Strict Implicit.
Unset Printing Implicit Defensive.
Import GRing.Theory Num.Theory.
Local Open Scope ring_scope.

Section Spec.
  Variable R : realFieldType.
  (** The third largest eigenvalue is smaller than the second largest. *)
  Definition clear_gap m (d : 'rV[R]_m) (i1 i2 : 'I_m) : Prop :=
    forall j, j != i1 -> j != i2 -> `|d 0 j| < `|d 0 i2|.
  (** The square of the distance of the points of two instances. *)
  Definition sqdistance N (z : 'M[R]_(N, 2)) (p q : 'I_N) : R := \sum_c (z p c - z q c) ^+ 2.
  (** Two maps of the same instances that differ by a rotation or reflection. *)
  Definition turned N (z z' : 'M[R]_(N, 2)) : Prop := exists u : 'M[R]_2, u *m u^T = 1%:M /\ z' = z *m u.
End Spec.
