(** Vocabulary for the analytic solution of PILOT. *)
Set Warnings "-notation-overridden,-ambiguous-paths".
From mathcomp Require Import all_ssreflect all_algebra.
Set Implicit Arguments.
Unset Strict Implicit.
Unset Printing Implicit Defensive.
Import GRing.Theory Num.Theory.
Local Open Scope ring_scope.

Section Spec.
  Variable R : realFieldType.
  (** What the eigenvalue routine returns for a symmetric matrix: orthonormal eigenvectors. *)
  Definition eigenpairs m (cov : 'M[R]_m) (d : 'rV[R]_m) (v : 'M[R]_m) : Prop :=
    cov *m v = v *m diag_mx d /\ v^T *m v = 1%:M.
  (** Two indices of eigenvalues of largest modulus. *)
  Definition two_largest m (d : 'rV[R]_m) (i1 i2 : 'I_m) : Prop :=
    i1 != i2 /\ `|d 0 i2| <= `|d 0 i1| /\ forall j, j != i1 -> `|d 0 j| <= `|d 0 i2|.

  (** The squared reconstruction error of projection [a] (z = x a^T) with loadings [b] of the
      features and [c] of the algorithms: features from z b^T, performances from z c. *)
  Definition residual N n k (x : 'M[R]_(N, n)) (y : 'M[R]_(N, k))
      (a : 'M[R]_(2, n)) (b : 'M[R]_(n, 2)) (c : 'M[R]_(2, k)) : R :=
    let z := x *m a^T in
    \sum_i (\sum_j (x i j - (z *m b^T) i j) ^+ 2 + \sum_j (y i j - (z *m c) i j) ^+ 2).
End Spec.
