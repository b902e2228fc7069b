(** Model of instancespace/stages/pilot.py:333-431 [analytic_solve].  Definitions only.
    Floats are the elements of an arbitrary ordered field: exact arithmetic, no NaN (with a NaN
    the eigenvalue routine raises ValueError). *)
Set Warnings "-notation-overridden,-ambiguous-paths".
From mathcomp Require Import all_ssreflect all_algebra.
Set Implicit Arguments.
Unset Strict Implicit.
Unset Printing Implicit Defensive.
Import GRing.Theory Num.Theory.
Local Open Scope ring_scope.

Section Analytic.
  Variable R : realFieldType.
  (** N instances, n features, k algorithms *)
  Variables N n k : nat.

  Record analytic_output := {
    ao_a : 'M[R]_(2, n); ao_z : 'M[R]_(N, 2); ao_c : 'M[R]_(2, k); ao_b : 'M[R]_(n, 2);
    ao_error : R
  }.

  (** 388: [np.dot(x_bar, x_bar.T)] after x_bar was transposed *)
  Definition covariance (xbar : 'M[R]_(N, n + k)) : 'M[R]_(n + k) := xbar^T *m xbar.

  (** 394: [-1 * v[:, indices[:2]]] where indices is the reversed argsort of |d|: the columns
      of the last and the last but one index [i1] and [i2] of the argsort *)
  Definition directions (v : 'M[R]_(n + k)) (i1 i2 : 'I_(n + k)) : 'M[R]_(n + k, 2) :=
    \matrix_(i, j) - v i (if val j == 0%N then i1 else i2).

  (** 396-419, for the chosen directions [v].  [None]: np.linalg.inv raises LinAlgError. *)
  Definition solve (x : 'M[R]_(N, n)) (xbar : 'M[R]_(N, n + k)) (v : 'M[R]_(n + k, 2))
    : option analytic_output :=
    let xT := x^T in
    let xbarT := xbar^T in
    let out_b := usubmx v in
    let out_c := (dsubmx v)^T in
    let xx := xT *m xT^T in
    if xx \in unitmx then
      let x_r := xT^T *m invmx xx in
      let out_a := v^T *m xbarT *m x_r in
      let out_z := out_a *m xT in
      let x_hat := col_mx (out_b *m out_z) (out_c^T *m out_z) in
      Some {| ao_a := out_a; ao_z := out_z^T; ao_c := out_c; ao_b := out_b;
              ao_error := \sum_i \sum_j ((xbarT - x_hat) i j) ^+ 2 |}
    else None.

  (** 378-431 for a decomposition (d, v) of the covariance and an argsort of |d| ending in
      i2, i1.  x_bar is x and y side by side (pilot.py:207). *)
  Definition analytic_solve (x : 'M[R]_(N, n)) (y : 'M[R]_(N, k)) (v : 'M[R]_(n + k))
      (i1 i2 : 'I_(n + k)) : option analytic_output :=
    solve x (row_mx x y) (directions v i1 i2).
End Analytic.
