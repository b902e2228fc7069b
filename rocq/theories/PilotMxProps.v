(** C71, C74: the analytic solution of PILOT. *)
Set Warnings "-notation-overridden,-ambiguous-paths".
From mathcomp Require Import all_ssreflect all_algebra.
From Verif Require Import PilotMxModel PilotMxSpec PilotMxProofs.
Set Implicit Arguments.
Unset Strict Implicit.
Unset Printing Implicit Defensive.
Import GRing.Theory Num.Theory.
Local Open Scope ring_scope.

(** C71: the reported error is the reconstruction error of the returned solution, and no other
    projection has a smaller error with the returned loadings. *)
Theorem C71_best_projection_for_its_loadings :
  forall (R : realFieldType) (N n k : nat) (x : 'M[R]_(N, n)) (y : 'M[R]_(N, k))
         (d : 'rV[R]_(n + k)) (v : 'M[R]_(n + k)) (i1 i2 : 'I_(n + k)) out,
    eigenpairs (covariance (row_mx x y)) d v -> two_largest d i1 i2 ->
    analytic_solve x y v i1 i2 = Some out ->
    ao_z out = x *m (ao_a out)^T /\
    ao_error out = residual x y (ao_a out) (ao_b out) (ao_c out) /\
    forall a', ao_error out <= residual x y a' (ao_b out) (ao_c out).
Proof.
  move=> R N n k x y d v i1 i2 out [_ O] [D _] S; have [_ _ Ez _ Ee] := solve_out S.
  split=> //; split=> // a'; apply: best_projection S _; exact: directions_orthonormal.
Qed.
(** The loadings are the two eigenvectors: one row per feature, one column per algorithm. *)
Theorem C71_loadings :
  forall (R : realFieldType) (N n k : nat) (x : 'M[R]_(N, n)) (y : 'M[R]_(N, k)) v i1 i2 out,
    analytic_solve x y v i1 i2 = Some out ->
    (forall f, ao_b out f 0 = - v (lshift k f) i1 /\ ao_b out f 1 = - v (lshift k f) i2) /\
    (forall q, ao_c out 0 q = - v (rshift n q) i1 /\ ao_c out 1 q = - v (rshift n q) i2).
Proof.
  move=> R N n k x y v i1 i2 out S; have [_ _ _ E _] := solve_out S.
  have F i j : col_mx (ao_b out) (ao_c out)^T i j = directions v i1 i2 i j by rewrite E.
  split=> p; split.
  - by have := F (lshift k p) 0; rewrite col_mxEu !mxE.
  - by have := F (lshift k p) 1; rewrite col_mxEu !mxE.
  - by have := F (rshift n p) 0; rewrite col_mxEd !mxE.
  - by have := F (rshift n p) 1; rewrite col_mxEd !mxE.
Qed.
(** It fails exactly when the features are linearly dependent. *)
Theorem C71_fails_iff_dependent :
  forall (R : realFieldType) (N n k : nat) (x : 'M[R]_(N, n)) (y : 'M[R]_(N, k)) v i1 i2,
    analytic_solve x y v i1 i2 = None <-> exists w : 'cV[R]_n, w != 0 /\ x *m w = 0.
Proof.
  move=> R N n k x y v i1 i2; rewrite /analytic_solve solve_none; split.
  - rewrite -row_free_unit -kermx_eq0 => H.
    have [w Hw W] : exists2 w : 'rV_n, w *m (x^T *m x) = 0 & w != 0.
      case/rowV0Pn: H => w Hw W; exists w => //; exact/sub_kermxP.
    exists w^T; split; first by rewrite -(inj_eq trmx_inj) trmxK trmx0.
    have Z : sqnorm (x *m w^T) = 0.
      by rewrite -sqnorm_trmx sqnorm_tr trmxK trmx_mul trmxK -mulmxA (mulmxA _ x) mulmxA Hw mul0mx mxtrace0.
    apply/matrixP => p q; rewrite [RHS]mxE.
    have P i : true -> 0 <= \sum_j (x *m w^T) i j ^+ 2 by move=> _; apply: sumr_ge0 => j _; apply: sqr_ge0.
    have := @psumr_eq0P _ _ _ _ P Z p isT => Zp.
    have P' j : true -> 0 <= (x *m w^T) p j ^+ 2 by move=> _; apply: sqr_ge0.
    have := @psumr_eq0P _ _ _ _ P' Zp q isT => /eqP; by rewrite sqrf_eq0 => /eqP.
  - move=> [w [W Z]]; apply/negP => U; case/negP: W; apply/eqP.
    by rewrite -(mul1mx w) -(mulVmx U) -mulmxA -(mulmxA x^T) Z mulmx0 mulmx0.
Qed.

(** C71: it does not minimise the reconstruction error over all projections and loadings.
    One feature, two algorithms, three instances: the two directions chosen are those of the
    algorithms, the projection is constant zero, and a better one exists. *)
Definition ex_data : 'M[rat]_(3, 1 + 2) := diag_mx (\row_i (val i).+1%:R).
Theorem C71_globally_optimal_refuted :
  exists (x : 'M[rat]_(3, 1)) (y : 'M[rat]_(3, 2)) d v i1 i2 out,
    eigenpairs (covariance (row_mx x y)) d v /\ two_largest d i1 i2 /\
    analytic_solve x y v i1 i2 = Some out /\ ao_z out = 0 /\
    exists a b c, residual x y a b c < ao_error out.
Proof.
  pose x : 'M[rat]_(3, 1) := @lsubmx _ 3 1 2 ex_data; pose y : 'M[rat]_(3, 2) := @rsubmx _ 3 1 2 ex_data.
  pose d : 'rV[rat]_(1 + 2) := \row_i ((val i).+1%:R ^+ 2).
  have Ex : row_mx x y = ex_data by rewrite hsubmxK.
  have Xx : x^T *m x = 1%:M.
    by apply/matrixP => p q; rewrite !mxE !big_ord_recl big_ord0 !mxE !ord1.
  pose i1 : 'I_(1 + 2) := rshift 1 1; pose i2 : 'I_(1 + 2) := rshift 1 0.
  pose v : 'M[rat]_(1 + 2) := 1%:M.
  have [out S] : exists out, analytic_solve x y v i1 i2 = Some out.
    by rewrite /analytic_solve /solve trmxK Xx unitmx1; eexists.
  have [_ Ea Ez _ Ee] := solve_out S.
  have A0 : ao_a out = 0.
    rewrite Ea Xx invmx1 mulmx1 Ex -mulmxA.
    have -> : ex_data^T *m x = delta_mx 0 0.
      apply/matrixP => p q; rewrite !mxE !big_ord_recl big_ord0 !mxE !ord1.
      by case: p => [[|[|[|p]]] Hp].
    apply/matrixP => p q; rewrite !mxE !big_ord_recl big_ord0 !mxE.
    by rewrite !ord1; case: p => [[|[|p]] Hp] //; apply/eqP; vm_compute.
  exists x, y, d, v, i1, i2, out; split; last split; last split => //.
  - split; last by rewrite trmx1 mul1mx.
    rewrite mulmx1 mul1mx /covariance Ex tr_diag_mx mulmx_diag; congr diag_mx.
    by apply/matrixP => p q; rewrite !mxE expr2.
  - split=> //; split; first by rewrite !mxE.
    by move=> j; rewrite !mxE; case: j => [[|[|[|j]]] Hj].
  - split; first by rewrite Ez A0 trmx0 mulmx0.
    exists (delta_mx 0 0), (delta_mx 0 0), 0; rewrite Ee A0 /residual !trmx0 !mulmx0 !mul0mx.
    rewrite !big_ord_recl !big_ord0 !mxE /=.
    rewrite !big_ord_recl !big_ord0 !mxE /=.
    rewrite !big_ord_recl !big_ord0 !mxE /=; vm_compute; exact: isT.
Qed.
Example C71_met : exists (x : 'M[rat]_(3, 1)) (y : 'M[rat]_(3, 2)) d v i1 i2 out,
  eigenpairs (covariance (row_mx x y)) d v /\ two_largest d i1 i2 /\ analytic_solve x y v i1 i2 = Some out.
Proof.
  case: C71_globally_optimal_refuted => [x [y [d [v [i1 [i2 [out [H1 [H2 [H3 _]]]]]]]]]].
  by exists x, y, d, v, i1, i2, out.
Qed.

(** C74: another orthonormal basis of the chosen plane (in particular other signs of the
    eigenvectors) turns the projection and leaves the error. *)
Theorem C74_determined_up_to_rotation :
  forall (R : realFieldType) (N n k : nat) (x : 'M[R]_(N, n)) (y : 'M[R]_(N, k))
         (v1 v2 : 'M[R]_(n + k)) (i1 i2 j1 j2 : 'I_(n + k)) (u : 'M[R]_2) out,
    directions v2 j1 j2 = directions v1 i1 i2 *m u -> u *m u^T = 1%:M ->
    analytic_solve x y v1 i1 i2 = Some out ->
    exists out', analytic_solve x y v2 j1 j2 = Some out' /\ ao_error out' = ao_error out /\
                 ao_z out' = ao_z out *m u.
Proof.
  move=> R N n k x y v1 v2 i1 i2 j1 j2 u out E O S; rewrite /analytic_solve E.
  by have [out' [S' Ee Ez]] := rotate_solution S O; exists out'.
Qed.
(** Distances in the projection are those of any other choice of basis. *)
Theorem C74_distances_unchanged :
  forall (R : realFieldType) (N n k : nat) (x : 'M[R]_(N, n)) (y : 'M[R]_(N, k))
         (v1 v2 : 'M[R]_(n + k)) (i1 i2 j1 j2 : 'I_(n + k)) (u : 'M[R]_2) out out',
    directions v2 j1 j2 = directions v1 i1 i2 *m u -> u *m u^T = 1%:M ->
    analytic_solve x y v1 i1 i2 = Some out -> analytic_solve x y v2 j1 j2 = Some out' ->
    forall p q, \sum_c (ao_z out' p c - ao_z out' q c) ^+ 2 = \sum_c (ao_z out p c - ao_z out q c) ^+ 2.
Proof.
  move=> R N n k x y v1 v2 i1 i2 j1 j2 u out out' E O S S' p q.
  have [o [So [_ Ez]]] := C74_determined_up_to_rotation E O S.
  move: So; rewrite S' => -[Eo]; rewrite -{}Eo in Ez.
  have F (z : 'M[R]_(N, 2)) : \sum_c (z p c - z q c) ^+ 2 = sqnorm (row p z - row q z).
    by rewrite /sqnorm [RHS]big_ord1; apply: eq_bigr => c _; rewrite !mxE.
  rewrite !F Ez !row_mul -mulmxBl !sqnorm_tr trmx_mul !mulmxA -(mulmxA _ u) O mulmx1 //.
Qed.
Example C74_met : exists u : 'M[rat]_2, u *m u^T = 1%:M /\ u != 1%:M.
Proof.
  exists (- 1%:M); split; first by rewrite linearN /= trmx1 mulmxN mulNmx opprK mulmx1.
  by apply/eqP => /matrixP /(_ 0 0); rewrite !mxE.
Qed.

Print Assumptions C71_best_projection_for_its_loadings.
Print Assumptions C71_loadings.
Print Assumptions C71_fails_iff_dependent.
Print Assumptions C71_globally_optimal_refuted.
Print Assumptions C74_determined_up_to_rotation.
Print Assumptions C74_distances_unchanged.
