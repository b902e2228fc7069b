(** C132: what the map of PILOT's analytic solution depends on. *)
Set Warnings "-notation-overridden,-ambiguous-paths".
From mathcomp Require Import all_ssreflect all_fingroup all_algebra.
From Verif Require Import PilotMxModel PilotMxSpec PilotMxProofs PilotInvSpec PilotInvProofs.
Set Implicit Arguments.
Unset Strict Implicit.
Unset Printing Implicit Defensive.
Import GRing.Theory Num.Theory.
Local Open Scope ring_scope.

(** C132: whatever orthonormal eigenvectors the eigenvalue routine returns, and whichever order
    it returns them in, the map is the same up to a rotation or reflection, provided the second
    and third largest eigenvalues differ. *)
Theorem C132_decomposition_is_irrelevant :
  forall (R : realFieldType) (N n k : nat) (x : 'M[R]_(N, n)) (y : 'M[R]_(N, k)) d v i1 i2 d' v' j1 j2 out,
    eigenpairs (covariance (row_mx x y)) d v -> two_largest d i1 i2 -> clear_gap d i1 i2 ->
    eigenpairs (covariance (row_mx x y)) d' v' -> two_largest d' j1 j2 ->
    analytic_solve x y v i1 i2 = Some out ->
    exists out', analytic_solve x y v' j1 j2 = Some out' /\ ao_error out' = ao_error out /\
      turned (ao_z out) (ao_z out') /\
      forall p q, sqdistance (ao_z out') p q = sqdistance (ao_z out) p q.
Proof.
  move=> R N n k x y d v i1 i2 d' v' j1 j2 out E L G E' L' S.
  have [u [O K]] := same_plane E E' L L' G.
  have [out' [S' Ee Ez]] := rotate_solution S O.
  exists out'; split; first by rewrite /analytic_solve K.
  split=> //; split; first by exists u.
  by move=> p q; rewrite Ez turned_distance.
Qed.

(** Nothing changes when the instances, the features and the algorithms are listed in another
    order: the same instances are the same distance apart. *)
Theorem C132_order_is_irrelevant :
  forall (R : realFieldType) (N n k : nat) (x : 'M[R]_(N, n)) (y : 'M[R]_(N, k))
         (s : {perm 'I_N}) (f : {perm 'I_n}) (g : {perm 'I_k}) d v i1 i2 d' v' j1 j2 out,
    let x' := row_perm s (col_perm f x) in let y' := row_perm s (col_perm g y) in
    eigenpairs (covariance (row_mx x y)) d v -> two_largest d i1 i2 -> clear_gap d i1 i2 ->
    eigenpairs (covariance (row_mx x' y')) d' v' -> two_largest d' j1 j2 ->
    analytic_solve x y v i1 i2 = Some out ->
    exists out', analytic_solve x' y' v' j1 j2 = Some out' /\ ao_error out' = ao_error out /\
      turned (row_perm s (ao_z out)) (ao_z out') /\
      forall p q, sqdistance (ao_z out') p q = sqdistance (ao_z out) (s p) (s q).
Proof.
  move=> R N n k x y s f g d v i1 i2 d' v' j1 j2 out x' y' E L G E' L' S.
  have Ex : x' = perm_mx s *m x *m perm_mx f^-1 by rewrite /x' row_permE col_permE mulmxA.
  have Ey : y' = perm_mx s *m y *m perm_mx g^-1 by rewrite /y' row_permE col_permE mulmxA.
  rewrite Ex Ey in E' *.
  have [out' [u [S' O Ez Ee]]] := moved_turned (mulmx1C (perm_orthogonal R s)) (oner_neq0 R)
    (perm_orthogonal R f^-1) (perm_orthogonal R g^-1) E L G E' L' S.
  - exists out'; split=> //; split; first by rewrite Ee mul1r.
    split; first by exists u; rewrite row_permE.
    move=> p q; rewrite Ez turned_distance // -row_permE.
    by rewrite /sqdistance; apply: eq_bigr => c _; rewrite !mxE.
Qed.

(** Features and performances in a common other unit: the same map in that unit. *)
Theorem C132_unit :
  forall (R : realFieldType) (N n k : nat) (x : 'M[R]_(N, n)) (y : 'M[R]_(N, k)) (t : R) d v i1 i2 d' v' j1 j2 out,
    t != 0 ->
    eigenpairs (covariance (row_mx x y)) d v -> two_largest d i1 i2 -> clear_gap d i1 i2 ->
    eigenpairs (covariance (row_mx (t *: x) (t *: y))) d' v' -> two_largest d' j1 j2 ->
    analytic_solve x y v i1 i2 = Some out ->
    exists out', analytic_solve (t *: x) (t *: y) v' j1 j2 = Some out' /\
      ao_error out' = t ^+ 2 * ao_error out /\ turned (t *: ao_z out) (ao_z out') /\
      forall p q, sqdistance (ao_z out') p q = t ^+ 2 * sqdistance (ao_z out) p q.
Proof.
  move=> R N n k x y t d v i1 i2 d' v' j1 j2 out T E L G E' L' S.
  have Ex : t *: x = t%:M *m x *m 1%:M by rewrite mulmx1 mul_scalar_mx.
  have Ey : t *: y = t%:M *m y *m 1%:M by rewrite mulmx1 mul_scalar_mx.
  rewrite Ex Ey in E' *.
  have P : (t%:M : 'M[R]_N)^T *m t%:M = (t * t)%:M by rewrite tr_scalar_mx -scalar_mxM.
  have W : t * t != 0 by rewrite mulf_neq0.
  have I m : (1%:M : 'M[R]_m) *m 1%:M^T = 1%:M by rewrite trmx1 mulmx1.
  have [out' [u [S' O Ez Ee]]] := moved_turned P W (I n) (I k) E L G E' L' S.
  - exists out'; split=> //; split; first by rewrite Ee expr2.
    split; first by exists u; rewrite -mul_scalar_mx.
    move=> p q; rewrite Ez turned_distance // mul_scalar_mx /sqdistance mulr_sumr.
    by apply: eq_bigr => c _; rewrite !mxE -mulrBr exprMn.
Qed.

(** Every instance listed twice: each copy is where its original was. *)
Theorem C132_every_instance_twice :
  forall (R : realFieldType) (N n k : nat) (x : 'M[R]_(N, n)) (y : 'M[R]_(N, k)) d v i1 i2 d' v' j1 j2 out,
    eigenpairs (covariance (row_mx x y)) d v -> two_largest d i1 i2 -> clear_gap d i1 i2 ->
    eigenpairs (covariance (row_mx (col_mx x x) (col_mx y y))) d' v' -> two_largest d' j1 j2 ->
    analytic_solve x y v i1 i2 = Some out ->
    exists out', analytic_solve (col_mx x x) (col_mx y y) v' j1 j2 = Some out' /\
      ao_error out' = 2%:R * ao_error out /\ turned (col_mx (ao_z out) (ao_z out)) (ao_z out').
Proof.
  move=> R N n k x y d v i1 i2 d' v' j1 j2 out E L G E' L' S.
  have Ex m (a : 'M[R]_(N, m)) : col_mx a a = col_mx 1%:M 1%:M *m a by rewrite mul_col_mx mul1mx.
  have Ex' m (a : 'M[R]_(N, m)) : col_mx a a = col_mx 1%:M 1%:M *m a *m 1%:M by rewrite mulmx1.
  rewrite (Ex' _ x) (Ex' _ y) in E' *.
  have P : (col_mx 1%:M 1%:M : 'M[R]_(N + N, N))^T *m col_mx 1%:M 1%:M = 2%:R%:M.
    by rewrite tr_col_mx mul_row_col trmx1 mulmx1 -raddfD.
  have W : (2%:R : R) != 0 by rewrite pnatr_eq0.
  have I m : (1%:M : 'M[R]_m) *m 1%:M^T = 1%:M by rewrite trmx1 mulmx1.
  have [out' [u [S' O Ez Ee]]] := moved_turned P W (I n) (I k) E L G E' L' S.
  - exists out'; split=> //; split=> //; exists u; split=> //; by rewrite Ez Ex.
Qed.

(** Three instances, one feature, two algorithms; instance [i] has the value [e i] in column [i]
    and zero elsewhere. *)
Section Diagonal.
  Variable e : 'rV[rat]_(1 + 2).
  Definition dx : 'M[rat]_(3, 1) := @lsubmx _ 3 1 2 (diag_mx e).
  Definition dy : 'M[rat]_(3, 2) := @rsubmx _ 3 1 2 (diag_mx e).
  Definition dd : 'rV[rat]_(1 + 2) := \row_i (e 0 i ^+ 2).
  Lemma d_data : row_mx dx dy = diag_mx e.
  Proof. by rewrite hsubmxK. Qed.
  Lemma d_eigen : eigenpairs (covariance (row_mx dx dy)) dd 1%:M.
  Proof.
    split; last by rewrite trmx1 mul1mx.
    rewrite mulmx1 mul1mx /covariance d_data tr_diag_mx mulmx_diag; congr diag_mx.
  Qed.
  Lemma d_gram : dx^T *m dx = (e 0 0 ^+ 2)%:M.
  Proof.
    apply/matrixP => p q; rewrite !mxE !big_ord_recl big_ord0 !mxE !ord1 /= !mulr0n !mulr0 !addr0 mulr1n.
    by rewrite expr2; congr (e 0 _ * e 0 _); apply/val_inj.
  Qed.
  Lemma d_solve i1 i2 : e 0 0 != 0 -> exists out, analytic_solve dx dy 1%:M i1 i2 = Some out /\
    ao_z out = dx *m ((directions 1%:M i1 i2)^T *m delta_mx 0 0)^T.
  Proof.
    move=> Ne.
    have U : dx^T *m dx \in unitmx by rewrite d_gram unitmxE det_scalar expr1 unitfE expf_neq0.
    have [out S] : exists out, analytic_solve dx dy 1%:M i1 i2 = Some out.
      by rewrite /analytic_solve /solve trmxK U; eexists.
    exists out; split=> //; have [_ Ea Ez _ _] := solve_out S.
    rewrite Ez Ea d_data.
    have -> : diag_mx e = row_mx dx dy by rewrite d_data.
    have K : (row_mx dx dy)^T *m dx = delta_mx 0 0 *m (dx^T *m dx).
      rewrite d_gram d_data tr_diag_mx mul_diag_mx; apply/matrixP => p q; rewrite !mxE !big_ord_recl big_ord0 !mxE !ord1 /=.
      case: p => [[|[|[|p]]] Hp] //=; rewrite ?mul0r ?mulr0 ?mulr0n ?addr0 ?mulr0 // mulr1n mul1r expr2.
      by congr (e 0 _ * e 0 _); apply/val_inj.
    congr (_ *m _^T); rewrite -mulmxA (mulmxA _ dx) K -mulmxA mulmxV // mulmx1.
    by [].
  Qed.
  (** The distance of the first two instances. *)
  Lemma d_distance i1 i2 : e 0 0 != 0 -> exists out, analytic_solve dx dy 1%:M i1 i2 = Some out /\
    sqdistance (ao_z out) 0 1 = e 0 0 ^+ 2 * ((i1 == 0)%:R + (i2 == 0)%:R).
  Proof.
    move=> Ne; have [out [S E]] := d_solve i1 i2 Ne; exists out; split=> //; rewrite E.
    have Dz p c : (dx *m ((directions 1%:M i1 i2)^T *m delta_mx 0 0)^T) p c =
                  dx p 0 * - ((if val c == 0%N then i1 else i2) == 0)%:R.
      rewrite mxE big_ord1; congr (_ * _); rewrite !mxE (bigD1 0) //= big1 ?addr0; last first.
        by move=> j Nj; rewrite !mxE (negbTE Nj) mulr0.
      by rewrite !mxE !eqxx mulr1 eq_sym.
    rewrite /sqdistance !big_ord_recl big_ord0 !Dz /= !mxE /= addr0.
    rewrite !mulr0n !mul0r !subr0 mulr1n !mulrN !sqrrN !exprMn mulrDr.
    by congr (_ * _ + _ * _); case: (_ == _); rewrite ?expr1n ?expr0n.
  Qed.
End Diagonal.
Definition three (a b c : nat) : 'rV[rat]_(1 + 2) := \row_i (nth 0%N [:: a; b; c] (val i))%:R.

(** Without the gap the answer depends on the eigenvectors the routine happens to return: with
    all eigenvalues equal, one choice separates two instances that another puts on one point. *)
Theorem C132_without_a_gap_refuted :
  exists (x : 'M[rat]_(3, 1)) (y : 'M[rat]_(3, 2)) d v i1 i2 j1 j2 out out' p q,
    eigenpairs (covariance (row_mx x y)) d v /\ two_largest d i1 i2 /\ two_largest d j1 j2 /\
    analytic_solve x y v i1 i2 = Some out /\ analytic_solve x y v j1 j2 = Some out' /\
    sqdistance (ao_z out) p q = 1 /\ sqdistance (ao_z out') p q = 0.
Proof.
  pose e := three 1 1 1.
  have N0 : e 0 0 != 0 by rewrite mxE.
  pose o0 : 'I_(1 + 2) := 0; pose o1 : 'I_(1 + 2) := rshift 1 0; pose o2 : 'I_(1 + 2) := rshift 1 1.
  have [out [S D]] := d_distance o0 o1 N0; have [out' [S' D']] := d_distance o1 o2 N0.
  exists (dx e), (dy e), (dd e), 1%:M, o0, o1, o1, o2, out, out', 0, 1.
  split; first exact: d_eigen.
  split; first by split=> //; split; [rewrite !mxE | move=> j _; rewrite !mxE; case: j => [[|[|[|j]]] Hj]].
  split; first by split=> //; split; [rewrite !mxE | move=> j _; rewrite !mxE; case: j => [[|[|[|j]]] Hj]].
  split=> //; split=> //; rewrite D D' !mxE; split; by vm_compute.
Qed.

(** The performances alone in another unit: the map can change beyond recognition. *)
Theorem C132_unit_of_the_performances_refuted :
  exists (x : 'M[rat]_(3, 1)) (y : 'M[rat]_(3, 2)) t d v i1 i2 d' v' j1 j2 out out' p q,
    0 < t /\
    eigenpairs (covariance (row_mx x y)) d v /\ two_largest d i1 i2 /\ clear_gap d i1 i2 /\
    eigenpairs (covariance (row_mx x (t *: y))) d' v' /\ two_largest d' j1 j2 /\ clear_gap d' j1 j2 /\
    analytic_solve x y v i1 i2 = Some out /\ analytic_solve x (t *: y) v' j1 j2 = Some out' /\
    sqdistance (ao_z out) p q = 9%:R /\ sqdistance (ao_z out') p q = 0.
Proof.
  pose e := three 3 2 1; pose e' := three 3 20 10.
  have N0 : e 0 0 != 0 by rewrite mxE. have N0' : e' 0 0 != 0 by rewrite mxE.
  pose o0 : 'I_(1 + 2) := 0; pose o1 : 'I_(1 + 2) := rshift 1 0; pose o2 : 'I_(1 + 2) := rshift 1 1.
  have [out [S D]] := d_distance o0 o1 N0; have [out' [S' D']] := d_distance o1 o2 N0'.
  have Ex : dx e' = dx e.
    by apply/matrixP => p q; rewrite !mxE !ord1; case: p => [[|[|[|p]]] Hp] //; apply/eqP; vm_compute.
  have Ey : dy e' = 10%:R *: dy e.
    by apply/matrixP => p q; rewrite !mxE; case: p => [[|[|[|p]]] Hp] //; case: q => [[|[|q]] Hq] //; apply/eqP; vm_compute.
  have E' := d_eigen e'; rewrite Ex Ey in E' S'.
  exists (dx e), (dy e), 10%:R, (dd e), 1%:M, o0, o1, (dd e'), 1%:M, o1, o2, out, out', 0, 1.
  split=> //; split; first exact: d_eigen.
  split; first by split=> //; split; [rewrite !mxE | move=> j; rewrite !mxE; case: j => [[|[|[|j]]] Hj]].
  split; first by move=> j; rewrite !mxE; case: j => [[|[|[|j]]] Hj].
  split; first exact: E'.
  split; first by split=> //; split; [rewrite !mxE | move=> j; rewrite !mxE; case: j => [[|[|[|j]]] Hj]].
  split; first by move=> j; rewrite !mxE; case: j => [[|[|[|j]]] Hj].
  split=> //; split=> //; rewrite D D' !mxE; split; by apply/eqP; vm_compute.
Qed.

Example C132_met : exists (x : 'M[rat]_(3, 1)) (y : 'M[rat]_(3, 2)) d v i1 i2 out,
  eigenpairs (covariance (row_mx x y)) d v /\ two_largest d i1 i2 /\ clear_gap d i1 i2 /\
  analytic_solve x y v i1 i2 = Some out.
Proof.
  have [x [y [t [d [v [i1 [i2 [_ [_ [_ [_ [out [_ [_ [_ [_ [E [L [G [_ [_ [_ [S _]]]]]]]]]]]]]]]]]]]]]]] := C132_unit_of_the_performances_refuted.
  by exists x, y, d, v, i1, i2, out.
Qed.

Print Assumptions C132_decomposition_is_irrelevant.
Print Assumptions C132_order_is_irrelevant.
Print Assumptions C132_unit.
Print Assumptions C132_every_instance_twice.
Print Assumptions C132_without_a_gap_refuted.
Print Assumptions C132_unit_of_the_performances_refuted.
