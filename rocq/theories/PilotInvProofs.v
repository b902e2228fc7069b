(** Lemmas for PilotInvProps.v. *)
Set Warnings "-notation-overridden,-ambiguous-paths".
From mathcomp Require Import all_ssreflect all_fingroup all_algebra.
From Verif Require Import PilotMxModel PilotMxSpec PilotMxProofs PilotInvSpec.
Set Implicit Arguments.
Unset Strict Implicit.
Unset Printing Implicit Defensive.
Import GRing.Theory Num.Theory.
Local Open Scope ring_scope.

Section Inv.
  Variable R : realFieldType.

  Lemma sqnorm_left m n l (p : 'M[R]_(l, m)) (w : R) (e : 'M[R]_(m, n)) : p^T *m p = w%:M -> sqnorm (p *m e) = w * sqnorm e.
  Proof.
    move=> H; rewrite -sqnorm_trmx -[sqnorm e]sqnorm_trmx !sqnorm_tr !trmxK trmx_mul mulmxA -(mulmxA _ p^T p) H.
    by rewrite mul_mx_scalar -scalemxAl mxtraceZ.
  Qed.

  Section Moved.
    Variables N N' n k : nat.
    Variables (x : 'M[R]_(N, n)) (y : 'M[R]_(N, k)) (p : 'M[R]_(N', N)) (q : 'M[R]_n) (r : 'M[R]_k) (w : R).
    Hypothesis Hp : p^T *m p = w%:M.
    Hypothesis Hw : w != 0.
    Hypothesis Hq : q *m q^T = 1%:M.
    Hypothesis Hr : r *m r^T = 1%:M.
    Definition both : 'M[R]_(n + k) := block_mx q 0 0 r.
    Lemma both_left : both *m both^T = 1%:M.
    Proof. by rewrite /both tr_block_mx mulmx_block !trmx0 !mulmx0 !mul0mx !addr0 !add0r Hq Hr -scalar_mx_block. Qed.
    Lemma both_right : both^T *m both = 1%:M.
    Proof. exact: mulmx1C both_left. Qed.
    Lemma data_moved : row_mx (p *m x *m q) (p *m y *m r) = p *m row_mx x y *m both.
    Proof. by rewrite /both mul_mx_row mul_row_block !mulmx0 addr0 add0r. Qed.
    Lemma covariance_moved : covariance (row_mx (p *m x *m q) (p *m y *m r)) = w *: (both^T *m covariance (row_mx x y) *m both).
    Proof.
      rewrite data_moved /covariance !trmx_mul !mulmxA -(mulmxA _ p^T p) Hp mul_mx_scalar.
      by rewrite -!scalemxAl.
    Qed.
    Lemma eigenpairs_moved d v : eigenpairs (covariance (row_mx x y)) d v ->
      eigenpairs (covariance (row_mx (p *m x *m q) (p *m y *m r))) (w *: d) (both^T *m v).
    Proof.
      case=> E O; split; last by rewrite trmx_mul trmxK mulmxA -(mulmxA _ both) both_left mulmx1.
      rewrite covariance_moved; move: E; move: (covariance _) => cov E.
      rewrite -scalemxAl -!mulmxA (mulmxA both) both_left mul1mx E.
      have -> : diag_mx (w *: d) = w *: diag_mx d by apply/matrixP => i j; rewrite !mxE mulrnAr.
      by rewrite -!scalemxAr mulmxA.
    Qed.
    Lemma directions_moved (u : 'M[R]_(n + k)) v i1 i2 : directions (u *m v) i1 i2 = u *m directions v i1 i2.
    Proof.
      apply/matrixP => i j; rewrite !mxE -sumrN; apply: eq_bigr => l _; by rewrite !mxE mulrN.
    Qed.
    Lemma gram_moved : (p *m x *m q)^T *m (p *m x *m q) = w *: (q^T *m (x^T *m x) *m q).
    Proof.
      by rewrite !trmx_mul !mulmxA -(mulmxA _ p^T p) Hp mul_mx_scalar -!scalemxAl.
    Qed.
    Lemma inverse_moved : x^T *m x \in unitmx ->
      (p *m x *m q)^T *m (p *m x *m q) \in unitmx /\
      invmx ((p *m x *m q)^T *m (p *m x *m q)) = w^-1 *: (q^T *m invmx (x^T *m x) *m q).
    Proof.
      rewrite gram_moved; move: (x^T *m x) => g U.
      have K : (w *: (q^T *m g *m q)) *m (w^-1 *: (q^T *m invmx g *m q)) = 1%:M.
        rewrite -scalemxAl -scalemxAr scalerA mulfV // scale1r -!mulmxA (mulmxA q) Hq mul1mx.
        by rewrite (mulmxA g) mulmxV // mul1mx (mulmx1C Hq).
      have [V _] := mulmx1_unit K; split=> //.
      by rewrite -[LHS]mulmx1 -K mulmxA mulVmx // mul1mx.
    Qed.
    Lemma solve_moved v out : solve x (row_mx x y) v = Some out ->
      exists out', [/\ solve (p *m x *m q) (row_mx (p *m x *m q) (p *m y *m r)) (both^T *m v) = Some out',
        ao_z out' = p *m ao_z out, ao_a out' = ao_a out *m q, ao_b out' = q^T *m ao_b out /\ ao_c out' = ao_c out *m r &
        ao_error out' = w * ao_error out].
    Proof.
      move=> S; have [U Ea Ez Ev Ee] := solve_out S; have [U' I'] := inverse_moved U.
      have [out' S'] : exists out', solve (p *m x *m q) (row_mx (p *m x *m q) (p *m y *m r)) (both^T *m v) = Some out'.
        by rewrite /solve trmxK U'; eexists.
      exists out'; have [_ Ea' Ez' Ev' Ee'] := solve_out S'.
      have A : ao_a out' = ao_a out *m q.
        rewrite Ea' I' data_moved Ea !trmx_mul trmxK -!scalemxAr -!mulmxA (mulmxA both) both_left mul1mx.
        rewrite (mulmxA p^T) Hp mul_scalar_mx -!scalemxAr scalerA mulVf // scale1r.
        by rewrite (mulmxA q) Hq mul1mx.
      have Z : ao_z out' = p *m ao_z out.
        by rewrite Ez' A Ez trmx_mul -!mulmxA (mulmxA q) Hq mul1mx.
      have [B C] : ao_b out' = q^T *m ao_b out /\ ao_c out' = ao_c out *m r.
        move: Ev'; rewrite -Ev /both tr_block_mx mul_block_col !trmx0 !mul0mx addr0 add0r => /eq_col_mx [-> E]; split=> //.
        by rewrite -[LHS]trmxK E trmx_mul !trmxK.
      split=> //; rewrite Ee' Ee !residual_norm A B C data_moved !trmx_mul.
      have -> : col_mx (q^T *m ao_b out) (r^T *m (ao_c out)^T) = both^T *m v.
        by rewrite -Ev /both tr_block_mx mul_block_col !trmx0 !mul0mx addr0 add0r.
      have -> : both^T *m ((row_mx x y)^T *m p^T) - both^T *m v *m (ao_a out *m q) *m (q^T *m (x^T *m p^T)) =
                both^T *m (((row_mx x y)^T - v *m ao_a out *m x^T) *m p^T).
        by rewrite mulmxBl mulmxBr -!mulmxA (mulmxA q) Hq mul1mx.
      rewrite (@sqnorm_left _ _ _ both^T 1); last by rewrite trmxK both_left.
      rewrite mul1r -sqnorm_trmx trmx_mul trmxK (sqnorm_left _ Hp) sqnorm_trmx Ev.
      reflexivity.
    Qed.
  End Moved.

  (** Two decompositions of the same matrix span the same plane when there is a gap. *)
  Section Gap.
    Variables (m : nat) (cov : 'M[R]_m) (d d' : 'rV[R]_m) (v v' : 'M[R]_m).
    Hypothesis E : eigenpairs cov d v.
    Hypothesis E' : eigenpairs cov d' v'.
    Let W := v^T *m v'.
    Lemma w_rows : W *m W^T = 1%:M.
    Proof.
      case: E => _ O; case: E' => _ O'.
      by rewrite /W trmx_mul trmxK mulmxA -(mulmxA _ v') (mulmx1C O') mulmx1.
    Qed.
    Lemma w_basis : v' = v *m W.
    Proof. case: E => _ O; by rewrite /W mulmxA (mulmx1C O) mul1mx. Qed.
    Lemma w_commutes i j : d 0 i * W i j = W i j * d' 0 j.
    Proof.
      case: E => Ev O; case: E' => Ev' O'.
      have K : diag_mx d *m W = W *m diag_mx d'.
        rewrite /W -[RHS]mulmxA -Ev' [RHS]mulmxA.
        have -> : v^T *m cov = diag_mx d *m v^T.
          by rewrite -[LHS]mulmx1 -(mulmx1C O) mulmxA -(mulmxA _ cov) Ev mulmxA O mul1mx.
        by rewrite mulmxA.
      by move/matrixP: K => /(_ i j); rewrite mul_diag_mx mul_mx_diag !mxE.
    Qed.
    Lemma w_same i j : W i j != 0 -> d 0 i = d' 0 j.
    Proof. move=> H; apply: (mulfI H); rewrite mulrC; exact: w_commutes. Qed.
    Variables i1 i2 j1 j2 : 'I_m.
    Hypothesis L : two_largest d i1 i2.
    Hypothesis L' : two_largest d' j1 j2.
    Hypothesis G : clear_gap d i1 i2.
    Lemma w_support i j : j = j1 \/ j = j2 -> i != i1 -> i != i2 -> W i j = 0.
    Proof.
      move=> Hj N1 N2; apply/eqP; case: (W i j =P 0) => // /eqP H; exfalso.
      have [D [Le1 _]] := L; have [_ [Le2 All]] := L'.
      have S2 : `|d' 0 j2| < `|d 0 i2|.
        have Lj : `|d' 0 j2| <= `|d' 0 j| by case: Hj => ->.
        apply: (Order.POrderTheory.le_lt_trans Lj); rewrite -(w_same H); exact: G.
      have Z a : a = i1 \/ a = i2 -> forall l, l != j1 -> W a l = 0.
        move=> Ha l Nl; apply/eqP; case: (W a l =P 0) => // /eqP Hal; exfalso.
        have B : `|d 0 i2| <= `|d' 0 l| by rewrite -(w_same Hal); case: Ha => ->.
        by have := Order.POrderTheory.le_lt_trans (Order.POrderTheory.le_trans B (All _ Nl)) S2; rewrite Order.POrderTheory.ltxx.
      have K a b : (a = i1 \/ a = i2) -> W a j1 * W b j1 = (a == b)%:R.
        move=> Ha; move/matrixP: w_rows => /(_ a b); rewrite !mxE (bigD1 j1) //= big1 ?addr0.
          by rewrite !mxE.
        by move=> l Nl; rewrite (Z a Ha l Nl) mul0r.
      have K12 := K i1 i2 (or_introl erefl); have K1 := K i1 i1 (or_introl erefl); have K2 := K i2 i2 (or_intror erefl).
      move: K12 K1 K2; rewrite (negbTE D) !eqxx => /eqP; rewrite mulf_eq0 => /orP [/eqP -> | /eqP ->].
        by rewrite mul0r => /esym /eqP; rewrite oner_eq0.
      by rewrite mul0r => _ /esym /eqP; rewrite oner_eq0.
    Qed.
  End Gap.
  Lemma same_plane n k (cov : 'M[R]_(n + k)) d d' v v' i1 i2 j1 j2 : eigenpairs cov d v -> eigenpairs cov d' v' ->
    two_largest d i1 i2 -> two_largest d' j1 j2 -> clear_gap d i1 i2 ->
    exists u : 'M[R]_2, u *m u^T = 1%:M /\ directions v' j1 j2 = directions v i1 i2 *m u.
  Proof.
    move=> E E' L L' G; have [D _] := L; have [D' _] := L'.
    have [u K] : exists u : 'M[R]_2, directions v' j1 j2 = directions v i1 i2 *m u.
      have Z := w_support E E' L L' G; have B := w_basis v' E.
      move: Z B; move: (v^T *m v') => W Z ->.
      exists (\matrix_(a < 2, b < 2) W (if val a == 0%N then i1 else i2) (if val b == 0%N then j1 else j2)).
      apply/matrixP => i b; rewrite !mxE big_ord_recl big_ord1 !mxE /=.
      set j := if val b == 0%N then j1 else j2.
      have Hj : j = j1 \/ j = j2 by rewrite /j; case: ifP; auto.
      rewrite (bigD1 i1) //= (bigD1 i2) /=; last by rewrite eq_sym.
      rewrite big1 ?addr0; last by move=> a /andP [N1 N2]; rewrite Z ?mulr0.
      by rewrite opprD !mulNr.
    exists u; split=> //; apply: mulmx1C.
    have [_ O] := E; have [_ O'] := E'.
    have := directions_orthonormal O' D'; rewrite K trmx_mul mulmxA -(mulmxA u^T) (directions_orthonormal O D) mulmx1.
    by [].
  Qed.
  Lemma scaled_largest m (w : R) (d : 'rV[R]_m) i1 i2 : w != 0 -> two_largest d i1 i2 -> two_largest (w *: d) i1 i2.
  Proof.
    move=> W [N [L A]]; split=> //; split; first by rewrite !mxE !normrM ler_pmul2l ?normr_gt0.
    by move=> j Nj; rewrite !mxE !normrM ler_pmul2l ?normr_gt0 //; apply: A.
  Qed.
  Lemma scaled_gap m (w : R) (d : 'rV[R]_m) i1 i2 : w != 0 -> clear_gap d i1 i2 -> clear_gap (w *: d) i1 i2.
  Proof. move=> W G j N1 N2; rewrite !mxE !normrM ltr_pmul2l ?normr_gt0 //; exact: G. Qed.

  (** Any decomposition of the moved data gives the moved solution, turned. *)
  Lemma moved_turned N N' n k (x : 'M[R]_(N, n)) (y : 'M[R]_(N, k)) (p : 'M[R]_(N', N)) (q : 'M[R]_n) (r : 'M[R]_k) (w : R)
    d v i1 i2 d' v' j1 j2 out :
    p^T *m p = w%:M -> w != 0 -> q *m q^T = 1%:M -> r *m r^T = 1%:M ->
    eigenpairs (covariance (row_mx x y)) d v -> two_largest d i1 i2 -> clear_gap d i1 i2 ->
    eigenpairs (covariance (row_mx (p *m x *m q) (p *m y *m r))) d' v' -> two_largest d' j1 j2 ->
    analytic_solve x y v i1 i2 = Some out ->
    exists out' u, [/\ analytic_solve (p *m x *m q) (p *m y *m r) v' j1 j2 = Some out', u *m u^T = 1%:M,
      ao_z out' = p *m ao_z out *m u & ao_error out' = w * ao_error out].
  Proof.
    move=> Hp Hw Hq Hr E L G E' L' S.
    have Em := eigenpairs_moved Hp Hq Hr E.
    have [u [O K]] := same_plane Em E' (scaled_largest Hw L) L' (scaled_gap Hw G).
    rewrite directions_moved in K.
    have [o [So Ez _ _ Ee]] := solve_moved Hp Hw Hq Hr S.
    have [out' [S' Ee' Ez']] := rotate_solution So O.
    exists out', u; split=> //; first by rewrite /analytic_solve K.
      by rewrite Ez' Ez.
    by rewrite Ee' Ee.
  Qed.
  Lemma turned_distance N (z : 'M[R]_(N, 2)) u : u *m u^T = 1%:M -> forall a b, sqdistance (z *m u) a b = sqdistance z a b.
  Proof.
    move=> O a b.
    have F (t : 'M[R]_(N, 2)) : sqdistance t a b = sqnorm (row a t - row b t).
      by rewrite /sqdistance /sqnorm [RHS]big_ord1; apply: eq_bigr => c _; rewrite !mxE.
    by rewrite !F !row_mul -mulmxBl !sqnorm_tr trmx_mul !mulmxA -(mulmxA _ u) O mulmx1.
  Qed.
  Lemma perm_orthogonal m (s : {perm 'I_m}) : (perm_mx s : 'M[R]_m) *m (perm_mx s)^T = 1%:M.
  Proof. by rewrite tr_perm_mx -perm_mxM mulgV perm_mx1. Qed.
End Inv.
