(** Lemmas about the analytic solution of PILOT. *)
Set Warnings "-notation-overridden,-ambiguous-paths".
From mathcomp Require Import all_ssreflect all_algebra.
From Verif Require Import PilotMxModel PilotMxSpec.
Set Implicit Arguments.
Unset Strict Implicit.
Unset Printing Implicit Defensive.
Import GRing.Theory Num.Theory.
Local Open Scope ring_scope.

Section Norm.
  Variable R : realFieldType.
  Definition sqnorm m n (e : 'M[R]_(m, n)) : R := \sum_i \sum_j (e i j) ^+ 2.
  Lemma sqnorm_tr m n (e : 'M[R]_(m, n)) : sqnorm e = \tr (e *m e^T).
  Proof.
    rewrite /sqnorm /mxtrace; apply: eq_bigr => i _; rewrite mxE; apply: eq_bigr => j _.
    by rewrite mxE expr2.
  Qed.
  Lemma sqnorm_trmx m n (e : 'M[R]_(m, n)) : sqnorm e^T = sqnorm e.
  Proof.
    rewrite /sqnorm exchange_big; apply: eq_bigr => i _; apply: eq_bigr => j _; by rewrite mxE.
  Qed.
  Lemma sqnorm_ge0 m n (e : 'M[R]_(m, n)) : 0 <= sqnorm e.
  Proof. by apply: sumr_ge0 => i _; apply: sumr_ge0 => j _; apply: sqr_ge0. Qed.
  Lemma sqnorm_add m n (e f : 'M[R]_(m, n)) : \tr (e *m f^T) = 0 -> sqnorm (e + f) = sqnorm e + sqnorm f.
  Proof.
    move=> H; rewrite !sqnorm_tr linearD /= mulmxDl !mulmxDr !mxtraceD H.
    have -> : \tr (f *m e^T) = 0 by rewrite -mxtrace_tr trmx_mul trmxK.
    by rewrite addr0 add0r.
  Qed.

  Lemma residual_norm N n k (x : 'M[R]_(N, n)) (y : 'M[R]_(N, k)) a b c :
    residual x y a b c = sqnorm ((row_mx x y)^T - col_mx b c^T *m a *m x^T).
  Proof.
    rewrite -sqnorm_trmx linearB /= trmxK !trmx_mul trmxK tr_col_mx trmxK mulmxA mul_mx_row.
    rewrite /residual /sqnorm; apply: eq_bigr => i _.
    rewrite big_split_ord /=; congr (_ + _); apply: eq_bigr => j _; congr (_ ^+ 2);
      rewrite [RHS]mxE [X in _ = _ + X]mxE.
    - by rewrite !row_mxEl.
    - by rewrite !row_mxEr.
  Qed.

  Section Solve.
    Variables N n k : nat.
    Variables (x : 'M[R]_(N, n)) (y : 'M[R]_(N, k)).
    Lemma solve_out v out : solve x (row_mx x y) v = Some out ->
      [/\ x^T *m x \in unitmx, ao_a out = v^T *m (row_mx x y)^T *m (x *m invmx (x^T *m x)),
          ao_z out = x *m (ao_a out)^T, col_mx (ao_b out) (ao_c out)^T = v &
          ao_error out = residual x y (ao_a out) (ao_b out) (ao_c out)].
    Proof.
      rewrite /solve trmxK; case: ifP => // U [<-] /=; split=> //.
      - by rewrite trmx_mul trmxK.
      - by rewrite trmxK vsubmxK.
      - rewrite residual_norm !trmxK /= -/(sqnorm _); congr (sqnorm (_ - _)).
        by rewrite -mul_col_mx vsubmxK mulmxA.
    Qed.
    Lemma solve_none v : (solve x (row_mx x y) v = None) <-> (x^T *m x \notin unitmx).
    Proof. by rewrite /solve trmxK; case: ifP. Qed.

    Lemma best_projection v out a' : solve x (row_mx x y) v = Some out -> v^T *m v = 1%:M ->
      ao_error out <= residual x y a' (ao_b out) (ao_c out).
    Proof.
      move=> /solve_out [U Ea _ Ev ->] O; rewrite !residual_norm Ev.
      set a := ao_a out in Ea *; set xb := (row_mx x y)^T in Ea *.
      have -> : xb - v *m a' *m x^T = (xb - v *m a *m x^T) + v *m (a - a') *m x^T.
        by rewrite mulmxBr mulmxBl addrA subrK.
      rewrite [X in _ <= X]sqnorm_add; first by rewrite ler_addl sqnorm_ge0.
      rewrite !trmx_mul trmxK !mulmxA mxtrace_mulC !mulmxA mulmxBr mulmxBl.
      have -> : v^T *m (v *m a *m x^T) *m x = v^T *m xb *m x.
        by rewrite !mulmxA O mul1mx Ea -!mulmxA mulVmx // mulmx1.
      by rewrite subrr mul0mx mxtrace0.
    Qed.
    Lemma rotate_solution v u out : solve x (row_mx x y) v = Some out -> u *m u^T = 1%:M ->
      exists out', [/\ solve x (row_mx x y) (v *m u) = Some out', ao_error out' = ao_error out &
                       ao_z out' = ao_z out *m u].
    Proof.
      move=> S O; have [U Ea Ez Ev Ee] := solve_out S.
      have [out' S'] : exists out', solve x (row_mx x y) (v *m u) = Some out'.
        by rewrite /solve trmxK U; eexists.
      have [_ Ea' Ez' Ev' Ee'] := solve_out S'; exists out'; split=> //.
      - rewrite Ee' Ee !residual_norm Ev' Ev Ea' Ea; congr (sqnorm (_ - _)).
        by rewrite trmx_mul !mulmxA -(mulmxA v u) O mulmx1.
      - by rewrite Ez' Ez Ea' Ea trmx_mul -!mulmxA !trmx_mul !trmxK !mulmxA.
    Qed.
  End Solve.

  Lemma directions_orthonormal n k (v : 'M[R]_(n + k)) i1 i2 : v^T *m v = 1%:M -> i1 != i2 ->
    (directions v i1 i2)^T *m directions v i1 i2 = 1%:M.
  Proof.
    move=> O D; apply/matrixP => p q; rewrite !mxE.
    have E a b : \sum_j v j a * v j b = (a == b)%:R.
      have := congr1 (fun w : 'M_(n + k) => w a b) O; rewrite !mxE => <-.
      by apply: eq_bigr => j _; rewrite mxE.
    under eq_bigr => j _ do rewrite !mxE mulrNN.
    rewrite E; congr (_%:R); congr nat_of_bool.
    case: p => [[|[|p]] Hp] //; case: q => [[|[|q]] Hq] //=; rewrite ?eqxx //.
    - by rewrite (negbTE D).
    - by rewrite eq_sym (negbTE D).
  Qed.
End Norm.
