(** Lemmas about fit_poly: removal of impure pieces. *)
From Coq Require Import Lia Lqa.
From Verif Require Import TraceModel TraceSpec TraceProofs.
Set Implicit Arguments.
Open Scope nat_scope.

Section F.
  Variable G : Type.
  Variable is_empty : G -> bool.
  Variable contains : G -> pt -> bool.
  Variable difference : G -> G -> G.
  Variable triangulate : G -> list G.
  Variable convex_hull : G -> G.
  Variable alphashape : list pt -> option G.
  Notation fit_poly := (fit_poly is_empty contains difference triangulate convex_hull alphashape).
  Notation remove_impure := (remove_impure contains difference convex_hull).
  Notation count_in := (count_in contains).
  Variable z : list pt.
  Variable y : list bool.
  Variable purity : Q.

  Definition bad (p : G) : bool :=
    Nat.ltb 0 (count_in (convex_hull p) z) &&
    negb (Qle_bool purity (qnat (count_in (convex_hull p) (select y z)) / qnat (count_in (convex_hull p) z))%Q).

  Lemma bad_impure p : length z = length y -> bad p = true <-> impure (contains (convex_hull p)) z y purity.
  Proof.
    intros E. unfold bad, impure. rewrite andb_true_iff, Nat.ltb_lt, negb_true_iff.
    rewrite (@count_flagged G contains _ z y E).
    change (count_in (convex_hull p) z) with (inside (contains (convex_hull p)) z).
    set (n := inside _ z). set (a := flagged_inside _ _ _). fold (qnat n) (qnat a).
    split; intros [Hn H]; split; auto.
    - assert (P : (0 < qnat n)%Q) by (apply qnat_pos; lia).
      assert (H' : (qnat a / qnat n < purity)%Q).
      { apply Qnot_le_lt. intros X. apply Qle_bool_iff in X. congruence. }
      apply (Qmult_lt_r _ _ (qnat n) P) in H'. unfold Qdiv in H'.
      rewrite <- Qmult_assoc, (Qmult_comm (/ _)), Qmult_inv_r, Qmult_1_r in H'; auto.
      intro Z. rewrite Z in P. discriminate.
    - assert (P : (0 < qnat n)%Q) by (apply qnat_pos; lia).
      apply not_true_iff_false. intros X. apply Qle_bool_iff in X.
      apply (Qmult_le_compat_r _ _ (qnat n)) in X; [|apply qnat_nonneg].
      unfold Qdiv in X. rewrite <- Qmult_assoc, (Qmult_comm (/ _)), Qmult_inv_r, Qmult_1_r in X.
      + apply (Qlt_not_le _ _ H X).
      + intro Z. rewrite Z in P. discriminate.
  Qed.

  Lemma remove_fold pieces g : length z = length y ->
    remove_impure z purity y pieces g = Ok (fold_left (fun g p => if bad p then difference g p else g) pieces g).
  Proof.
    intros E. revert g. induction pieces as [|p t IH]; intros g; simpl; auto.
    rewrite take_rows_ok by auto. apply IH.
  Qed.

  Lemma fit_spec data g : length z = length y -> forallb (fun b => b) y = false -> fit_poly z purity data y = Ok (Some g) ->
    exists a, alphashape data = Some a /\ 3 <= length data /\
      g = fold_left (fun g p => if bad p then difference g p else g) (triangulate a) a.
  Proof.
    intros E N H. unfold TraceModel.fit_poly in H. destruct (Nat.ltb_spec (length data) 3); [discriminate|].
    destruct (alphashape data) as [a|]; [|discriminate]. rewrite N in H. destruct (is_empty a); [discriminate|].
    rewrite remove_fold in H by auto. injection H as <-. eauto.
  Qed.

  Section Forward.
    Hypothesis diff_sub : forall g p q, contains (difference g p) q = true -> contains g q = true /\ contains p q = false.
    Lemma removed_forward pieces a q :
      contains (fold_left (fun g p => if bad p then difference g p else g) pieces a) q = true ->
      contains a q = true /\ forall p, In p pieces -> bad p = true -> contains p q = false.
    Proof.
      revert a. induction pieces as [|p t IH]; intros a H; simpl in *.
      - split; auto. intros p [].
      - apply IH in H. destruct H as [A B]. destruct (bad p) eqn:Bp.
        + apply diff_sub in A. destruct A as [A C]. split; auto. intros p' [<-|Hp] Hb; auto.
        + split; auto. intros p' [<-|Hp] Hb; auto. congruence.
    Qed.
  End Forward.

  Section Exact.
    Hypothesis diff_exact : forall g p q, In q z -> contains (difference g p) q = contains g q && negb (contains p q).
    Lemma removed_exact pieces a q : In q z ->
      contains (fold_left (fun g p => if bad p then difference g p else g) pieces a) q =
      contains a q && forallb (fun p => negb (bad p && contains p q)) pieces.
    Proof.
      intros Hq. revert a. induction pieces as [|p t IH]; intros a; simpl; [rewrite andb_true_r; auto|].
      rewrite IH. destruct (bad p); simpl; auto. rewrite diff_exact by auto. rewrite andb_assoc. auto.
    Qed.
  End Exact.

  (** counting through a partition *)
  Definition b2n (b : bool) : nat := if b then 1 else 0.
  Lemma count_sum {A} (f : A -> bool) l : length (filter f l) = list_sum (map (fun a => b2n (f a)) l).
  Proof. induction l as [|a l IH]; simpl; auto. destruct (f a); simpl; lia. Qed.
  Lemma sum_swap {A B} (h : A -> B -> nat) (l : list A) (m : list B) :
    list_sum (map (fun a => list_sum (map (h a) m)) l) = list_sum (map (fun b => list_sum (map (fun a => h a b) l)) m).
  Proof.
    induction l as [|a l IH]; simpl.
    - induction m; simpl; auto.
    - rewrite IH. clear IH. induction m as [|b m IH]; simpl; auto. lia.
  Qed.
  Lemma sum_ext_in {A} (f g : A -> nat) l : (forall a, In a l -> f a = g a) -> list_sum (map f l) = list_sum (map g l).
  Proof. intros H. f_equal. apply map_ext_in. auto. Qed.
  Lemma sum_le_scaled {A} (f g : A -> nat) l c : (forall a, In a l -> (c * qnat (f a) <= qnat (g a))%Q) ->
    (c * qnat (list_sum (map f l)) <= qnat (list_sum (map g l)))%Q.
  Proof.
    induction l as [|a l IH]; intros H; simpl.
    - change (qnat 0) with 0%Q. rewrite Qmult_0_r. lra.
    - assert (P : forall u v, (qnat (u + v) == qnat u + qnat v)%Q).
      { intros u v. unfold qnat. rewrite Nat2Z.inj_add, inject_Z_plus. reflexivity. }
      rewrite !P. pose proof (H a (or_introl eq_refl)). specialize (IH (fun a' Ha => H a' (or_intror Ha))). lra.
  Qed.

  Lemma purity_kept pieces a g : length z = length y ->
    (forall g p q, In q z -> contains (difference g p) q = contains g q && negb (contains p q)) ->
    (forall p q, In p pieces -> In q z -> contains (convex_hull p) q = contains p q) ->
    (forall q, In q z -> contains a q = true -> length (filter (fun p => contains p q) pieces) = 1) ->
    (forall p q, In p pieces -> In q z -> contains p q = true -> contains a q = true) ->
    g = fold_left (fun g p => if bad p then difference g p else g) pieces a ->
    (purity * qnat (inside (contains g) z) <= qnat (flagged_inside (contains g) z y))%Q.
  Proof.
    intros E D Hc One Sub ->.
    set (g := fold_left _ _ _). set (good := filter (fun p => negb (bad p)) pieces).
    assert (K : forall q, In q z -> b2n (contains g q) = list_sum (map (fun p => b2n (contains p q)) good)).
    { intros q Hq. unfold g. rewrite removed_exact by auto.
      rewrite <- (@count_sum G (fun p => contains p q) good). unfold good.
      assert (X : forall l, length (filter (fun p => contains p q) (filter (fun p => negb (bad p)) l)) =
                       length (filter (fun p => contains p q && negb (bad p)) l)).
      { induction l as [|p l IH]; simpl; auto. destruct (bad p); simpl; rewrite ?andb_false_r, ?andb_true_r; auto.
        destruct (contains p q); simpl; auto. }
      rewrite X.
      destruct (contains a q) eqn:Ca; simpl.
      - specialize (One q Hq Ca).
        destruct (filter (fun p => contains p q) pieces) as [|p0 [|]] eqn:F; simpl in One; try lia. clear One.
        assert (Y : filter (fun p => contains p q && negb (bad p)) pieces = filter (fun p => negb (bad p)) [p0]).
        { rewrite <- F. clear. induction pieces as [|p l IH]; simpl; auto.
          destruct (contains p q); simpl; auto. destruct (bad p); simpl; auto. f_equal; auto. }
        assert (Z : forallb (fun p => negb (bad p && contains p q)) pieces = forallb (fun p => negb (bad p)) [p0]).
        { rewrite <- F. clear. induction pieces as [|p l IH]; simpl; auto.
          destruct (contains p q); simpl; rewrite ?andb_true_r, ?andb_false_r; simpl; auto. f_equal; auto. }
        rewrite Y, Z. simpl. destruct (bad p0); auto.
      - assert (N : filter (fun p => contains p q && negb (bad p)) pieces = []).
        { assert (S : forall p, In p pieces -> contains p q = false).
          { intros p Hp. destruct (contains p q) eqn:C; auto. apply Sub in C; auto. congruence. }
          revert S. clear. induction pieces as [|p l IH]; intros S; simpl; auto.
          rewrite (S p) by (left; auto). simpl. apply IH. intros; apply S; right; auto. }
        rewrite N. auto. }
    assert (C1 : inside (contains g) z = list_sum (map (fun p => inside (contains p) z) good)).
    { unfold inside. rewrite count_sum. rewrite (sum_ext_in _ _ _ K), sum_swap.
      apply sum_ext_in. intros p _. rewrite count_sum. auto. }
    assert (C2 : flagged_inside (contains g) z y = list_sum (map (fun p => flagged_inside (contains p) z y) good)).
    { unfold flagged_inside. rewrite count_sum.
      rewrite (@sum_ext_in _ _ (fun qf => list_sum (map (fun p => b2n (contains p (fst qf) && snd qf)) good))).
      - rewrite sum_swap. apply sum_ext_in. intros p _. rewrite count_sum. auto.
      - intros [q b] Hq. apply in_combine_l in Hq. simpl. specialize (K q Hq). destruct b.
        + rewrite andb_true_r, K. apply sum_ext_in. intros p _. rewrite andb_true_r. auto.
        + rewrite andb_false_r. simpl. clear. induction good; simpl; auto. rewrite andb_false_r. auto. }
    rewrite C1, C2. apply sum_le_scaled. intros p Hp. unfold good in Hp. apply filter_In in Hp. destruct Hp as [Hp Nb].
    apply negb_true_iff in Nb.
    assert (Ei : inside (contains (convex_hull p)) z = inside (contains p) z).
    { unfold inside. f_equal. apply filter_ext_in. intros q Hq. auto. }
    assert (Ef : flagged_inside (contains (convex_hull p)) z y = flagged_inside (contains p) z y).
    { unfold flagged_inside. f_equal. apply filter_ext_in. intros [q b] Hq. apply in_combine_l in Hq. simpl. rewrite Hc; auto. }
    destruct (Nat.eq_dec (inside (contains p) z) 0) as [Z|NZ].
    - rewrite Z. pose proof (qnat_nonneg (flagged_inside (contains p) z y)).
      change (qnat 0) with 0%Q. setoid_replace (purity * 0)%Q with 0%Q by ring. auto.
    - apply Qnot_lt_le. intros X. assert (B : bad p = true); [|congruence].
      apply bad_impure; auto. split; rewrite ?Ei, ?Ef; [lia|auto].
  Qed.
End F.
