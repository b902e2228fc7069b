(** Lemmas for C122: what a stricter option does. *)
From Coq Require Import Lia Lqa.
From Verif Require Import TraceModel TraceSpec TraceProofs TracePurity.
Set Implicit Arguments.
Open Scope nat_scope.
Open Scope list_scope.

Section Purity.
  Variable G : Type.
  Variable is_empty : G -> bool.
  Variable area : G -> Q.
  Variable contains : G -> pt -> bool.
  Variable difference union : G -> G -> G.
  Variable no_polygon : G.
  Variable smooth : G -> G.
  Variable triangulate : G -> list G.
  Variable convex_hull : G -> G.
  Variable alphashape : list pt -> option G.
  Variable epsilon : list pt -> nat -> Z.
  Notation build := (build is_empty area contains difference union no_polygon smooth triangulate convex_hull alphashape epsilon).
  Notation build_loop := (build_loop is_empty contains difference union triangulate convex_hull alphashape).
  Notation fit_poly := (fit_poly is_empty contains difference triangulate convex_hull alphashape).
  Notation bad := (bad contains convex_hull).

  Hypothesis contains_difference : forall g h q, contains (difference g h) q = contains g q && negb (contains h q).
  Hypothesis contains_union : forall g h q, contains (union g h) q = contains g q || contains h q.
  Hypothesis contains_empty : forall g q, is_empty g = true -> contains g q = false.
  Hypothesis contains_no_polygon : forall q, contains no_polygon q = false.

  Definition region (o : option G) (q : pt) : bool := match o with Some g => contains g q | None => false end.

  Variable z : list pt.
  Variable y : list bool.
  Hypothesis Ez : length z = length y.
  Variables p1 p2 : Q.
  Hypothesis Hp : (p1 <= p2)%Q.

  Lemma bad_mono g : bad z y p1 g = true -> bad z y p2 g = true.
  Proof.
    unfold TracePurity.bad. rewrite !andb_true_iff, !negb_true_iff. intros [A B]. split; auto.
    destruct (Qle_bool p2 _) eqn:E; auto. apply Qle_bool_iff in E.
    assert (X : (p1 <= qnat (count_in contains (convex_hull g) (select y z)) / qnat (count_in contains (convex_hull g) z))%Q) by (eapply Qle_trans; eauto).
    apply Qle_bool_iff in X. congruence.
  Qed.
  Lemma fold_mono pieces : forall g1 g2, (forall q, contains g2 q = true -> contains g1 q = true) ->
    forall q, contains (fold_left (fun g p => if bad z y p2 p then difference g p else g) pieces g2) q = true ->
              contains (fold_left (fun g p => if bad z y p1 p then difference g p else g) pieces g1) q = true.
  Proof.
    induction pieces as [|a t IH]; intros g1 g2 H q; simpl; auto. apply IH. intros r.
    destruct (bad z y p1 a) eqn:B1.
    - rewrite (bad_mono _ B1), !contains_difference, !andb_true_iff. intros [A C]. split; auto.
    - destruct (bad z y p2 a); auto. rewrite contains_difference, andb_true_iff. intros [A _]. auto.
  Qed.
  Lemma fit_mono data o2 : fit_poly z p2 data y = Ok o2 ->
    exists o1, fit_poly z p1 data y = Ok o1 /\ forall q, region o2 q = true -> region o1 q = true.
  Proof.
    unfold TraceModel.fit_poly. intros H. destruct (Nat.ltb (length data) 3); [injection H as <-; eauto|].
    destruct (alphashape data) as [a|]; [|discriminate].
    destruct (forallb _ _); [injection H as <-; eauto|]. destruct (is_empty a); [injection H as <-; eauto|].
    rewrite remove_fold in * by auto. injection H as <-. eexists. split; [reflexivity|]. simpl.
    apply fold_mono. auto.
  Qed.
  Lemma loop_mono rows labels todo : forall a1 a2 r2, (forall q, region a2 q = true -> region a1 q = true) ->
    build_loop z p2 y rows labels todo a2 = Ok r2 ->
    exists r1, build_loop z p1 y rows labels todo a1 = Ok r1 /\ forall q, region r2 q = true -> region r1 q = true.
  Proof.
    induction todo as [|i t IH]; intros a1 a2 r2 Ha H; simpl in *; [injection H as <-; eauto|].
    destruct (fit_poly z p2 (select (map (Z.eqb i) labels) rows) y) as [o2|] eqn:F2; [|discriminate].
    destruct (fit_mono _ F2) as (o1 & F1 & Ho). rewrite F1.
    assert (E : forall g a, is_empty g = true -> forall q, region a q = true -> region a q = true) by auto.
    destruct o1 as [g1|].
    - destruct (is_empty g1) eqn:E1.
      + destruct o2 as [g2|]; [|eapply IH; eauto].
        destruct (is_empty g2) eqn:E2; [eapply IH; eauto|].
        eapply IH; [|exact H]. intros q Hq. apply Ha.
        assert (N : contains g2 q = false).
        { destruct (contains g2 q) eqn:C; auto. pose proof (Ho q C) as D. simpl in D. rewrite contains_empty in D; auto. }
        destruct a2 as [b|]; simpl in *; [rewrite contains_union, N, orb_false_r in Hq; auto|congruence].
      + assert (S1 : forall q, region (match a1 with None => Some g1 | Some body => Some (union body g1) end) q = region a1 q || contains g1 q).
        { intros q. destruct a1 as [b|]; simpl; auto. }
        destruct o2 as [g2|].
        * destruct (is_empty g2) eqn:E2.
          -- eapply IH; [|exact H]. intros q Hq. rewrite S1, (Ha q Hq). auto.
          -- eapply IH; [|exact H]. intros q Hq. rewrite S1. apply orb_true_iff.
             destruct a2 as [b|]; simpl in Hq.
             ++ rewrite contains_union in Hq. apply orb_true_iff in Hq. destruct Hq as [Hq|Hq]; [left; apply Ha; auto|right; apply (Ho q Hq)].
             ++ right. apply (Ho q Hq).
        * eapply IH; [|exact H]. intros q Hq. rewrite S1, (Ha q Hq). auto.
    - destruct o2 as [g2|]; [|eapply IH; eauto].
      destruct (is_empty g2) eqn:E2; [eapply IH; eauto|].
      eapply IH; [|exact H]. intros q Hq. apply Ha.
      assert (N : contains g2 q = false).
      { destruct (contains g2 q) eqn:C; auto. pose proof (Ho q C) as D. discriminate. }
      destruct a2 as [b|]; simpl in *; [rewrite contains_union, N, orb_false_r in Hq; auto|congruence].
  Qed.
  Lemma filter_le {A} (f g : A -> bool) l : (forall a, f a = true -> g a = true) -> length (filter f l) <= length (filter g l).
  Proof.
    intros H. induction l as [|a l IH]; simpl; auto. destruct (f a) eqn:F; [rewrite (H a F); simpl; lia|].
    destruct (g a); simpl; lia.
  Qed.
  Lemma build_mono f2 : (forall g h, (forall q, contains g q = true -> contains h q = true) ->
        forall q, contains (smooth g) q = true -> contains (smooth h) q = true) ->
    build z p2 y = Ok f2 ->
    exists f1, build z p1 y = Ok f1 /\ (forall q, region (f_polygon f2) q = true -> region (f_polygon f1) q = true) /\
      f_elements f2 <= f_elements f1.
  Proof.
    intros Sm H. unfold TraceModel.build in *. rewrite take_rows_ok in * by auto.
    destruct (Nat.ltb _ 3); [injection H as <-; eauto|].
    destruct (run_dbscan _ y _) as [labels|]; [|discriminate].
    destruct (build_loop z p2 y _ labels _ None) as [r2|] eqn:L; [|discriminate].
    assert (Z0 : forall q, region None q = true -> region None q = true) by auto.
    destruct (loop_mono _ _ _ None None Z0 L) as (r1 & L1 & R). rewrite L1.
    assert (S : forall q, contains (smooth (match r2 with Some g => g | None => no_polygon end)) q = true ->
                contains (smooth (match r1 with Some g => g | None => no_polygon end)) q = true).
    { apply Sm. intros q. destruct r2 as [g2|]; [|rewrite contains_no_polygon; discriminate].
      intros Q. pose proof (R q Q) as X. destruct r1; [auto|discriminate]. }
    unfold from_polygon in *. rewrite take_rows_ok in * by auto. injection H as <-. eexists. split; [reflexivity|].
    cbn [f_polygon f_elements]. split; [exact S|]. unfold count_in. apply filter_le. exact S.
  Qed.
End Purity.
