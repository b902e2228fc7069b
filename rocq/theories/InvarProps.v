(** C129: the purifier and the order, zero points and units of the columns. *)
From Coq Require Import Permutation.
From Verif Require Import Base BaseLemmas Num FilterModel FilterSpec AlgOrderSpec AlgOrderProofs InstOrderSpec InvarSpec InvarProofs.
Set Implicit Arguments.
Open Scope list_scope.

(** The order in which the features and the algorithms are listed does not matter. *)
Theorem C129_order_of_columns :
  forall fs al x y y_bin n_feats n_algos r s x' y' y_bin',
    matrices x y y_bin n_feats n_algos ->
    Forall2 (listed_as fs) x x' -> Forall2 (listed_as al) y y' -> Forall2 (listed_as al) y_bin y_bin' ->
    filter_instance x' y' y_bin' n_feats n_algos r s = filter_instance x y y_bin n_feats n_algos r s.
Proof.
  intros fs al x y y_bin nf na r s x' y' y_bin' (Lx & Lb & _) X Y B.
  assert (L : length y' = length y) by (clear - Y; induction Y; simpl; auto).
  apply filter_ext; auto; [tauto|..].
  - intros i j Hi Hj. unfold close_x. f_equal. apply nle_same; [|apply same_number_refl].
    eapply sqdist_listed; eapply nth_Forall2; eauto; lia.
  - intros i j t f Hi Hj _.
    assert (Cy : close_y y' nf na r i j = close_y y nf na r i j).
    { unfold close_y. f_equal. apply nle_same; [|apply same_number_refl]. eapply sqdist_listed; eapply nth_Forall2; eauto. }
    assert (Bg : both_good y_bin' i j = both_good y_bin i j).
    { unfold both_good. apply forallb_perm. refine (listed_perm (combine_listed (idx := al) _ _)); eapply nth_Forall2; eauto; lia. }
    unfold mark. rewrite Cy, Bg. reflexivity.
Qed.
(** Nor do the zero points of the features and of the performances. *)
Theorem C129_zero_points :
  forall d e x y y_bin n_feats n_algos r s, matrices x y y_bin n_feats n_algos -> length d = n_feats -> length e = n_algos ->
    filter_instance (map (shifted d) x) (map (shifted e) y) y_bin n_feats n_algos r s = filter_instance x y y_bin n_feats n_algos r s.
Proof.
  intros d e x y y_bin nf na r s (Lx & Lb & Wx & Wy & _) <- <-.
  apply filter_ext; [apply map_length|tauto|..].
  - intros i j Hi Hj. unfold close_x. f_equal. apply nle_same; [|apply same_number_refl].
    rewrite !(@nth_mapped _ _ (shifted d) x _ [] []) by lia.
    apply sqdist_shifted; apply (@nth_Forall _ (fun row => length row = length d)); auto; lia.
  - intros i j t f Hi Hj _.
    assert (Cy : close_y (map (shifted e) y) (length d) (length e) r i j = close_y y (length d) (length e) r i j).
    { unfold close_y. f_equal. apply nle_same; [|apply same_number_refl].
      rewrite !(@nth_mapped _ _ (shifted e) y _ [] []) by lia.
      apply sqdist_shifted; apply (@nth_Forall _ (fun row => length row = length e)); auto. }
    unfold mark. rewrite Cy. reflexivity.
Qed.
(** Nor does the unit, if features, performances and the distance are given in the same one. *)
Theorem C129_unit :
  forall c x y y_bin n_feats n_algos r s, (0 < c)%Q -> matrices x y y_bin n_feats n_algos ->
    filter_instance (map (times c) x) (map (times c) y) y_bin n_feats n_algos (c * r) s =
    filter_instance x y y_bin n_feats n_algos r s.
Proof.
  intros c x y y_bin nf na r s C (Lx & Lb & _).
  apply filter_ext; [apply map_length|tauto|..].
  - intros i j Hi Hj. unfold close_x. rewrite !(@nth_mapped _ _ (times c) x _ [] []) by lia.
    pose proof (close_times 1 r (nth i x []) (nth j x []) C) as E.
    assert (W : forall u v q, nle (sqdist u v) (Some (1 * q)%Q) = nle (sqdist u v) (Some q)).
    { intros u v q. apply nle_same; [apply same_number_refl|]. simpl. ring. }
    rewrite !W in E. exact E.
  - intros i j t f Hi Hj _.
    assert (Cy : close_y (map (times c) y) nf na (c * r) i j = close_y y nf na r i j).
    { unfold close_y. rewrite !(@nth_mapped _ _ (times c) y _ [] []) by lia. apply close_times. auto. }
    unfold mark. rewrite Cy. reflexivity.
Qed.
(** Nor does a feature that is the same for all instances, unless performances are compared. *)
Theorem C129_constant_feature :
  forall v x y y_bin n_feats n_algos r s, matrices x y y_bin n_feats n_algos -> n_feats <> 0 ->
    s <> "Ftr&AP"%string -> s <> "Ftr&AP&Good"%string ->
    filter_instance (map (with_column v) x) y y_bin (S n_feats) n_algos r s = filter_instance x y y_bin n_feats n_algos r s.
Proof.
  intros v x y y_bin nf na r s (Lx & Lb & Wx & _) N S1 S2.
  apply filter_ext; auto; [split; [discriminate|congruence]|..].
  - intros i j Hi Hj. unfold close_x. f_equal. apply nle_same; [|apply same_number_refl].
    rewrite !(@nth_mapped _ _ (with_column v) x _ [] []) by lia. apply sqdist_column.
    rewrite !(@nth_Forall _ (fun row => length row = nf)); auto; lia.
  - intros i j t f Hi Hj T. unfold parse_type in T.
    destruct (String.eqb s "Ftr"); [injection T as <-; reflexivity|].
    destruct (String.eqb_spec s "Ftr&AP"); [congruence|].
    destruct (String.eqb s "Ftr&Good"); [injection T as <-; reflexivity|].
    destruct (String.eqb_spec s "Ftr&AP&Good"); [congruence|discriminate].
Qed.
(** When they are, it does: the performance threshold shrinks with the number of features. *)
Theorem C129_constant_feature_refuted :
  exists v x y y_bin r, matrices x y y_bin 1 1 /\
    filter_instance x y y_bin 1 1 r "Ftr&AP" = Ok ([false; true], [true; false], [false; false]) /\
    filter_instance (map (with_column v) x) y y_bin 2 1 r "Ftr&AP" = Ok ([false; false], [true; false], [false; true]).
Proof.
  exists 7%Q, [[Some 0%Q]; [Some 1%Q]], [[Some 0%Q]; [Some 1%Q]], [[true]; [true]], 1%Q.
  split; [repeat split; repeat constructor|]. split; vm_compute; reflexivity.
Qed.
(** Performances and their marks do not matter when only features are compared. *)
Theorem C129_performances_not_compared :
  forall x y y_bin n_feats n_algos r y' y_bin' n_algos', length y' = length y ->
    filter_instance x y' y_bin' n_feats n_algos' r "Ftr" = filter_instance x y y_bin n_feats n_algos r "Ftr".
Proof.
  intros x y y_bin nf na r y' y_bin' na' L. apply filter_ext; auto; [tauto|].
  intros i j t f Hi Hj T. injection T as <-. reflexivity.
Qed.

(** Three instances with two features and two algorithms, the last too close to the first. *)
Example C129_met :
  let x := [[Some 0; Some 1]; [Some 9; Some 9]; [Some 1; Some 1]]%Q in
  let y := [[Some 1; Some 2]; [Some 1; Some 2]; [Some 2; Some 2]]%Q in
  let b := [[true; true]; [false; true]; [true; true]] in
  matrices x y b 2 2 /\
  Forall2 (listed_as [1; 0]) x [[Some 1; Some 0]; [Some 9; Some 9]; [Some 1; Some 1]]%Q /\
  filter_instance x y b 2 2 1 "Ftr&AP&Good" = Ok ([false; false; true], [true; true; false], [false; false; false]) /\
  filter_instance (map (times 3) x) (map (times 3) y) b 2 2 (3 * 1) "Ftr&AP&Good" =
    Ok ([false; false; true], [true; true; false], [false; false; false]).
Proof.
  cbv zeta. split; [repeat split; repeat constructor|]. split; [repeat constructor|]. split; vm_compute; reflexivity.
Qed.

Print Assumptions C129_order_of_columns.
Print Assumptions C129_zero_points.
Print Assumptions C129_unit.
Print Assumptions C129_constant_feature.
