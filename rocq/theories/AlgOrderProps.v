(** C128: the order of the algorithms in PRELIM, and an algorithm that is added. *)
From Coq Require Import Permutation.
From Verif Require Import Base BaseLemmas Num Ext PrelimModel PrelimSpec UnitsSpec AlgOrderSpec AlgOrderProofs.
Set Implicit Arguments.
Open Scope list_scope.

(** Listing the algorithms in another order gives each of them the same verdict and performance, and the
    instance the same best performance, number of good algorithms and difficulty. *)
Theorem C128_order_of_algorithms :
  forall o idx row row', listed_as idx row row' ->
    let r := prelim_row o row in let r' := prelim_row o row' in
    listed_as idx (r_bin r) (r_bin r') /\
    (forall k k' v v', nth_error idx k' = Some k -> nth_error (r_y r) k = Some v -> nth_error (r_y r') k' = Some v' -> same_value v v') /\
    length (r_y r) = length row /\ length (r_y r') = length row /\
    same_value (r_best r') (r_best r) /\ r_good r' = r_good r /\ r_beta r' = r_beta r.
Proof.
  intros o idx row row' H r r'. subst r r'.
  destruct (row_parts o row) as (_ & E & Y & _). destruct (row_parts o row') as (_ & _ & Y' & _).
  split; [split; [rewrite E, map_length; apply H|apply listed_bin; auto]|].
  split; [intros k k' v v'; apply listed_y; auto|]. split; [rewrite Y, map_length; auto|].
  split; [rewrite Y', map_length; apply Permutation_length, (listed_perm H)|].
  split; [eapply listed_best; eauto|]. split; [eapply listed_good; eauto|eapply listed_beta; eauto].
Qed.
(** The algorithm reported as best is then the same one, if it is the only best one (and, for relative
    performances that are minimised, its performance is not 0). *)
Theorem C128_best_algorithm :
  forall o idx row row' k b, listed_as idx row row' -> sole_best o row k b ->
    (abs_perf o = true \/ max_perf o = true \/ ~ (b == 0)%Q) ->
    r_p (prelim_row o row) = S k /\
    exists k', nth_error idx k' = Some k /\ r_p (prelim_row o row') = S k'.
Proof.
  intros o idx row row' k b H B C. split; [eapply sole_best_p; eauto|].
  destruct (sole_best_listed H B) as (k' & E & B'). exists k'. split; auto. eapply sole_best_p; eauto.
Qed.
(** With a tie it is the one listed first, in either order. *)
Theorem C128_best_algorithm_refuted :
  ~ forall o idx row row', listed_as idx row row' -> forall k' k,
      nth_error idx k' = Some k -> r_p (prelim_row o row') = S k' -> r_p (prelim_row o row) = S k.
Proof.
  intro H. assert (L : listed_as [1; 0] [Some 1%Q; Some 1%Q] [Some 1%Q; Some 1%Q]) by (split; [constructor|reflexivity]).
  specialize (H {| max_perf := true; abs_perf := true; epsilon := 1; beta_threshold := 1 # 2; bound := true; norm := true |} _ _ _ L 0 1 eq_refl eq_refl).
  vm_compute in H. discriminate.
Qed.
(** An added algorithm that is not better than all others does not change what is said of the others, and
    not the best performance. *)
Theorem C128_added_algorithm :
  forall o row v, row <> [] -> not_better o v row ->
    let r := prelim_row o row in let r' := prelim_row o (row ++ [v]) in
    (exists g, r_bin r' = r_bin r ++ [g] /\ r_good r' = (r_good r + if g then 1 else 0)%nat) /\
    (forall k u u', nth_error (r_y r) k = Some u -> nth_error (r_y r') k = Some u' -> same_value u u') /\
    length (r_y r) = length row /\ length (r_y r') = S (length row) /\
    same_value (r_best r') (r_best r) /\
    ((abs_perf o = true \/ max_perf o = true \/ forall q, In (Some q) row -> ~ (q == 0)%Q) -> r_p r' = r_p r).
Proof.
  intros o row v N H r r'. subst r r'.
  destruct (row_parts o row) as (_ & _ & Y & _ & G & _). destruct (row_parts o (row ++ [v])) as (_ & _ & Y' & _ & G' & _).
  split; [|split; [intros k u u'; apply added_y; auto|]].
  - destruct (added_bin N H) as (g & E). exists g. split; auto. rewrite G, G', E. unfold count_true. rewrite filter_app, app_length.
    destruct g; reflexivity.
  - split; [rewrite Y, map_length; auto|]. split; [rewrite Y', map_length, app_length; simpl; lia|].
    split; [apply added_best; auto|apply added_p; auto].
Qed.
(** It can turn an easy instance into one that is not. *)
Theorem C128_added_algorithm_and_difficulty_refuted :
  exists o row v, row <> [] /\ not_better o v row /\
    r_beta (prelim_row o row) = true /\ r_beta (prelim_row o (row ++ [v])) = false.
Proof.
  exists {| max_perf := true; abs_perf := false; epsilon := 1 # 20; beta_threshold := 1 # 2; bound := true; norm := true |}, [Some 4%Q], (Some 1%Q).
  split; [discriminate|]. split; [right; exists 1%Q, 4%Q; split; [auto|split; [left; auto|intro X; vm_compute in X; discriminate]]|].
  split; vm_compute; reflexivity.
Qed.
(** With a best cost of 0, two other costs equal to machine epsilon are taken for the best ones: the added
    algorithm moves the best algorithm from the first to the second. *)
Theorem C128_added_algorithm_and_best_refuted :
  exists o row v, row <> [] /\ not_better o v row /\
    r_p (prelim_row o row) = 1 /\ r_p (prelim_row o (row ++ [v])) = 2.
Proof.
  exists {| max_perf := false; abs_perf := false; epsilon := 1 # 20; beta_threshold := 1 # 2; bound := true; norm := true |},
    [Some 0%Q; Some machine_epsilon], (Some machine_epsilon).
  split; [discriminate|]. split; [right; exists machine_epsilon, 0%Q; split; [auto|split; [left; auto|intro X; vm_compute in X; discriminate]]|].
  split; vm_compute; reflexivity.
Qed.

(** Four algorithms, one without a performance, in two orders; and a fifth one. *)
Example C128_met :
  let o := {| max_perf := false; abs_perf := false; epsilon := 1 # 2; beta_threshold := 1 # 4; bound := true; norm := true |} in
  let row := [Some 4; None; Some 2; Some 3]%Q in
  let row' := [None; Some 3; Some 4; Some 2]%Q in
  listed_as [1; 3; 0; 2] row row' /\ sole_best o row 2 2 /\ not_better o (Some 9)%Q row /\
  r_bin (prelim_row o row) = [true; false; true; true] /\ r_bin (prelim_row o row') = [false; true; true; true] /\
  r_p (prelim_row o row) = 3 /\ r_p (prelim_row o row') = 4 /\ r_beta (prelim_row o row) = true /\
  r_bin (prelim_row o (row ++ [Some 9%Q])) = [true; false; true; true; false].
Proof.
  cbv zeta. split; [split; [|reflexivity]|].
  - apply NoDup_Permutation; [repeat constructor; simpl; intuition discriminate|apply seq_NoDup|]. intro x. simpl. tauto.
  - split; [split; [reflexivity|]|].
    + intros [|[|[|[|j]]]] v D X; simpl in X; try discriminate; try (injection X as <-); try reflexivity; try congruence. destruct j; discriminate.
    + split; [right; exists 9%Q, 4%Q; split; [auto|split; [left; auto|intro X; vm_compute in X; discriminate]]|].
      repeat split; vm_compute; reflexivity.
Qed.

Print Assumptions C128_order_of_algorithms.
Print Assumptions C128_best_algorithm.
Print Assumptions C128_added_algorithm.
