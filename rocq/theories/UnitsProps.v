(** C127: the unit and the direction of the performance measure. *)
From Coq Require Import Lqa.
From Verif Require Import Base BaseLemmas Num Ext PrelimModel PrelimSpec UnitsSpec UnitsProofs.
Set Implicit Arguments.

(** Relative performance: the unit does not matter to an instance none of whose performances is 0. *)
Theorem C127_unit_of_relative_performance :
  forall o c row, abs_perf o = false -> (0 < c)%Q -> (forall q, In (Some q) row -> ~ (q == 0)%Q) ->
    same_verdict (prelim_row o (convert (fun q => (c * q)%Q) row)) (prelim_row o row) /\
    Forall2 same_value (r_y (prelim_row o (convert (fun q => (c * q)%Q) row))) (r_y (prelim_row o row)).
Proof. intros o c row R C Z. split; [apply relative_verdict|apply relative_y]; auto. Qed.
(** With a performance of 0, which machine epsilon replaces, it does. *)
Theorem C127_unit_is_irrelevant_refuted :
  exists o c row, abs_perf o = false /\ (0 < c)%Q /\ (0 <= epsilon o < 1)%Q /\
    r_good (prelim_row o row) = 2 /\ r_good (prelim_row o (convert (fun q => (c * q)%Q) row)) = 1.
Proof.
  exists {| max_perf := false; abs_perf := false; epsilon := 1 # 20; beta_threshold := 1 # 2; bound := true; norm := true |}, 2%Q,
    [Some 0%Q; Some machine_epsilon].
  split; [reflexivity|]. split; [reflexivity|]. split; [split; [discriminate|reflexivity]|]. split; vm_compute; reflexivity.
Qed.
(** Absolute performance: the unit does not matter if the threshold is given in it. *)
Theorem C127_unit_of_absolute_performance :
  forall o c row, abs_perf o = true -> (0 < c)%Q ->
    same_verdict (prelim_row (with_threshold (c * epsilon o) o) (convert (fun q => (c * q)%Q) row)) (prelim_row o row).
Proof. intros o c row R C. apply absolute_verdict; auto. Qed.
(** More: only the order matters.  Any other scale that keeps the order of the performances and the threshold gives the same. *)
Theorem C127_order_of_absolute_performance :
  forall o f row, abs_perf o = true ->
    (forall a b, a = epsilon o \/ In (Some a) row -> b = epsilon o \/ In (Some b) row -> ((f a <= f b)%Q <-> (a <= b)%Q)) ->
    same_verdict (prelim_row (with_threshold (f (epsilon o)) o) (convert f row)) (prelim_row o row).
Proof. intros o f row R M. apply order_verdict; auto. Qed.
(** Relative performance depends on more than the order, here on whether costs or their squares are given. *)
Theorem C127_order_of_relative_performance_refuted :
  exists o row, abs_perf o = false /\ (0 <= epsilon o < 1)%Q /\ (forall q, In (Some q) row -> (0 < q)%Q) /\
    (forall a b, In (Some a) row -> In (Some b) row -> ((a * a <= b * b)%Q <-> (a <= b)%Q)) /\
    r_good (prelim_row o row) = 2 /\ r_good (prelim_row o (convert (fun q => (q * q)%Q) row)) = 1.
Proof.
  exists {| max_perf := false; abs_perf := false; epsilon := 1 # 20; beta_threshold := 1 # 2; bound := true; norm := true |}, [Some 100; Some 104]%Q.
  split; [reflexivity|]. split; [split; [discriminate|reflexivity]|]. split; [intros q [E|[E|[]]]; injection E as <-; reflexivity|].
  split; [intros a b [A|[A|[]]] [B|[B|[]]]; injection A as <-; injection B as <-; split; intro H; vm_compute in H |- *; auto; congruence|].
  split; vm_compute; reflexivity.
Qed.
(** Absolute performance: a reward to be maximised and its negative, to be minimised, give the same. *)
Theorem C127_negated_absolute_performance :
  forall o row, abs_perf o = true ->
    same_verdict (prelim_row (with_direction (negb (max_perf o)) (with_threshold (- epsilon o) o)) (convert Qopp row)) (prelim_row o row).
Proof. intros o row R. apply negation_verdict; auto. Qed.
(** Relative performance: a positive reward and its reciprocal, to be minimised, give the same, for a
    threshold below 1. *)
Theorem C127_reciprocal_of_relative_performance :
  forall o row, abs_perf o = false -> max_perf o = true -> (epsilon o < 1)%Q -> (forall q, In (Some q) row -> (0 < q)%Q) ->
    same_verdict (prelim_row (with_direction false o) (convert Qinv row)) (prelim_row o row) /\
    Forall2 same_value (r_y (prelim_row (with_direction false o) (convert Qinv row))) (r_y (prelim_row o row)).
Proof. intros o row R M E P. split; [apply recip_verdict|apply recip_y]; auto. Qed.
(** Relative performance: a reward and its negative do not.  Of negative costs every one is good. *)
Theorem C127_negated_relative_performance_refuted :
  exists o row, abs_perf o = false /\ max_perf o = true /\ (0 <= epsilon o < 1)%Q /\ (forall q, In (Some q) row -> (0 < q)%Q) /\
    r_bin (prelim_row o row) = [false; true] /\ r_bin (prelim_row (with_direction false o) (convert Qopp row)) = [true; true].
Proof.
  exists {| max_perf := true; abs_perf := false; epsilon := 1 # 20; beta_threshold := 1 # 2; bound := true; norm := true |},
    [Some 1%Q; Some 2%Q].
  split; [reflexivity|]. split; [reflexivity|]. split; [split; [discriminate|reflexivity]|].
  split; [intros q [E|[E|[]]]; injection E as <-; reflexivity|]. split; vm_compute; reflexivity.
Qed.

(** An instance with a missing performance, a tie and an algorithm that is not good. *)
Example C127_met :
  let o := {| max_perf := true; abs_perf := false; epsilon := 1 # 20; beta_threshold := 1 # 2; bound := true; norm := true |} in
  let row := [None; Some 4; Some 1; Some 4]%Q in
  (forall q, In (Some q) row -> (0 < q)%Q) /\ r_bin (prelim_row o row) = [false; true; false; true] /\ r_p (prelim_row o row) = 2 /\
  r_bin (prelim_row (with_direction false o) (convert Qinv row)) = [false; true; false; true].
Proof.
  cbv zeta. split; [intros q [E|[E|[E|[E|[]]]]]; [discriminate|injection E as <-; reflexivity..]|].
  split; [|split]; vm_compute; reflexivity.
Qed.
(** squares of costs with a tie, a missing value and one above the threshold *)
Example C127_met_order :
  let o := {| max_perf := false; abs_perf := true; epsilon := 5; beta_threshold := 1 # 2; bound := true; norm := true |} in
  let row := [None; Some 4; Some 7; Some 4; Some 5]%Q in
  (forall a b, a = epsilon o \/ In (Some a) row -> b = epsilon o \/ In (Some b) row -> ((a * a <= b * b)%Q <-> (a <= b)%Q)) /\
  r_bin (prelim_row o row) = [false; true; false; true; true] /\ r_p (prelim_row o row) = 2.
Proof.
  cbv zeta. split; [|split; vm_compute; reflexivity].
  assert (X : forall q, q = 5%Q \/ In (Some q) [None; Some 4; Some 7; Some 4; Some 5]%Q -> (0 <= q)%Q).
  { intros q [->|[E|[E|[E|[E|[E|[]]]]]]]; try discriminate; try (injection E as <-); vm_compute; discriminate. }
  intros a b A B. apply X in A, B. split; intro H; nra.
Qed.

Print Assumptions C127_order_of_absolute_performance.
Print Assumptions C127_order_of_relative_performance_refuted.
Print Assumptions C127_unit_of_relative_performance.
Print Assumptions C127_unit_is_irrelevant_refuted.
Print Assumptions C127_unit_of_absolute_performance.
Print Assumptions C127_negated_absolute_performance.
Print Assumptions C127_reciprocal_of_relative_performance.
Print Assumptions C127_negated_relative_performance_refuted.
