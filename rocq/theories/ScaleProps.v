(** C130: the scale of a feature, in PRELIM's bounding and normalisation. *)
From Verif Require Import Base BaseLemmas Num PrelimModel PrelimSpec PrelimBound InstOrderSpec InstOrderProofs ScaleSpec ScaleProofs.
Set Implicit Arguments.
Open Scope list_scope.

(** Bounding a feature on another scale, also one that runs the other way, is bounding it and changing the
    scale; the reported median changes with the scale, the interquartile range with the unit, and the bounds
    change with the scale and change places if the direction is reversed. *)
Theorem C130_bounding_on_another_scale :
  forall a b col, ~ (a == 0)%Q ->
    Forall2 same_number (bound_column (map (on_scale a b) col)) (map (on_scale a b) (bound_column col)).
Proof. intros. apply bound_scaled. auto. Qed.
Theorem C130_statistics_on_another_scale :
  forall a b (l : list Q), ~ (a == 0)%Q -> l <> [] ->
    let c := map Some l in let c' := map (on_scale a b) c in
    same_number (median c') (on_scale a b (median c)) /\
    same_number (iqr c') (nmul (Some (if Qle_bool 0 a then a else - a)%Q) (iqr c)) /\
    same_number (lo_bound c') (on_scale a b (if Qle_bool 0 a then lo_bound c else hi_bound c)) /\
    same_number (hi_bound c') (on_scale a b (if Qle_bool 0 a then hi_bound c else lo_bound c)).
Proof.
  intros a b l A N c c'. unfold c', c. rewrite scale_all.
  split; [apply median_scaled; auto|]. split; [apply iqr_scaled; auto|]. apply bounds_scaled; auto.
Qed.
(** Bounding what is bounded changes nothing. *)
Theorem C130_bounding_twice :
  forall col, Forall2 same_number (bound_column (bound_column col)) (bound_column col).
Proof. intro. apply bound_twice. Qed.
(** With two instances it makes every feature constant. *)
Theorem C130_two_instances :
  forall x y, exists u v, bound_column [Some x; Some y] = [Some u; Some v] /\ (u == (x + y) / 2)%Q /\ (v == (x + y) / 2)%Q.
Proof. intros. apply bound_two. Qed.
(** A value that more than three quarters of the instances have replaces the values of all the others. *)
Theorem C130_mostly_one_value :
  forall v l, 3 * length l < 4 * length (filter (Qeq_bool v) l) ->
    length (bound_column (map Some l)) = length l /\ Forall (fun w => exists q, w = Some q /\ (q == v)%Q) (bound_column (map Some l)).
Proof. intros v l H. split; [unfold bound_column; rewrite !map_length; auto|apply bound_mostly; auto]. Qed.
(** The zero point of a feature does not show in the normalised feature, bounded or not. *)
Theorem C130_zero_point :
  forall o transform b col, well_behaved transform -> norm o = true ->
    Forall2 same_number (feature_column o transform (map (on_scale 1 b) col)) (feature_column o transform col).
Proof. intros. apply feature_shifted; auto. Qed.

(** A column with an outlier, in Celsius and in Fahrenheit. *)
Example C130_met :
  let col := map Some [1; 2; 3; 4; 100]%Q in
  well_behaved (map Some) /\
  Forall2 same_number (bound_column col) (map Some [1; 2; 3; 4; 13]%Q) /\
  Forall2 same_number (bound_column (map (on_scale (9 # 5) 32) col)) (map (on_scale (9 # 5) 32) (map Some [1; 2; 3; 4; 13]%Q)).
Proof.
  cbv zeta. split; [split; [intro; apply map_length|intros l l'; induction 1; simpl; constructor; auto]|].
  split; vm_compute; repeat constructor.
Qed.

Print Assumptions C130_bounding_on_another_scale.
Print Assumptions C130_statistics_on_another_scale.
Print Assumptions C130_bounding_twice.
(** Four of five instances without a fault: the fifth one's count is lost. *)
Example C130_met_mostly :
  3 * length [0; 0; 7; 0; 0]%Q < 4 * length (filter (Qeq_bool 0) [0; 0; 7; 0; 0]%Q) /\
  Forall2 same_number (bound_column (map Some [0; 0; 7; 0; 0]%Q)) (map Some [0; 0; 0; 0; 0]%Q).
Proof. split; [simpl; lia|]. vm_compute. repeat constructor. Qed.
Print Assumptions C130_zero_point.
Print Assumptions C130_mostly_one_value.
