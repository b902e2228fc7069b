(** C130: the scale of a feature, in the Box-Cox transformation and what is reported of it. *)
From Coq Require Import Reals Lra Lia List.
From Verif Require Import PythiaZModel PythiaZProps PrelimZModel PrelimZProps.
Import ListNotations.
Open Scope R_scope.

Lemma lmin_shift b l : l <> [] -> lmin (map (fun v => v + b) l) = lmin l + b.
Proof.
  destruct l as [|a l]; [congruence|]. intros _. simpl. revert a. induction l as [|c l IH]; intro a; simpl; auto.
  rewrite <- IH. f_equal. unfold Rmin. destruct (Rle_dec (a + b) (c + b)), (Rle_dec a c); auto; lra.
Qed.

Section Fit.
  Variable fit : list R -> R.
  (** The zero point of a feature shows in the reported minimum and in nothing else. *)
  Theorem C130_zero_point_and_the_fitted_parameters :
    forall b col, col <> [] ->
      normalise_x fit (map (fun v => v + b) col) = (fst (normalise_x fit col) + b, snd (normalise_x fit col)).
  Proof.
    intros b col N. unfold normalise_x. cbn [fst snd]. rewrite lmin_shift by auto. f_equal. f_equal. rewrite map_map.
    apply map_ext. intro v. ring.
  Qed.
  (** The same for the performances, all measured from another zero point. *)
  Theorem C130_zero_point_of_the_performances :
    forall b cols, concat cols <> [] ->
      normalise_y fit (map (map (fun v => v + b)) cols) = (fst (normalise_y fit cols) + b, snd (normalise_y fit cols)).
  Proof.
    intros b cols N. unfold normalise_y. cbn [fst snd]. rewrite <- concat_map, lmin_shift by auto. f_equal. rewrite map_map.
    apply map_ext. intro col. f_equal. rewrite map_map. apply map_ext. intro v. ring.
  Qed.
End Fit.

(** "The unit of a feature does not show in the normalised feature": it does, because 1 is added whatever the
    unit; here with the parameter 2 of the transformation. *)
Theorem C130_unit_refuted :
  exists fit c col, 0 < c /\ n_values (snd (normalise_x fit (map (Rmult c) col))) <> n_values (snd (normalise_x fit col)).
Proof.
  exists (fun _ => 2), 2, [0; 1; 2]. split; [lra|].
  unfold normalise_x, normalise_shifted. cbn [snd n_values map lmin fold_left].
  assert (M0 : Rmin (Rmin 0 1) 2 = 0) by (unfold Rmin; repeat destruct (Rle_dec _ _); lra).
  assert (M1 : Rmin (Rmin (2 * 0) (2 * 1)) (2 * 2) = 0) by (unfold Rmin; repeat destruct (Rle_dec _ _); lra).
  rewrite M0, M1.
  assert (B : forall x, 0 < x -> boxcox 2 x = (x * x - 1) / 2).
  { intros x P. unfold boxcox. destruct (Rlt_dec (Rabs 2) (/ 10 ^ 19)) as [H|H].
    - exfalso. rewrite Rabs_pos_eq in H by lra. assert (/ 10 ^ 19 < 1).
      { rewrite <- Rinv_1. apply Rinv_lt_contravar; simpl; lra. }
      lra.
    - f_equal. f_equal. replace 2 with (INR 2) by (simpl; ring). rewrite Rpower_pow by auto. simpl. ring. }
  rewrite !B by lra.
  set (l' := [((2 * 0 - 0 + 1) * (2 * 0 - 0 + 1) - 1) / 2; ((2 * 1 - 0 + 1) * (2 * 1 - 0 + 1) - 1) / 2; ((2 * 2 - 0 + 1) * (2 * 2 - 0 + 1) - 1) / 2]).
  set (l := [((0 - 0 + 1) * (0 - 0 + 1) - 1) / 2; ((1 - 0 + 1) * (1 - 0 + 1) - 1) / 2; ((2 - 0 + 1) * (2 - 0 + 1) - 1) / 2]).
  assert (E' : l' = [0; 4; 12]) by (unfold l'; f_equal; [field|f_equal; [field|f_equal; field]]).
  assert (E : l = [0; 3 / 2; 4]) by (unfold l; f_equal; [field|f_equal; [field|f_equal; field]]).
  clearbody l l'. subst l l'. unfold zscore_or_nan.
  assert (P' : 0 < std1 [0; 4; 12]) by (apply std_pos with 0 4; simpl; auto; lra).
  assert (P : 0 < std1 [0; 3 / 2; 4]) by (apply std_pos with 0 4; simpl; auto; lra).
  destruct (Req_EM_T (std1 [0; 4; 12]) 0) as [Z|_]; [lra|]. destruct (Req_EM_T (std1 [0; 3 / 2; 4]) 0) as [Z|_]; [lra|].
  intro X. assert (X' : zscore [0; 4; 12] = zscore [0; 3 / 2; 4]) by congruence. clear X. rename X' into X. unfold zscore in X. cbn [map] in X.
  assert (A' : mean [0; 4; 12] = 16 / 3) by (unfold mean, rsum; simpl; field).
  assert (A : mean [0; 3 / 2; 4] = 11 / 6) by (unfold mean, rsum; simpl; field).
  rewrite A, A' in X. set (s := std1 [0; 3 / 2; 4]) in *. set (t := std1 [0; 4; 12]) in *. clearbody s t.
  assert (X0 : (0 - 16 / 3) / t = (0 - 11 / 6) / s) by congruence.
  assert (X1 : (4 - 16 / 3) / t = (3 / 2 - 11 / 6) / s) by congruence. clear X. apply (f_equal (fun v => v * (s * t))) in X0, X1.
  replace ((0 - 16 / 3) / t * (s * t)) with (- (16 / 3) * s) in X0 by (field; lra).
  replace ((0 - 11 / 6) / s * (s * t)) with (- (11 / 6) * t) in X0 by (field; lra).
  replace ((4 - 16 / 3) / t * (s * t)) with (- (4 / 3) * s) in X1 by (field; lra).
  replace ((3 / 2 - 11 / 6) / s * (s * t)) with (- (1 / 3) * t) in X1 by (field; lra). lra.
Qed.

(** A feature of three values. *)
Example C130_real_met : [0; 1; 2] <> [] /\ lmin (map (fun v => v + 5) [0; 1; 2]) = lmin [0; 1; 2] + 5.
Proof. split; [discriminate|apply lmin_shift; discriminate]. Qed.

Print Assumptions C130_zero_point_and_the_fitted_parameters.
Print Assumptions C130_zero_point_of_the_performances.
Print Assumptions C130_unit_refuted.
