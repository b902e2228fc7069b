(** C37-C41, C59, C60: the PRELIM properties. *)
From Coq Require Import Lqa Sorted.
From Verif Require Import Base BaseLemmas Num Ext FilterModel FilterProofs
  PreprocModel PreprocSpec PreprocProofs PrelimModel PrelimSpec PrelimProofs PrelimBound.
Set Implicit Arguments.
Open Scope nat_scope.
Open Scope list_scope.

Definition mk_opts (mx ab : bool) (e : Q) : popts :=
  {| max_perf := mx; abs_perf := ab; epsilon := e; beta_threshold := 1 # 2; bound := true; norm := true |}.
Definition z (k : Z) : num := Some (inject_Z k).

(* ------------------------------------------------------------------ C37 *)
(** The model's constant is that number. *)
Lemma eps_value : machine_epsilon = eps.
Proof. reflexivity. Qed.
(** Best performance and best algorithm.  Machine epsilon replaces a best performance of zero in
    relative mode. *)
Theorem C37_best_performance_and_algorithm :
  forall o row, row <> [] ->
    (exists k b, first_best o row k b /\
       r_best (prelim_row o row) = (if abs_perf o then Fin b else if Qeq_bool b 0 then Fin machine_epsilon else Fin b) /\
       ((abs_perf o = true \/ max_perf o = true \/ ~ (b == 0)%Q \/
         length (filter (fun v => neqb v (Some machine_epsilon)) row) <= 1) ->
        r_p (prelim_row o row) = S k)) \/
    ((forall v, In v row -> v = None) /\
     r_best (prelim_row o row) = (if max_perf o then NInf else PInf) /\ r_p (prelim_row o row) = 1).
Proof.
  intros o row N. rewrite eps_value. destruct (@row_best_p o row N) as [(k & b & _ & H)|H]; [left; eauto|right; auto].
Qed.
Example C37_met : first_best (mk_opts true false (1#5)) [None; z 3; z 7; z 7] 2 7 /\
  r_p (prelim_row (mk_opts true false (1#5)) [None; z 3; z 7; z 7]) = 3.
Proof.
  split; [|vm_compute; reflexivity]. split; [reflexivity|]. split.
  - intros [|[|[|[|j]]]] v H; simpl in H; try discriminate; try (injection H as <-);
      try (intro X; vm_compute in X; discriminate X). destruct j; discriminate.
  - intros [|[|[|j]]] v L H; simpl in H; try discriminate; try lia. injection H as <-. reflexivity.
Qed.
(** The exception: minimised relative performance, best value zero, two algorithms at machine
    epsilon: the reported algorithm is not a best one. *)
Theorem C37_best_algorithm_refuted :
  exists o row, row = [Some 0%Q; Some machine_epsilon; Some machine_epsilon] /\ first_best o row 0 0 /\
    r_p (prelim_row o row) = 2.
Proof.
  exists (mk_opts false false (1#5)), [Some 0%Q; Some machine_epsilon; Some machine_epsilon]. split; auto. split.
  - split; [reflexivity|]. split.
    + intros [|[|[|j]]] v H; simpl in H; try discriminate; try (injection H as <-);
        try (intro X; vm_compute in X; discriminate X). destruct j; discriminate.
    + intros j v L. lia.
  - vm_compute. reflexivity.
Qed.

(* ------------------------------------------------------------------ C38 *)
(** The absolute test; a missing performance is never good. *)
Theorem C38_absolute_test :
  forall o row j, row <> [] -> abs_perf o = true ->
    (good_at (r_bin (prelim_row o row)) j <->
     exists v, nth_error row j = Some (Some v) /\
       (if max_perf o then epsilon o <= v else v <= epsilon o)%Q).
Proof. intros o row j N. apply abs_good. Qed.

(** The relative test for a positive best performance [b]. *)
Theorem C38_relative_test :
  forall o row k b j, first_best o row k b -> abs_perf o = false -> (0 < b)%Q ->
    (good_at (r_bin (prelim_row o row)) j <->
     if max_perf o
     then exists v, nth_error row j = Some (Some v) /\ ((1 - epsilon o) * b <= v)%Q
     else (exists v, nth_error row j = Some (Some v) /\ ((1 - epsilon o) * v <= b)%Q) \/
          (nth_error row j = Some None /\ (1 <= epsilon o)%Q)).
Proof.
  intros o row k b j F Ea Hb.
  assert (N : row <> []) by (destruct F as [F _]; destruct row; [destruct k; discriminate|discriminate]).
  destruct (best_of o row) as [k' w] eqn:E.
  destruct (@best_of_row o row _ _ N E) as [(b' & -> & F')|(_ & _ & A)].
  2: { destruct F as [F _]. apply nth_error_In in F. apply A in F. discriminate. }
  destruct (first_best_value F' F) as [Eb Ek].
  assert (Hb' : (0 < b')%Q) by lra.
  destruct (max_perf o) eqn:Em.
  - rewrite (@rel_max_good o row k' b' j Ea Em E), (divisor_pos Hb').
    split.
    + intros [(v & Hj & H)|[_ H]]; [|lra]. exists v. split; auto. apply (div_pos v (epsilon o) Hb') in H. rewrite <- Eb. auto.
    + intros (v & Hj & H). left. exists v. split; auto. apply div_pos; auto. rewrite Eb. auto.
  - rewrite (@rel_min_good o row k' b' j Ea Em E), (divisor_pos Hb').
    assert (P : forall v, nth_error row j = Some (Some v) -> (b' <= v)%Q).
    { intros v Hj. destruct F' as (_ & F2 & _). pose proof (F2 j v Hj) as X. unfold beats in X. rewrite Em in X. lra. }
    split.
    + intros [(v & Hj & Nv & H)|[(v & Hj & Zv & _)|H]]; [| |right; auto].
      * left. exists v. split; auto. assert (0 < v)%Q by (pose proof (P v Hj); lra).
        apply div_pos in H; auto. lra.
      * pose proof (P v Hj). lra.
    + intros [(v & Hj & H)|H]; [|auto]. left. exists v. assert (0 < v)%Q by (pose proof (P v Hj); lra).
      split; auto. split; [lra|]. apply div_pos; auto. lra.
Qed.
Example C38_met : r_bin (prelim_row (mk_opts true false (1#5)) [z 10; z 8; z 7; None]) = [true; true; false; false]
  /\ r_bin (prelim_row (mk_opts false false (1#5)) [z 8; z 10; z 11; None]) = [true; true; false; false].
Proof. vm_compute. auto. Qed.

(** The counts. *)
Theorem C38_counts :
  forall o row,
    r_good (prelim_row o row) = length (filter (fun b => b) (r_bin (prelim_row o row))) /\
    length (r_bin (prelim_row o row)) = length row /\
    (r_beta (prelim_row o row) = true <->
     (beta_threshold o * inject_Z (Z.of_nat (length row)) < inject_Z (Z.of_nat (r_good (prelim_row o row))))%Q).
Proof. apply row_counts. Qed.

(** With a positive best performance and a non-negative epsilon the best algorithms are good. *)
Theorem C38_best_is_good :
  forall o row k b, first_best o row k b -> abs_perf o = false -> (0 <= epsilon o)%Q ->
    (0 < b \/ (max_perf o = false /\ b == 0))%Q ->
    good_at (r_bin (prelim_row o row)) k.
Proof.
  intros o row k b F Ea He Hb.
  destruct (Qlt_le_dec 0 b) as [P|NP].
  - apply (C38_relative_test k F Ea P). pose proof F as F'. destruct F as [F _].
    assert (X : (0 <= epsilon o * b)%Q) by (apply Qmult_le_0_compat; lra).
    destruct (max_perf o); [|left]; exists b; split; auto; lra.
  - destruct Hb as [Hb|[Em Zb]]; [lra|].
    assert (N : row <> []) by (destruct F as [F _]; destruct row; [destruct k; discriminate|discriminate]).
    destruct (best_of o row) as [k' w] eqn:E.
    destruct (@best_of_row o row _ _ N E) as [(b' & -> & F')|(_ & _ & A)].
    2: { destruct F as [F _]. apply nth_error_In in F. apply A in F. discriminate. }
    destruct (first_best_value F' F) as [Eb Ek].
    apply (@rel_min_good o row k' b' k Ea Em E). right. left. exists b. destruct F as [F _].
    split; auto. split; auto. rewrite divisor_zero by lra. apply eps_pos.
Qed.
(** Relative mode with maximised performance whose best value is zero: nobody is good. *)
Theorem C38_best_is_good_refuted_for_zero :
  forall o row k b, first_best o row k b -> abs_perf o = false -> max_perf o = true -> (b == 0)%Q ->
    (epsilon o < 1)%Q -> forall j, ~ good_at (r_bin (prelim_row o row)) j.
Proof.
  intros o row k b F Ea Em Zb He j G.
  assert (N : row <> []) by (destruct F as [F _]; destruct row; [destruct k; discriminate|discriminate]).
  destruct (best_of o row) as [k' w] eqn:E.
  destruct (@best_of_row o row _ _ N E) as [(b' & -> & F')|(_ & _ & A)].
  2: { destruct F as [F _]. apply nth_error_In in F. apply A in F. discriminate. }
  destruct (first_best_value F' F) as [Eb Ek].
  apply (@rel_max_good o row k' b' j Ea Em E) in G. rewrite divisor_zero in G by lra.
  pose proof eps_pos as Ep. destruct G as [(v & Hj & H)|[_ H]]; [|lra].
  apply (div_pos v (epsilon o) Ep) in H. destruct F' as (_ & F2 & _). pose proof (F2 j v Hj) as X.
  unfold beats in X. rewrite Em in X.
  assert (Y : (0 < (1 - epsilon o) * eps)%Q) by (apply Qmult_lt_0_compat; lra). lra.
Qed.
(** ... and whose best value is negative: everybody is good, even a missing performance. *)
Theorem C38_relative_test_refuted_for_negative :
  forall o row k b, first_best o row k b -> abs_perf o = false -> max_perf o = true -> (b < 0)%Q ->
    (0 <= epsilon o)%Q -> forall j, j < length row -> good_at (r_bin (prelim_row o row)) j.
Proof.
  intros o row k b F Ea Em Zb He j Hj.
  assert (N : row <> []) by (destruct F as [F _]; destruct row; [destruct k; discriminate|discriminate]).
  destruct (best_of o row) as [k' w] eqn:E.
  destruct (@best_of_row o row _ _ N E) as [(b' & -> & F')|(_ & _ & A)].
  2: { destruct F as [F _]. apply nth_error_In in F. apply A in F. discriminate. }
  destruct (first_best_value F' F) as [Eb Ek]. assert (Nb : (b' < 0)%Q) by lra.
  apply (@rel_max_good o row k' b' j Ea Em E). rewrite (divisor_neg Nb).
  destruct (nth_error row j) as [[v|]|] eqn:Ej.
  - left. exists v. split; auto. apply div_neg; auto. destruct F' as (_ & F2 & _). pose proof (F2 j v Ej) as X.
    unfold beats in X. rewrite Em in X.
    assert (Y : (0 <= epsilon o * - b')%Q) by (apply Qmult_le_0_compat; lra). lra.
  - right. auto.
  - apply nth_error_None in Ej. lia.
Qed.
Example C38_refuted_met :
  r_bin (prelim_row (mk_opts true false (1#5)) [z 0; z (-1); None]) = [false; false; false] /\
  r_bin (prelim_row (mk_opts true false (1#5)) [z (-1); z (-100); None]) = [true; true; true].
Proof. vm_compute. auto. Qed.

(* ------------------------------------------------------------------ C39 *)
Theorem C39_bounding_clips :
  forall l : list Q, l <> [] ->
    exists s q1 med q3 lo hi,
      Permutation s l /\ StronglySorted Qle s /\
      quartile_of 1 s q1 /\ quartile_of 2 s med /\ quartile_of 3 s q3 /\
      (lo == med - 5 * (q3 - q1))%Q /\ (hi == med + 5 * (q3 - q1))%Q /\
      lo_bound (map Some l) = Some lo /\ median (map Some l) = Some med /\ hi_bound (map Some l) = Some hi /\
      (lo <= med <= hi)%Q /\
      length (bound_column (map Some l)) = length l /\
      forall k v, nth_error l k = Some v ->
        exists w, nth_error (bound_column (map Some l)) k = Some (Some w) /\
          (lo <= w <= hi)%Q /\
          ((lo <= v <= hi)%Q -> (w == v)%Q) /\ ((hi < v)%Q -> (w == hi)%Q) /\ ((v < lo)%Q -> (w == lo)%Q).
Proof.
  intros l N. destruct (bounds_finite N) as (med & iq & Hm & Hq & Hi & Hl & Hh).
  destruct (iqr_correct _ Hq) as (q1 & q3 & Q1 & Q3 & Eq).
  exists (qsort l), q1, med, q3, (med - 5 * iq)%Q, (med + 5 * iq)%Q.
  split; [apply qsort_perm|]. split; [apply qsort_sorted|]. split; auto. split; [apply median_correct; auto|]. split; auto.
  split; [rewrite Eq; reflexivity|]. split; [rewrite Eq; reflexivity|]. split; auto. split; auto. split; auto.
  split; [lra|]. split; [unfold bound_column; rewrite !map_length; auto|].
  intros k v Hk. unfold bound_column. rewrite Hl, Hh, map_map, nth_error_map, Hk. cbn [option_map].
  assert (LH : (med - 5 * iq <= med + 5 * iq)%Q) by lra.
  destruct (@bound_value_spec _ _ v LH) as (w & Ew & W1 & W2 & W3). exists w. split; [f_equal; exact Ew|].
  split; auto. destruct (Qlt_le_dec (med + 5 * iq) v) as [A|A]; [pose proof (W1 A); lra|].
  destruct (Qlt_le_dec v (med - 5 * iq)) as [B|B]; [pose proof (W2 B); lra|]. pose proof (W3 (conj B A)). lra.
Qed.
(** Order is kept, and clipping a clipped value again with the same bounds changes nothing. *)
Theorem C39_bounding_monotone_idempotent :
  forall lo hi v1 v2 w1 w2, (lo <= hi)%Q -> (v1 <= v2)%Q ->
    bound_value (Some lo) (Some hi) (Some v1) = Some w1 ->
    bound_value (Some lo) (Some hi) (Some v2) = Some w2 ->
    (w1 <= w2)%Q /\
    exists w, bound_value (Some lo) (Some hi) (Some w1) = Some w /\ (w == w1)%Q.
Proof.
  intros lo hi v1 v2 w1 w2 H V E1 E2.
  destruct (@bound_value_spec lo hi v1 H) as (u1 & X1 & A1 & B1 & C1).
  destruct (@bound_value_spec lo hi v2 H) as (u2 & X2 & A2 & B2 & C2).
  rewrite X1 in E1. injection E1 as <-. rewrite X2 in E2. injection E2 as <-.
  destruct (@bound_value_spec lo hi u1 H) as (u & X & A & B & C).
  assert (U1 : (lo <= u1 <= hi)%Q).
  { destruct (Qlt_le_dec hi v1) as [P|P]; [pose proof (A1 P); lra|].
    destruct (Qlt_le_dec v1 lo) as [R|R]; [pose proof (B1 R); lra|]. pose proof (C1 (conj R P)). lra. }
  split.
  - destruct (Qlt_le_dec hi v1) as [P|P].
    + assert (P2 : (hi < v2)%Q) by lra. pose proof (A1 P). pose proof (A2 P2). lra.
    + destruct (Qlt_le_dec hi v2) as [P2|P2]; [pose proof (A2 P2); lra|].
      destruct (Qlt_le_dec v2 lo) as [R2|R2].
      * assert (R1 : (v1 < lo)%Q) by lra. pose proof (B1 R1). pose proof (B2 R2). lra.
      * pose proof (C2 (conj R2 P2)). destruct (Qlt_le_dec v1 lo) as [R1|R1]; [pose proof (B1 R1); lra|].
        pose proof (C1 (conj R1 P)). lra.
  - exists u. split; auto.
Qed.
Example C39_met : map (fun v => match v with Some q => Some (Qred q) | None => None end)
    (bound_column (map z [1; 2; 3; 4; 5; 100; -100]%Z)) = [z 1; z 2; z 3; z 4; z 5; Some (18#1); Some (-12#1)]
  /\ lo_bound (map z [1; 2; 3]%Z) <> None.
Proof. split; [vm_compute; reflexivity|vm_compute; discriminate]. Qed.

(* ------------------------------------------------------------------ C40 *)
Section Selection.
  Variables L S : Type.
  Variable o : selopts.
  Variable split : option (list nat).
  Variable file : list Z.
  Variables n n_feats n_algos : nat.
  Variable d : inst_data L S.
  Hypothesis Size : of_size n d.

  Let fractional := small_scale_flag o = true /\ small_scale_float o = true.
  Let fileindexed := file_idx_flag o = true /\ file_exists o = true.
  Let bydensity := density_flag o = true /\ min_distance_float o = true /\ type_str o = true.

  (** One list of positions, in increasing order, describes every per-instance output. *)
  Theorem C40_one_mask_for_everything :
    forall m d' dense, filter_insts o split file n_feats n_algos d = Ok (m, d', dense) ->
      length m = n /\
      exists idx, increasing idx /\ (forall i, In i idx <-> i < n /\ nth i m false = true) /\
        all_restricted_to idx d d' /\
        (bydensity -> dense = Some d) /\ (~ bydensity -> dense = None).
  Proof. apply selection_spec. exact Size. Qed.

  (** Which instances: the split, the file, the purifier or everything, in this priority. *)
  Theorem C40_which_instances :
    forall m d' dense, filter_insts o split file n_feats n_algos d = Ok (m, d', dense) ->
      (fractional -> exists idx, split = Some idx /\ forall i, i < n -> (nth i m false = true <-> In i idx)) /\
      (~ fractional -> fileindexed -> file_mask n file = Some m) /\
      (~ fractional -> ~ fileindexed -> bydensity -> exists ex di vi,
         filter_instance (d_x d) (d_y d) (d_bin d) n_feats n_algos (min_distance o) (selvars_type o) = Ok (ex, di, vi) /\
         forall i, i < n -> (nth i m false = true <-> nth i ex false = false)) /\
      (~ fractional -> ~ fileindexed -> ~ bydensity -> m = repeat true n /\ d' = d /\ dense = None).
  Proof. apply selection_which. exact Size. Qed.
End Selection.
Definition ex_d : inst_data nat nat :=
  {| d_x := [[z 1]; [z 2]; [z 3]]; d_y := [[z 4]; [z 5]; [z 6]]; d_x_raw := [[z 1]; [z 2]; [z 3]];
     d_y_raw := [[z 4]; [z 5]; [z 6]]; d_bin := [[true]; [false]; [true]]; d_beta := [true; false; true];
     d_good := [1; 0; 1]; d_best := [Fin 4; Fin 5; Fin 6]; d_p := [1; 1; 1]; d_labels := [10; 20; 30];
     d_s := Some [7; 8; 9] |}.
Definition ex_so : selopts :=
  {| small_scale_flag := false; small_scale_float := true; file_idx_flag := true; file_exists := true;
     density_flag := true; min_distance_float := true; type_str := true; selvars_type := "Ftr"; min_distance := 1 |}.
Example C40_met : of_size 3 ex_d /\
  exists m d' dense, filter_insts ex_so None [2; 0]%Z 1 1 ex_d = Ok (m, d', dense) /\
    d_labels d' = [20; 30] /\ d_s d' = Some [8; 9] /\ dense = Some ex_d.
Proof. split; [repeat split|]. do 3 eexists. split; [vm_compute; reflexivity|]. vm_compute. auto. Qed.

(* ------------------------------------------------------------------ C41 *)
(** What the index file selects. *)
Theorem C41_file_selection :
  forall n file m, file_mask n file = Some m ->
    length m = n /\
    forall i, i < n ->
      (nth i m false = true <->
       exists k, In k file /\ (k < Z.of_nat n)%Z /\ (k = Z.of_nat i + 1 \/ k = Z.of_nat i + 1 - Z.of_nat n)%Z).
Proof. exact file_mask_spec. Qed.
(** Index k selects the k-th instance for 1 <= k < n ... *)
Theorem C41_index_selects_its_instance :
  forall n file m k, file_mask n file = Some m -> In (Z.of_nat k) file -> 1 <= k < n ->
    nth (k - 1) m false = true.
Proof.
  intros n file m k E H Hk. destruct (file_mask_spec _ _ E) as [_ X]. apply X; [lia|].
  exists (Z.of_nat k). split; auto. lia.
Qed.
(** ... but a file of the indices 1..n selects every instance except the last, and index 0 is
    what selects the last. *)
Theorem C41_last_index_ignored_refuted :
  forall n, 1 <= n ->
    (forall m, file_mask n (map Z.of_nat (seq 1 n)) = Some m ->
       nth (n - 1) m false = false /\ forall i, i < n - 1 -> nth i m false = true) /\
    (forall m, file_mask n [0%Z] = Some m -> forall i, i < n -> (nth i m false = true <-> i = n - 1)).
Proof.
  intros n Hn. split.
  - intros m E. destruct (file_mask_spec _ _ E) as [_ X]. split.
    + apply not_true_iff_false. rewrite X by lia. intros (k & H & L & [Hk|Hk]); [lia|].
      apply in_map_iff in H. destruct H as (j & <- & Hj). apply in_seq in Hj. lia.
    + intros i Hi. apply X; [lia|]. exists (Z.of_nat (i + 1)). split; [|lia].
      apply in_map. apply in_seq. lia.
  - intros m E i Hi. destruct (file_mask_spec _ _ E) as [_ X]. rewrite X by auto. split.
    + intros (k & [<-|[]] & L & [Hk|Hk]); lia.
    + intros ->. exists 0%Z. split; [left; auto|]. lia.
Qed.
(** Exactly the indices below 1 - n make the run fail. *)
Theorem C41_when_it_fails :
  forall n file, 1 <= n ->
    (file_mask n file = None <-> exists k, In k file /\ (k < 1 - Z.of_nat n)%Z).
Proof.
  intros n file Hn. rewrite file_mask_error. split; intros (k & H1 & H2); exists k; split; auto; lia.
Qed.
Example C41_met : file_mask 4 [1; 3; 4; 9]%Z = Some [true; false; true; false] /\ file_mask 4 [0]%Z = Some [false; false; false; true]
  /\ file_mask 4 [-4]%Z = None.
Proof. vm_compute. auto. Qed.

(* ------------------------------------------------------------------ C59 *)
(** One missing feature value wipes out the whole column, whatever the transform does. *)
Theorem C59_missing_value_wipes_feature :
  forall o transform col, In None col -> bound o = true \/ norm o = true ->
    feature_column o transform col = map (fun _ => None) col.
Proof.
  intros o tr col H Hon. unfold feature_column.
  assert (M : In None (map (fun _ : num => @None Q) col)).
  { apply in_map_iff. exists None. auto. }
  destruct (bound o) eqn:Eb.
  - destruct (bound_missing _ H) as (_ & _ & ->). destruct (norm o); auto.
    unfold normalise_feature. rewrite normalise_missing by (apply nmin_missing; exact M).
    rewrite map_map. auto.
  - destruct Hon as [Hon|Hon]; [discriminate|]. rewrite Hon. unfold normalise_feature.
    apply normalise_missing. apply nmin_missing. auto.
Qed.
(** Without bounding and normalisation the column is untouched. *)
Theorem C59_untouched_without_options :
  forall o transform col, bound o = false -> norm o = false -> feature_column o transform col = col.
Proof. intros o tr col B N. unfold feature_column. rewrite B, N. auto. Qed.
(** One missing performance wipes out the normalised performance of every algorithm. *)
Theorem C59_missing_value_wipes_performance :
  forall transform cols col, In col cols -> In None col ->
    normalise_perf transform cols = map (map (fun _ => None)) cols.
Proof.
  intros tr cols col Hc H. unfold normalise_perf. apply map_ext. intro c. apply normalise_missing.
  apply nmin_missing. apply in_concat. eauto.
Qed.
Example C59_met : let tr := map Some in
  feature_column (mk_opts true true 0) tr [z 1; None; z 3] = [None; None; None].
Proof. vm_compute. reflexivity. Qed.

(* ------------------------------------------------------------------ C60 *)
(** Box-Cox and the z-score only ever see positive data: a complete feature column is shifted
    to start at exactly 1, complete performance to values of at least machine epsilon, and the
    outcome is what the transform returned. *)
Theorem C60_feature_transform_input :
  forall transform l, l <> [] -> (forall d, length (transform d) = length d) ->
    exists data, normalise_feature transform (map Some l) = transform data /\
      length data = length l /\
      (forall v, In v data -> (1 <= v)%Q) /\ (exists v, In v data /\ (v == 1)%Q) /\
      exists m, In m l /\ forall k v, nth_error l k = Some v ->
        exists w, nth_error data k = Some w /\ (w == v - m + 1)%Q.
Proof.
  intros tr l N T. destruct (nmin_finite N) as (m & Em & Im & Lm). unfold normalise_feature. rewrite Em, normalise_finite.
  exists (map (fun v => v - m + 1)%Q l). rewrite scatter_all by (rewrite T; auto). split; auto.
  split; [apply map_length|]. split.
  { intros v Hv. apply in_map_iff in Hv. destruct Hv as (u & <- & Hu). pose proof (Lm u Hu). lra. }
  split.
  { exists (m - m + 1)%Q. split; [apply (in_map (fun v => v - m + 1)%Q); auto|lra]. }
  exists m. split; auto. intros k v Hk. rewrite nth_error_map, Hk. simpl. eexists. split; [reflexivity|lra].
Qed.
Theorem C60_performance_transform_input :
  forall transform cols, (forall d, length (transform d) = length d) -> concat cols <> [] ->
    exists m, In m (concat cols) /\ (forall v, In v (concat cols) -> (m <= v)%Q) /\
      normalise_perf transform (map (map Some) cols)
      = map (fun c => transform (map (fun v => v - m + machine_epsilon)%Q c)) cols.
Proof. rewrite eps_value.
  intros tr cols T N. destruct (nmin_finite N) as (m & Em & Im & Lm). exists m. split; auto. split; auto.
  unfold normalise_perf. rewrite map_map.
  assert (C : concat (map (map Some) cols) = map Some (concat cols)) by (rewrite concat_map; auto).
  apply map_ext. intro c.
  assert (E : nmin (concat (map (map Some) cols)) = Some m) by (rewrite <- Em; f_equal; exact C).
  etransitivity; [|apply scatter_all with (l := map (fun x => x - m + eps)%Q c); rewrite T; reflexivity].
  rewrite <- normalise_finite. f_equal. exact E.
Qed.

Print Assumptions C37_best_performance_and_algorithm.
Print Assumptions C38_relative_test.
Print Assumptions C38_relative_test_refuted_for_negative.
Print Assumptions C39_bounding_clips.
Print Assumptions C40_which_instances.
Print Assumptions C41_last_index_ignored_refuted.
Print Assumptions C59_missing_value_wipes_performance.
Print Assumptions C60_performance_transform_input.

(* ------------------------------------------------------------------ C61 *)
(** PRELIM writes into the performance matrix it is given: in relative mode every zero of the
    caller's array becomes machine epsilon, nothing else changes.  What this means in a pipeline,
    where stages are given copies, is C98. *)
Theorem C61_input_after_the_run :
  forall o row k v, nth_error row k = Some v ->
    exists w, nth_error (r_y_inplace (prelim_row o row)) k = Some w /\
      (if abs_perf o then w = v
       else match v with
            | Some q => if Qeq_bool q 0 then w = Some machine_epsilon else w = v
            | None => w = None
            end).
Proof. rewrite eps_value.
  intros o row k v H. unfold prelim_row. destruct (best_of o row) as [bi bv]. cbn [r_y_inplace].
  destruct (abs_perf o); [eauto|]. rewrite nth_error_map, H. cbn [option_map]. eexists. split; [reflexivity|].
  destruct v as [q|]; auto. simpl. destruct (Qeq_bool q 0); auto.
Qed.
(** Without zeros, or in absolute mode, the data survives and a second run gives the same. *)
Theorem C61_no_zero_no_change :
  forall o row, abs_perf o = true \/ (forall q, In (Some q) row -> ~ (q == 0)%Q) ->
    r_y_inplace (prelim_row o row) = row.
Proof.
  intros o row H. unfold prelim_row. destruct (best_of o row) as [bi bv]. cbn [r_y_inplace].
  destruct (abs_perf o); auto. destruct H as [H|H]; [discriminate|].
  rewrite <- map_id. apply map_ext_in. intros [q|] Hq; auto. simpl.
  destruct (Qeq_bool q 0) eqn:E; auto. exfalso. apply Qeq_bool_iff in E. exact (H q Hq E).
Qed.
(** In general running PRELIM again on the same data does not give the same result: an
    instance on which no algorithm was good has only good algorithms afterwards. *)
Theorem C61_running_twice_refuted :
  forall o n, max_perf o = true -> abs_perf o = false -> (0 <= epsilon o < 1)%Q -> 1 <= n ->
    let row := repeat (Some 0%Q) n in
    forall j, j < n ->
      ~ good_at (r_bin (prelim_row o row)) j /\
      good_at (r_bin (prelim_row o (r_y_inplace (prelim_row o row)))) j.
Proof.
  intros o n Em Ea [He1 He2] Hn row j Hj.
  assert (FB : forall c, first_best o (repeat (Some c) n) 0 c).
  { intro c. split; [destruct n; [lia|reflexivity]|]. split; [|intros; lia].
    intros k v Hk B. apply nth_error_In, repeat_spec in Hk. injection Hk as ->.
    unfold beats in B. rewrite Em in B. lra. }
  split.
  - apply (@C38_best_is_good_refuted_for_zero o row 0 0); auto. apply FB. lra.
  - assert (E : r_y_inplace (prelim_row o row) = repeat (Some eps) n).
    { unfold prelim_row. destruct (best_of o row) as [bi bv]. cbn [r_y_inplace]. rewrite Ea.
      unfold row. clear. induction n; simpl; f_equal; auto. }
    rewrite E. apply (@C38_relative_test o (repeat (Some eps) n) 0 eps j (FB eps) Ea eps_pos). rewrite Em.
    exists eps. split.
    + destruct (nth_error (repeat (Some eps) n) j) as [w|] eqn:X.
      * pose proof (repeat_spec _ _ _ (nth_error_In _ _ X)) as ->. exact X.
      * apply nth_error_None in X. rewrite repeat_length in X. lia.
    + pose proof eps_pos. assert (0 <= epsilon o * eps)%Q by (apply Qmult_le_0_compat; lra). lra.
Qed.
Print Assumptions C61_running_twice_refuted.

(* ------------------------------------------------------------------ C110 *)
(** PRELIM's output y.  In absolute mode without normalisation it is the input. *)
Theorem C110_absolute_performance :
  forall o tr n rows j i row v, abs_perf o = true -> norm o = false -> j < n ->
    nth_error rows i = Some row -> nth_error row j = Some v ->
    exists col, nth_error (prelim_y o tr n rows) j = Some col /\ nth_error col i = Some (of_num v).
Proof.
  intros o tr n rows j i row v A N Hj Hi Hv. unfold prelim_y. rewrite N. unfold columns_of. rewrite nth_error_map.
  assert (S : nth_error (seq 0 n) j = Some j) by (rewrite (nth_error_nth' _ 0) by (rewrite seq_length; auto); rewrite seq_nth; auto).
  rewrite S. simpl. eexists. split; [reflexivity|]. rewrite nth_error_map, nth_error_map, nth_error_map, Hi. simpl. f_equal.
  unfold prelim_row. destruct (best_of o row). cbn [r_y]. rewrite A. apply nth_error_nth. rewrite nth_error_map, Hv. reflexivity.
Qed.
(** In relative mode it is the relative distance from the best performance [b] of the instance: not
    negative, and zero iff the performance is the best. *)
Theorem C110_relative_performance :
  forall o tr n rows j i row k b v, abs_perf o = false -> norm o = false -> j < n ->
    nth_error rows i = Some row -> first_best o row k b -> (machine_epsilon < b)%Q -> nth_error row j = Some (Some v) ->
    exists col q, nth_error (prelim_y o tr n rows) j = Some col /\ nth_error col i = Some (Fin q) /\
      (0 <= q)%Q /\ (q == 0 <-> v == b)%Q /\
      (if max_perf o then ~ v == 0 -> (1 - q) * b == v else (1 - q) * v == b)%Q.
Proof.
  rewrite eps_value. intros o tr n rows j i row k b v A N Hj Hi F Hb Hv. unfold prelim_y. rewrite N. unfold columns_of. rewrite nth_error_map.
  assert (S : nth_error (seq 0 n) j = Some j) by (rewrite (nth_error_nth' _ 0) by (rewrite seq_length; auto); rewrite seq_nth; auto).
  rewrite S. simpl. assert (R : row <> []) by (intros ->; destruct j; discriminate).
  assert (Ep := eps_pos).
  assert (B : exists b', r_best (prelim_row o row) = Fin b' /\ (b' == b)%Q).
  { destruct (C37_best_performance_and_algorithm o R) as [(k' & b' & F' & E & _)|(M & _)].
    - exists b'. assert (X : (b' == b)%Q).
      { destruct F as (F1 & F2 & _), F' as (F1' & F2' & _). specialize (F2 _ _ F1'). specialize (F2' _ _ F1). unfold beats in *.
        destruct (max_perf o); apply Qle_antisym; apply Qnot_lt_le; auto. }
      rewrite A in E. destruct (Qeq_bool b' 0) eqn:Z; [exfalso; apply Qeq_bool_iff in Z; lra|]. auto.
    - exfalso. destruct F as (F1 & _). apply nth_error_In, M in F1. discriminate. }
  destruct B as (b' & Eb & Xb).
  assert (Y : nth j (r_y (prelim_row o row)) ENaN =
     let w := if Qeq_bool v 0 then eps else v in
     if max_perf o then one_minus (ediv (Fin w) (Fin b')) else one_minus (ediv (Fin b') (Fin w))).
  { revert Eb. unfold prelim_row. destruct (best_of o row) as [bi bv]. cbn [r_y r_best]. rewrite A. intro Eb. rewrite Eb.
    apply nth_error_nth. rewrite !nth_error_map, Hv. simpl. destruct (Qeq_bool v 0), (max_perf o); reflexivity. }
  assert (V : ~ beats o v b) by (destruct F as (_ & F & _); eauto). unfold beats in V.
  exists (map (fun r => nth j r ENaN) (map r_y (map (prelim_row o) rows))).
  assert (Z' : nth_error (map (fun r => nth j r ENaN) (map r_y (map (prelim_row o) rows))) i = Some (nth j (r_y (prelim_row o row)) ENaN)) by (rewrite !nth_error_map, Hi; reflexivity).
  rewrite Z', Y. cbv zeta. clear Y Z'.
  destruct (max_perf o) eqn:Em.
  - unfold ediv. destruct (Qeq_bool b' 0) eqn:Z; [exfalso; apply Qeq_bool_iff in Z; lra|]. simpl.
    eexists. split; [reflexivity|]. split; [reflexivity|].
    assert (I : forall w, (w <= b' -> 0 <= 1 - w / b')%Q).
    { intros w W. assert (w / b' <= 1)%Q; [|lra]. apply Qle_shift_div_r; lra. }
    assert (Z0 : forall w, (1 - w / b' == 0 <-> w == b')%Q).
    { intro w. split; intro H.
      - assert (X : (w / b' == 1)%Q) by lra. rewrite <- (Qmult_1_l b'), <- X. field. lra.
      - rewrite H. field. lra. }
    destruct (Qeq_bool v 0) eqn:V0.
    + apply Qeq_bool_iff in V0. split; [apply I; lra|]. split; [|intro; contradiction]. rewrite Z0. split; intro; exfalso; lra.
    + split; [apply I; lra|]. split; [rewrite Z0, Xb; tauto|]. intros _. rewrite <- Xb. field. lra.
  - assert (V0 : Qeq_bool v 0 = false) by (destruct (Qeq_bool v 0) eqn:Z; auto; apply Qeq_bool_iff in Z; exfalso; lra).
    rewrite V0. unfold ediv. rewrite V0. simpl. eexists. split; [reflexivity|]. split; [reflexivity|].
    assert (P : (0 < v)%Q) by lra. split.
    { assert (b' / v <= 1)%Q; [|lra]. apply Qle_shift_div_r; lra. }
    split; [|rewrite <- Xb; field; lra]. split; intro H.
    + assert (X : (b' / v == 1)%Q) by lra. rewrite <- Xb, <- (Qmult_1_l v), <- X. field. lra.
    + rewrite H, Xb. field. lra.
Qed.
(** With normalisation the relative performance is discarded: absolute and relative mode give the
    same output, the normalised input, unless a performance is zero. *)
Theorem C110_normalised_performance_is_absolute :
  forall o tr n rows, norm o = true ->
    (abs_perf o = true \/ forall row q, In row rows -> In (Some q) row -> ~ (q == 0)%Q) ->
    prelim_y o tr n rows = map (map of_num) (normalise_perf tr (columns_of None n rows)).
Proof.
  intros o tr n rows N H. unfold prelim_y. rewrite N. do 3 f_equal. rewrite map_map. rewrite <- (map_id rows) at 2. apply map_ext_in.
  intros row Hr. apply C61_no_zero_no_change. destruct H as [H|H]; [auto|right]. intros q Hq. eapply H; eauto.
Qed.
(** So the output is not the normalised relative performance. *)
Theorem C110_relative_performance_is_normalised_refuted :
  exists o rows, abs_perf o = false /\ norm o = true /\
    let relative := columns_of ENaN 2 (map r_y (map (prelim_row o) rows)) in
    exists cols, relative = map (map of_num) cols /\
      prelim_y o (map Some) 2 rows <> map (map of_num) (normalise_perf (map Some) cols).
Proof.
  exists {| max_perf := true; abs_perf := false; epsilon := 1#5; beta_threshold := 1#2; bound := true; norm := true |}, [[z 1; z 2]; [z 4; z 3]].
  split; auto. split; auto. cbv zeta.
  exists [[Some (1 - 1 / 2); Some (1 - 4 / 4)]; [Some (1 - 2 / 2); Some (1 - 3 / 4)]]%Q. split; [reflexivity|].
  intro H. vm_compute in H. discriminate.
Qed.
Example C110_met :
  let o := {| max_perf := true; abs_perf := false; epsilon := 1#5; beta_threshold := 1#2; bound := true; norm := false |} in
  first_best o [z 1; z 4; None] 1 4 /\ (machine_epsilon < 4)%Q /\
  prelim_y o (map Some) 3 [[z 1; z 4; None]] = [[Fin (1 - 1 / 4)]; [Fin (1 - 4 / 4)]; [ENaN]].
Proof.
  split; [|split; [reflexivity|reflexivity]]. split; [reflexivity|]. split.
  - intros [|[|[|[|j]]]] v H; simpl in H; try discriminate; injection H as <-; intro X; vm_compute in X; discriminate.
  - intros [|j] v L H; [|lia]. simpl in H. injection H as <-. reflexivity.
Qed.
Print Assumptions C110_absolute_performance.
Print Assumptions C110_relative_performance.
Print Assumptions C110_normalised_performance_is_absolute.
Print Assumptions C110_relative_performance_is_normalised_refuted.
