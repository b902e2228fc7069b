(** Properties C48, C49, C77-C83 (PYTHIA). *)
From Coq Require Import Lqa.
From Verif Require Import BaseLemmas Mat PreprocSpec CloisterModel PilotProofs CloisterProofs PythiaModel PythiaSpec PythiaProofs PythiaWeights.
Set Implicit Arguments.
Open Scope nat_scope.
Open Scope list_scope.

Lemma nth_repeat_in A (a d : A) n i : i < n -> nth i (repeat a n) d = a.
Proof. revert i. induction n; intros [|i] H; simpl; auto; try lia. apply IHn. lia. Qed.

Section Run.
  Variable fit : nat -> hyper -> list bool -> list num -> res pyerr svm_res.
  Variables round3 root : num -> num.
  Variable y : list (list num).
  Variable y_bin : list (list bool).
  Variable y_best : list num.
  Variable algo_labels : list string.
  Variable nalgos : nat.
  Variable use_weights : bool.
  Variable par : option params.
  Definition run := pythia fit round3 root y y_bin y_best algo_labels nalgos use_weights par.

  (** shapes of what the selection works on *)
  Lemma run_shapes out : run = Ok out ->
    1 < nalgos /\ length (o_precision out) = nalgos /\ length (o_accuracy out) = nalgos /\ length (o_recall out) = nalgos /\
    length (o_y_hat out) = length y_bin /\
    (forall i, i < length y_bin -> length (nth i (o_y_hat out) []) = nalgos) /\
    length (o_selection0 out) = length y_bin /\ length (o_selection1 out) = length y_bin /\
    (forall i, i < length y_bin -> nth i (o_selection0 out) 0 = select_one (o_precision out) 0 (nth i (o_y_hat out) [])) /\
    (forall i, i < length y_bin -> nth i (o_selection1 out) 0 =
       select_one (o_precision out) (default_selection y_bin nalgos) (nth i (o_y_hat out) [])).
  Proof.
    intro H. destruct (@pythia_inv _ _ _ _ _ _ _ _ _ _ _ H) as (N & _ & w & rs & _ & _ & L & _ & Ey & _ & Ea & Ep & Er & _ & E0 & E1 & _). cbv zeta in *.
    assert (Lh : length (o_y_hat out) = length y_bin) by (rewrite Ey, of_columns_length; auto).
    split; auto. split; [rewrite Ep; apply score_length; auto|]. split; [rewrite Ea; apply score_length; auto|].
    split; [rewrite Er; apply score_length; auto|]. split; auto.
    split; [intros i Hi; rewrite Ey, of_columns_row, !map_length by auto; auto|].
    split; [rewrite E0, map_length; auto|]. split; [rewrite E1, map_length; auto|].
    split; intros i Hi; [rewrite E0|rewrite E1]; apply (nth_map_in _ (o_y_hat out) []); lia.
  Qed.

  (* ========================================================== C48, C49 *)
  (** selection0 is the first predicted-good algorithm of largest (positive) precision; if there
      is none it is 0. *)
  Theorem C48_selection_is_the_best_candidate :
    forall out, run = Ok out -> forall i, i < length y_bin ->
      ((exists j, candidate out nalgos i j) -> best_candidate out nalgos i (nth i (o_selection0 out) 0)) /\
      (~ (exists j, candidate out nalgos i j) -> nth i (o_selection0 out) 0 = 0).
  Proof.
    intros out H i Hi. destruct (run_shapes H) as (N & Lp & _ & _ & _ & Lr & _ & _ & S0 & _). rewrite S0 by auto.
    specialize (Lr i Hi). destruct (@select_one_spec (o_precision out) (nth i (o_y_hat out) []) 0) as [A B]; [lia|lia|].
    unfold best_candidate, candidate, flag. rewrite Lr in A, B. split; auto.
  Qed.
  (** selection1 is selection0 where a candidate exists, otherwise the first algorithm that is
      good most often. *)
  Theorem C49_fallback_selection :
    forall out, run = Ok out -> forall i, i < length y_bin ->
      ((exists j, candidate out nalgos i j) -> nth i (o_selection1 out) 0 = nth i (o_selection0 out) 0) /\
      (~ (exists j, candidate out nalgos i j) -> most_often_good y_bin nalgos (nth i (o_selection1 out) 0)).
  Proof.
    intros out H i Hi. destruct (run_shapes H) as (N & Lp & _ & _ & _ & Lr & _ & _ & S0 & S1). rewrite S0, S1 by auto.
    specialize (Lr i Hi). destruct (@select_one_spec (o_precision out) (nth i (o_y_hat out) []) (default_selection y_bin nalgos)) as [A B]; [lia|lia|].
    destruct (@select_one_spec (o_precision out) (nth i (o_y_hat out) []) 0) as [A0 B0]; [lia|lia|].
    unfold candidate, flag. rewrite Lr in *. split.
    - intro C. destruct (A C) as (C1 & M1 & F1). destruct (A0 C) as (C0 & M0 & F0).
      set (s1 := select_one (o_precision out) (default_selection y_bin nalgos) (nth i (o_y_hat out) [])) in *.
      set (s0 := select_one (o_precision out) 0 (nth i (o_y_hat out) [])) in *.
      destruct (Nat.lt_trichotomy s1 s0) as [T|[T|T]]; auto; exfalso.
      + specialize (F0 s1 T C1). specialize (M1 s0 C0). lra.
      + specialize (F1 s0 T C0). specialize (M0 s1 C1). lra.
    - intro C. rewrite (B C). apply default_spec; [lia|]. destruct y_bin; [simpl in Hi; lia|discriminate].
  Qed.
  (** An algorithm that is good for an instance and predicted good for it is a candidate: whenever
      some prediction "good" is right, the selected algorithm is predicted good. *)
  Theorem C48_right_prediction_is_followed :
    forall out, run = Ok out -> forall i j, i < length y_bin -> j < nalgos ->
      flag y_bin i j = true -> flag (o_y_hat out) i j = true ->
      candidate out nalgos i j /\ candidate out nalgos i (nth i (o_selection0 out) 0) /\
      nth i (o_selection1 out) 0 = nth i (o_selection0 out) 0.
  Proof.
    intros out H i j Hi Hj Gd Pd.
    assert (C : candidate out nalgos i j).
    { split; auto. split; auto.
      destruct (@pythia_inv _ _ _ _ _ _ _ _ _ _ _ H) as (N & _ & w & rs & _ & _ & L & _ & Ey & _ & _ & Ep & _). cbv zeta in *.
      destruct (nth_error rs j) as [r|] eqn:Er; [|apply nth_error_None in Er; lia].
      rewrite Ep, (@score_nth y_bin nalgos precision_score rs j r 0%Q L Er).
      rewrite Ey, flag_columns in Pd by (rewrite ?map_length; lia).
      rewrite (nth_map_in r_yhat rs r) in Pd by lia. rewrite (nth_error_nth _ _ r Er) in Pd.
      assert (Hr : i < length (r_yhat r)) by (destruct (Nat.lt_ge_cases i (length (r_yhat r))); auto; rewrite nth_overflow in Pd by auto; discriminate).
      assert (T : 0 < tp (column false y_bin j) (r_yhat r)).
      { unfold tp, count2.
        assert (I : In (true, true) (combine (column false y_bin j) (r_yhat r))).
        { assert (X : nth i (combine (column false y_bin j) (r_yhat r)) (false, false) = (true, true)).
          { revert Hr Pd Gd. unfold flag, column. revert i Hi. generalize (r_yhat r). generalize y_bin. clear.
            induction y_bin as [|row l IH]; intros p i Hi Hr Pd Gd; [simpl in Hi; lia|]. destruct p as [|b p]; [simpl in Hr; lia|].
            destruct i as [|i]; simpl in *; [congruence|]. apply IH; auto; lia. }
          rewrite <- X. apply nth_In. rewrite combine_length. unfold column. rewrite map_length. lia. }
        assert (F : In (true, true) (filter (fun tp => fst tp && snd tp) (combine (column false y_bin j) (r_yhat r)))) by (apply filter_In; auto).
        destruct (filter _ _); [contradiction|simpl; lia]. }
      unfold precision_score. apply ratio_pos; lia. }
    split; auto. assert (E : exists j, candidate out nalgos i j) by eauto.
    destruct (C48_selection_is_the_best_candidate H Hi) as [A _]. destruct (C49_fallback_selection H Hi) as [B _].
    split; [apply A; auto|auto].
  Qed.

  (* ========================================================== C78 *)
  Lemma column_flag j i : nth i (column false y_bin j) false = flag y_bin i j.
  Proof.
    unfold column, flag. destruct (Nat.lt_ge_cases i (length y_bin)) as [Hi|Hi].
    - rewrite (nth_map_in (fun r => nth j r false) y_bin []) by auto. auto.
    - rewrite nth_overflow by (rewrite map_length; auto). rewrite (nth_overflow y_bin) by auto. destruct j; auto.
  Qed.
  Lemma count_good f j p : length p = length y_bin ->
    count2 f (column false y_bin j) p = how_many (length y_bin) (fun i => f (flag y_bin i j) (nth i p false)).
  Proof.
    intro L. rewrite count2_nth by (unfold column; rewrite map_length; auto).
    replace (length (column false y_bin j)) with (length y_bin) by (unfold column; rewrite map_length; auto).
    apply how_many_ext. intros i Hi. rewrite column_flag. auto.
  Qed.
  (** Accuracy, precision and recall compare y_bin with the predictions y_hat of the final models
      on the training instances. *)
  Theorem C78_scores_of_the_final_models :
    fit_shape fit -> forall out, run = Ok out -> forall j, j < nalgos ->
      let n := length y_bin in
      let good i := flag y_bin i j in
      let pred i := flag (o_y_hat out) i j in
      share (nth j (o_accuracy out) 0%Q) (how_many n (fun i => Bool.eqb (good i) (pred i))) n /\
      share (nth j (o_precision out) 0%Q) (how_many n (fun i => good i && pred i)) (how_many n pred) /\
      share (nth j (o_recall out) 0%Q) (how_many n (fun i => good i && pred i)) (how_many n good).
  Proof.
    intros FS out H j Hj. cbv zeta.
    destruct (@pythia_inv _ _ _ _ _ _ _ _ _ _ _ H) as (N & _ & w & rs & _ & _ & L & Fr & Ey & _ & Ea & Ep & Er & _). cbv zeta in *.
    destruct (nth_error rs j) as [r|] eqn:Ej; [|apply nth_error_None in Ej; lia].
    rewrite Ea, Ep, Er, !(fun f => @score_nth y_bin nalgos f rs j r 0%Q L Ej).
    destruct (Fr j r Ej) as (_ & Fj & _). destruct (FS _ _ _ _ _ Fj) as [Lh _].
    assert (Lc : length (column false y_bin j) = length y_bin) by (unfold column; apply map_length). rewrite Lc in Lh.
    assert (P : forall i, i < length y_bin -> flag (o_y_hat out) i j = nth i (r_yhat r) false).
    { intros i Hi. rewrite Ey, flag_columns by (rewrite ?map_length; lia). rewrite (nth_map_in r_yhat rs r) by lia.
      rewrite (nth_error_nth _ _ r Ej). auto. }
    unfold accuracy_score, precision_score, recall_score, tn, tp, fp, fn. rewrite !count_good, Lc by auto.
    set (n := length y_bin) in *.
    assert (E1 : how_many n (fun i => Bool.eqb (flag y_bin i j) (flag (o_y_hat out) i j)) =
      how_many n (fun i => negb (flag y_bin i j) && negb (nth i (r_yhat r) false)) + how_many n (fun i => flag y_bin i j && nth i (r_yhat r) false)).
    { rewrite (how_many_split n _ (fun i => nth i (r_yhat r) false)). rewrite Nat.add_comm. f_equal; apply how_many_ext; intros i Hi; rewrite (P i Hi); destruct (flag y_bin i j), (nth i (r_yhat r) false); auto. }
    assert (E2 : how_many n (fun i => flag (o_y_hat out) i j) =
      how_many n (fun i => flag y_bin i j && nth i (r_yhat r) false) + how_many n (fun i => negb (flag y_bin i j) && nth i (r_yhat r) false)).
    { rewrite (how_many_split n _ (fun i => flag y_bin i j)). f_equal; apply how_many_ext; intros i Hi; rewrite (P i Hi); destruct (flag y_bin i j), (nth i (r_yhat r) false); auto. }
    assert (E3 : how_many n (fun i => flag y_bin i j) =
      how_many n (fun i => flag y_bin i j && nth i (r_yhat r) false) + how_many n (fun i => flag y_bin i j && negb (nth i (r_yhat r) false))) by apply how_many_split.
    assert (E4 : how_many n (fun i => flag y_bin i j && flag (o_y_hat out) i j) = how_many n (fun i => flag y_bin i j && nth i (r_yhat r) false))
      by (apply how_many_ext; intros i Hi; rewrite (P i Hi); auto).
    rewrite E1, E2, E3, E4. split; [|split; apply ratio_share; lia].
    apply ratio_share. rewrite <- E1. rewrite <- (how_many_all n) at 2.
    rewrite (how_many_split n (fun _ => true) (fun i => Bool.eqb (flag y_bin i j) (flag (o_y_hat out) i j))). cbn [andb]. lia.
  Qed.
  (** The confusion matrix compares y_bin with the cross-validated predictions y_sub; its entries
      are true negatives, false positives, false negatives and true positives, and add up to the
      number of instances. *)
  Theorem C78_confusion_matrix_is_cross_validated :
    fit_shape fit -> forall out, run = Ok out -> forall j, j < nalgos ->
      let n := length y_bin in
      let good i := flag y_bin i j in
      let pred i := flag (o_y_sub out) i j in
      exists a b c d, nth_error (o_cvcmat out) j = Some (a, b, c, d) /\
        a = how_many n (fun i => negb (good i) && negb (pred i)) /\ b = how_many n (fun i => negb (good i) && pred i) /\
        c = how_many n (fun i => good i && negb (pred i)) /\ d = how_many n (fun i => good i && pred i) /\
        a + b + c + d = n.
  Proof.
    intros FS out H j Hj. cbv zeta.
    destruct (@pythia_inv _ _ _ _ _ _ _ _ _ _ _ H) as (N & _ & w & rs & _ & _ & L & Fr & _ & Ey & _ & _ & _ & Ec & _). cbv zeta in *.
    destruct (nth_error rs j) as [r|] eqn:Ej; [|apply nth_error_None in Ej; lia].
    destruct (Fr j r Ej) as (_ & Fj & _). destruct (FS _ _ _ _ _ Fj) as [_ Ls].
    assert (Lc : length (column false y_bin j) = length y_bin) by (unfold column; apply map_length). rewrite Lc in Ls.
    assert (P : forall i, i < length y_bin -> flag (o_y_sub out) i j = nth i (r_ysub r) false).
    { intros i Hi. rewrite Ey, flag_columns by (rewrite ?map_length; lia). rewrite (nth_map_in r_ysub rs r) by lia.
      rewrite (nth_error_nth _ _ r Ej). auto. }
    assert (Lcb : length (combine (map (column false y_bin) (seq 0 nalgos)) rs) = nalgos) by (rewrite combine_length, map_length, seq_length; lia).
    assert (En : nth_error (o_cvcmat out) j = Some (tn (column false y_bin j) (r_ysub r), fp (column false y_bin j) (r_ysub r), fn (column false y_bin j) (r_ysub r), tp (column false y_bin j) (r_ysub r))).
    { rewrite Ec, nth_error_map, (nth_error_nth' _ ([], r)) by lia.
      rewrite combine_nth by (rewrite map_length, seq_length; auto). rewrite nth_seq_map by auto. rewrite (nth_error_nth _ _ r Ej). reflexivity. }
    exists (tn (column false y_bin j) (r_ysub r)), (fp (column false y_bin j) (r_ysub r)), (fn (column false y_bin j) (r_ysub r)), (tp (column false y_bin j) (r_ysub r)).
    split; auto. unfold tn, fp, fn, tp. rewrite !count_good by auto. set (n := length y_bin) in *.
    split; [apply how_many_ext; intros i Hi; rewrite (P i Hi); auto|]. split; [apply how_many_ext; intros i Hi; rewrite (P i Hi); auto|].
    split; [apply how_many_ext; intros i Hi; rewrite (P i Hi); auto|]. split; [apply how_many_ext; intros i Hi; rewrite (P i Hi); auto|].
    rewrite <- (how_many_all n) at 5.
    rewrite (how_many_split n (fun _ => true) (fun i => flag y_bin i j)). cbn [andb].
    rewrite (how_many_split n (fun i => flag y_bin i j) (fun i => nth i (r_ysub r) false)).
    rewrite (how_many_split n (fun i => negb (flag y_bin i j)) (fun i => nth i (r_ysub r) false)). lia.
  Qed.

  (* ========================================================== C79 *)
  (** In the summary the column headed CV_model_accuracy lists the precisions and the column
      headed CV_model_precision the accuracies (in percent, rounded). *)
  Theorem C79_summary_swaps_accuracy_and_precision :
    forall out, run = Ok out -> forall j, j < nalgos ->
      nth j (s_cv_model_accuracy (o_summary out)) None = round3 (Some (100 * nth j (o_precision out) 0)%Q) /\
      nth j (s_cv_model_precision (o_summary out)) None = round3 (Some (100 * nth j (o_accuracy out) 0)%Q) /\
      nth j (s_cv_model_recall (o_summary out)) None = round3 (Some (100 * nth j (o_recall out) 0)%Q) /\
      nth_error (s_algorithms (o_summary out)) j = nth_error algo_labels j.
  Proof.
    intros out H j Hj. destruct (run_shapes H) as (N & Lp & La & Lr & _).
    destruct (@pythia_inv _ _ _ _ _ _ _ _ _ _ _ H) as (_ & NL & w & rs & _ & _ & L & _ & G). cbv zeta in G.
    destruct G as (_ & _ & _ & _ & _ & _ & _ & _ & _ & _ & _ & _ & G). unfold generate_summary in G.
    simpl Nat.ltb in G. cbv iota in G. rewrite NL, Nat.eqb_refl in G. injection G as Gs _. rewrite <- Gs. cbn [s_cv_model_accuracy s_cv_model_precision s_cv_model_recall s_algorithms].
    assert (P : forall (l : list Q) t, length l = nalgos -> nth j (map (fun v => round3 (percent v)) (map Some l ++ t)) None = round3 (Some (100 * nth j l 0)%Q)).
    { intros l t Ll. rewrite (nth_map_in (fun v => round3 (percent v)) (map Some l ++ t) None) by (rewrite app_length, map_length; unfold num in *; lia).
      rewrite app_nth1 by (rewrite map_length; lia). rewrite nth_map_some by lia. reflexivity. }
    rewrite !P by auto. repeat (split; [reflexivity|]). apply nth_error_app1. lia.
  Qed.

  (* ========================================================== C81 *)
  (** The performance array given to the stage is overwritten: of instance i only the value of
      algorithm selection0 - 1 survives, everything else becomes NaN. *)
  Theorem C81_performance_is_overwritten :
    forall out, run = Ok out -> length y = length y_bin -> (forall r, In r y -> length r = nalgos) ->
      forall i j, i < length y_bin -> j < nalgos ->
        cell (o_y out) i j = if Nat.eqb (nth i (o_selection0 out) 0) (j + 1) then cell y i j else None.
  Proof.
    intros out H Ly Lr i j Hi Hj. destruct (run_shapes H) as (N & _ & _ & _ & _ & _ & L0 & _).
    destruct (@pythia_inv _ _ _ _ _ _ _ _ _ _ _ H) as (_ & NL & w & rs & _ & _ & L & _ & G). cbv zeta in G.
    destruct G as (_ & _ & _ & _ & _ & _ & _ & _ & _ & _ & _ & _ & G). unfold generate_summary in G.
    simpl Nat.ltb in G. cbv iota in G. rewrite NL, Nat.eqb_refl in G. injection G as _ Gy. rewrite <- Gy.
    unfold keep_where, sel_matrix, cell.
    rewrite (nth_combine_map _ y (map (fun s => map (fun c => Nat.eqb s (c + 1)) (seq 0 nalgos)) (o_selection0 out)) (i := i) [] []) by (rewrite ?map_length; lia).
    cbn [fst snd]. rewrite (nth_map_in (fun s => map (fun c => Nat.eqb s (c + 1)) (seq 0 nalgos)) (o_selection0 out) 0) by lia.
    assert (Li : length (nth i y []) = nalgos) by (apply Lr; apply nth_In; lia).
    rewrite (nth_combine_map _ (nth i y []) (map (fun c => Nat.eqb (nth i (o_selection0 out) 0) (c + 1)) (seq 0 nalgos)) (i := j) None false)
      by (rewrite ?map_length, ?seq_length; unfold num in *; lia).
    cbn [fst snd]. rewrite nth_seq_map by auto. reflexivity.
  Qed.

  Lemma overwritten_shape :
    forall out, run = Ok out -> length y = length y_bin -> (forall r, In r y -> length r = nalgos) ->
      length (o_y out) = length y /\ forall r, In r (o_y out) -> length r = nalgos.
  Proof.
    intros out H Ly Lr. destruct (run_shapes H) as (N & _ & _ & _ & _ & _ & L0 & _).
    destruct (@pythia_inv _ _ _ _ _ _ _ _ _ _ _ H) as (_ & NL & w & rs & _ & _ & L & _ & G). cbv zeta in G.
    destruct G as (_ & _ & _ & _ & _ & _ & _ & _ & _ & _ & _ & _ & G). unfold generate_summary in G.
    simpl Nat.ltb in G. cbv iota in G. rewrite NL, Nat.eqb_refl in G. injection G as _ Gy. rewrite <- Gy.
    unfold keep_where, sel_matrix. split; [rewrite map_length, combine_length, map_length; lia|].
    intros r Hr. apply in_map_iff in Hr. destruct Hr as ([r1 r2] & <- & Hr). pose proof (in_combine_l _ _ _ _ Hr) as H1.
    apply in_combine_r in Hr. apply in_map_iff in Hr. destruct Hr as (s & <- & _). cbn [fst snd].
    rewrite map_length, combine_length, map_length, seq_length. unfold num in *. rewrite (Lr _ H1). lia.
  Qed.

  (* ========================================================== C80 *)
  Lemma present_app l m : present (l ++ m) = present l ++ present m.
  Proof. unfold present. apply flat_map_app. Qed.
  Lemma nanmean_present l m : present l = present m -> nanmean l = nanmean m.
  Proof. unfold nanmean. intros ->. auto. Qed.
  Lemma present_single (row : list num) s : 
    present (map (fun vb : num * bool => if snd vb then fst vb else None) (combine row (map (fun c => Nat.eqb s (c + 1)) (seq 0 (length row))))) =
    present [match s with O => None | S k => nth k row None end].
  Proof.
    assert (G : forall b (row : list num) s, b <= s -> present (map (fun vb : num * bool => if snd vb then fst vb else None) (combine row (map (fun c => Nat.eqb s (c + 1)) (seq b (length row))))) =
       present [match s - b with O => None | S k => nth k row None end]).
    { clear. intros b row. revert b. induction row as [|v row IH]; intros b s Hb.
      - simpl. destruct (s - b) as [|[|k]]; auto.
      - cbn [length seq map combine fst snd]. change (present ?h) with (present ([match Nat.eqb s (b + 1) with true => v | false => None end] ++ tl h)) || idtac.
        destruct (Nat.eqb_spec s (b + 1)) as [E|E].
        + subst s. replace (b + 1 - b) with 1 by lia. cbn [nth].
          assert (Z : present (map (fun vb : num * bool => if snd vb then fst vb else None) (combine row (map (fun c => Nat.eqb (b + 1) (c + 1)) (seq (S b) (length row))))) = []).
          { rewrite IH by lia. replace (b + 1 - S b) with 0 by lia. auto. }
          destruct v as [q|]; simpl; [f_equal|]; exact Z.
        + destruct (Nat.eq_dec s b) as [->|Nb].
          * replace (b - b) with 0 by lia. simpl.
            assert (Z : forall l, (forall c, In c l -> b <= c) -> present (map (fun vb : num * bool => if snd vb then fst vb else None) (combine row (map (fun c => Nat.eqb b (c + 1)) l))) = []).
            { clear. induction row as [|v row IH]; intros l H; destruct l as [|c l]; auto. simpl.
              destruct (Nat.eqb_spec b (c + 1)) as [E|E]; [specialize (H c (or_introl eq_refl)); lia|]. simpl. apply IH. intros; apply H; right; auto. }
            apply Z. intros c Hc. apply in_seq in Hc. lia.
          * assert (E2 : s - b = S (s - S b)) by lia. rewrite E2. simpl. specialize (IH (S b) s ltac:(lia)).
            etransitivity; [exact IH|]. destruct (s - S b) as [|k] eqn:E3; [lia|]. reflexivity. }
    rewrite G by lia. rewrite Nat.sub_0_r. auto.
  Qed.
  (** The performance the summary reports for the selector averages, over the instances whose
      selection1 is not the first algorithm, the performance of the algorithm listed before the
      selected one. *)
  Theorem C80_selector_row_is_off_by_one :
    forall out, run = Ok out -> length y = length y_bin -> (forall r, In r y -> length r = nalgos) ->
      let reported := round3 (nanmean (map (fun i => match nth i (o_selection1 out) 0 with
                                                     | O => None
                                                     | S k => cell y i k
                                                     end) (seq 0 (length y_bin)))) in
      nth (nalgos + 1) (s_avg_perf_all (o_summary out)) None = reported /\
      nth (nalgos + 1) (s_avg_perf_selected (o_summary out)) None = reported.
  Proof.
    intros out H Ly Lr. cbv zeta. destruct (run_shapes H) as (N & _ & _ & _ & _ & _ & _ & L1 & _).
    destruct (@pythia_inv _ _ _ _ _ _ _ _ _ _ _ H) as (_ & NL & w & rs & _ & _ & L & _ & G). cbv zeta in G.
    destruct G as (_ & _ & _ & _ & _ & _ & _ & _ & _ & _ & _ & _ & G). unfold generate_summary in G.
    simpl Nat.ltb in G. cbv iota in G. rewrite NL, Nat.eqb_refl in G. injection G as Gs _. rewrite <- Gs. cbn [s_avg_perf_all s_avg_perf_selected].
    assert (E : nanmean (concat (keep_where (sel_matrix (o_selection1 out) nalgos) y)) =
      nanmean (map (fun i => match nth i (o_selection1 out) 0 with O => None | S k => cell y i k end) (seq 0 (length y_bin)))).
    { apply nanmean_present. rewrite <- Ly in *. revert L1 Lr. generalize (o_selection1 out). clear. intros sel L1 Lr.
      assert (M : map (fun i => match nth i sel 0 with O => None | S k => cell y i k end) (seq 0 (length y)) =
                  map (fun rs => match snd rs with O => None | S k => nth k (fst rs) None end) (combine y sel)).
      { apply (@list_eq_nth _ None); [rewrite !map_length, combine_length, seq_length; lia|]. rewrite map_length, seq_length. intros i Hi.
        rewrite nth_seq_map by auto. rewrite (nth_combine_map _ y sel (i := i) [] 0) by lia. reflexivity. }
      rewrite M. clear M. unfold keep_where, sel_matrix. revert sel L1. induction y as [|row l IH]; intros [|s sel] L1; try discriminate L1; auto.
      cbn [map combine concat fst snd]. rewrite present_app, IH by (try (intros; apply Lr; right; auto); simpl in L1; lia).
      assert (Lrow : nalgos = length row) by (symmetry; apply Lr; left; auto). rewrite Lrow, present_single. 
      rewrite <- present_app. reflexivity. }
    rewrite E. split.
    - rewrite (nth_map_in round3 _ None) by (rewrite app_length, map_length, seq_length; simpl; lia).
      rewrite app_nth2 by (rewrite map_length, seq_length; lia). rewrite map_length, seq_length. replace (nalgos + 1 - nalgos) with 1 by lia. reflexivity.
    - rewrite (nth_map_in round3 _ None) by (rewrite app_length, map_length, seq_length; simpl; lia).
      rewrite app_nth2 by (rewrite map_length, seq_length; lia). rewrite map_length, seq_length. replace (nalgos + 1 - nalgos) with 1 by lia. reflexivity.
  Qed.

  (* ========================================================== C82 *)
  (** The stage completes only with at least two algorithms and as many labels, and only if for
      each algorithm both "good" and "not good" occur among the true labels and the
      cross-validated predictions. *)
  Theorem C82_needs_two_algorithms :
    forall out, run = Ok out -> 2 <= nalgos /\ length algo_labels = nalgos /\
      (fit_shape fit -> forall j b, j < nalgos ->
         exists i, i < length y_bin /\ (flag y_bin i j = b \/ flag (o_y_sub out) i j = b)).
  Proof.
    intros out H.
    destruct (@pythia_inv _ _ _ _ _ _ _ _ _ _ _ H) as (N & NL & w & rs & _ & _ & L & Fr & _ & Ey & _). cbv zeta in *.
    split; [lia|]. split; auto. intros FS j b Hj.
    destruct (nth_error rs j) as [r|] eqn:Ej; [|apply nth_error_None in Ej; lia].
    destruct (Fr j r Ej) as (_ & Fj & T). destruct (FS _ _ _ _ _ Fj) as [_ Ls].
    assert (Lc : length (column false y_bin j) = length y_bin) by (unfold column; apply map_length). rewrite Lc in Ls.
    assert (I : In b (column false y_bin j ++ r_ysub r)).
    { unfold two_labels in T. apply andb_true_iff in T. destruct T as [T1 T2]. apply existsb_exists in T1. apply existsb_exists in T2.
      destruct T1 as (b1 & I1 & E1), T2 as (b2 & I2 & E2). destruct b; [rewrite E1 in I1; auto|]. destruct b2; [discriminate|auto]. }
    apply in_app_iff in I. destruct I as [I|I]; apply (In_nth _ _ false) in I; destruct I as (i & Hi & E).
    - rewrite Lc in Hi. exists i. split; auto. left. rewrite <- column_flag. auto.
    - rewrite Ls in Hi. exists i. split; auto. right. rewrite Ey, flag_columns by (rewrite ?map_length; lia).
      rewrite (nth_map_in r_ysub rs r) by lia. rewrite (nth_error_nth _ _ r Ej). auto.
  Qed.

  (** Exactly when it completes: besides the above, the weights exist if they are asked for and every search returns. *)
  Theorem C82_when_it_completes :
    (exists out, run = Ok out) <->
    2 <= nalgos /\ length algo_labels = nalgos /\
    exists w, (if use_weights then weights y = Ok w else w = repeat (repeat (Some 1%Q) nalgos) (length y_bin)) /\
      forall j, j < nalgos -> exists r, fit j (param_space par nalgos j) (column false y_bin j) (column None w j) = Ok r /\
        forall b, In b (column false y_bin j) \/ In b (r_ysub r).
  Proof.
    assert (Tw : forall l, two_labels l = true <-> forall b : bool, In b l).
    { intro l. unfold two_labels. rewrite andb_true_iff, !existsb_exists. split.
      - intros [(b1 & I1 & E1) (b2 & I2 & E2)] [|]; [subst; auto|]. destruct b2; [discriminate|auto].
      - intro I. split; [exists true|exists false]; auto. }
    split.
    - intros [out H]. destruct (@pythia_inv _ _ _ _ _ _ _ _ _ _ _ H) as (N & NL & w & rs & Ew & _ & L & Fr & _). cbv zeta in *.
      split; [lia|]. split; auto. exists w. split.
      + destruct use_weights; auto. injection Ew as <-. reflexivity.
      + intros j Hj. destruct (nth_error rs j) as [r|] eqn:Ej; [|apply nth_error_None in Ej; lia].
        destruct (Fr j r Ej) as (_ & Fj & T). exists r. split; auto. intro b. apply in_app_iff. apply Tw. exact T.
    - intros (N & NL & w & Ew & F). unfold run, pythia.
      replace (if use_weights then weights y else Ok (unit_weights (length y_bin) nalgos)) with (@Ok pyerr _ w)
        by (destruct use_weights; [auto|rewrite Ew; reflexivity]).
      assert (S : forall l, (forall j, In j l -> j < nalgos) -> exists rs, sequence (map (train_one fit y_bin w par algo_labels nalgos) l) = Ok rs).
      { induction l as [|j l IH]; intro B; [cbn; eauto|]. destruct IH as [rs E]; [intros; apply B; right; auto|].
        destruct (F j (B j (or_introl eq_refl))) as (r & Fj & I). cbn [map sequence]. unfold train_one at 1. rewrite Fj.
        replace (two_labels (column false y_bin j ++ r_ysub r)) with true by (symmetry; apply Tw; intro; apply in_app_iff; auto).
        replace (Nat.ltb j (length algo_labels)) with true by (symmetry; apply Nat.ltb_lt; rewrite NL; apply B; left; auto). rewrite E. eauto. }
      destruct (S (seq 0 nalgos)) as [rs E]; [intros j Hj; apply in_seq in Hj; lia|]. rewrite E. cbv zeta.
      unfold generate_summary, sel_ndim. destruct nalgos as [|m]; [lia|]. destruct (Nat.ltb_spec 1 (Datatypes.S m)); [|lia]. cbn [Nat.add Nat.ltb Nat.leb].
      rewrite NL, Nat.eqb_refl. eauto.
  Qed.

  (* ========================================================== C77 *)
  (** Weights, without cost-sensitive classification: one. *)
  Theorem C77_unit_weights :
    forall out, run = Ok out -> use_weights = false -> forall i j, i < length y_bin -> j < nalgos ->
      cell (o_w out) i j = Some 1%Q.
  Proof.
    intros out H U i j Hi Hj. unfold run in H.
    destruct (@pythia_inv _ _ _ _ _ _ _ _ _ _ _ H) as (_ & _ & w & rs & Ew & -> & _). rewrite U in Ew. injection Ew as Ew. rewrite <- Ew.
    unfold cell, unit_weights. rewrite nth_repeat_in; [|auto]. apply nth_repeat_in; auto.
  Qed.
End Run.

(** With cost-sensitive classification: every weight is present and positive.  It is the distance
    of the performance from the mean of all performances if that is not zero.  A performance equal
    to the mean gets the smallest other distance, but the largest if any performance is missing; a
    missing performance gets the largest distance. *)
Theorem C77_weights_are_deviations :
  forall y w, weights y = Ok w ->
    length w = length y /\
    forall i j, i < length y -> j < length (nth i y []) -> exists q, cell w i j = Some q /\ (0 < q)%Q /\
      (forall p d, cell y i j = Some p -> deviation y p d -> ~ (d == 0)%Q -> (q == d)%Q) /\
      (forall p d, cell y i j = Some p -> deviation y p d -> (d == 0)%Q ->
         (~ is_missing y -> smallest_deviation y q) /\ (is_missing y -> largest_deviation y q)) /\
      (cell y i j = None -> largest_deviation y q).
Proof.
  intros y w H. destruct (nanmean (concat y)) as [m|] eqn:Em; [|rewrite (weights_none y Em) in H; discriminate].
  destruct (@weights_value y m Em w H) as (k & -> & K). split; [apply map_length|]. intros i j Hi Hj.
  assert (Ic : In (cell y i j) (concat y)).
  { apply in_concat. exists (nth i y []). split; [apply nth_In; auto|apply nth_In; auto]. }
  destruct (K _ Ic) as (q & Eq & R). exists q. split; auto. rewrite <- Eq. unfold cell.
  rewrite (nth_map_in (map k) y []) by auto. apply (nth_map_in k (nth i y []) None); auto.
Qed.
(** The weights cannot be computed (the stage fails) exactly when all performances present are
    equal. *)
Theorem C77_constant_performance_fails :
  forall y, (exists e, weights y = Err e) <->
    forall u v, In (Some u) (concat y) -> In (Some v) (concat y) -> (u == v)%Q.
Proof.
  intro y. destruct (nanmean (concat y)) as [m|] eqn:Em; [apply (weights_err_iff y Em)|].
  split; [|intros _; rewrite (weights_none y Em); eauto]. intros _ u v Hu. 
  apply (proj1 (nanmean_none _) Em) in Hu. discriminate.
Qed.
Example C77_met :
  exists w, weights [[Some 1; Some 2]; [Some 3; None]]%Q = Ok w /\ map (map (fun v : num => option_map Qred v)) w = [[Some 1; Some 1]; [Some 1; Some 1]]%Q.
Proof. eexists. split; [vm_compute; reflexivity|reflexivity]. Qed.
Example C77_met_present :
  exists w, weights [[Some 1; Some 3]; [Some 8; Some 0]]%Q = Ok w /\ map (map (fun v : num => option_map Qred v)) w = [[Some 2; Some 2]; [Some 5; Some 3]]%Q.
Proof. eexists. split; [vm_compute; reflexivity|reflexivity]. Qed.

(* ============================================================ C83 *)
(** Given hyper-parameters are used, pair i for algorithm i, exactly when their array has one row
    of two per algorithm; otherwise they are ignored and generated. *)
Theorem C83_given_parameters :
  forall par nalgos i,
    (forall a, par = Some a -> pa_shape a = [nalgos; 2] ->
       param_space par nalgos i = Precalculated (nth 0 (pa_row a i) 0%Q) (nth 1 (pa_row a i) 0%Q)) /\
    ((par = None \/ exists a, par = Some a /\ pa_shape a <> [nalgos; 2]) -> param_space par nalgos i = Generated i).
Proof.
  intros par nalgos i. unfold param_space, check_precalcparams. split.
  - intros a -> E. rewrite E, !Nat.eqb_refl. reflexivity.
  - intros [->|(a & -> & N)]; auto. destruct (pa_shape a) as [|r [|c [|e l]]]; auto.
    destruct (Nat.eqb_spec r nalgos) as [->|]; auto. destruct (Nat.eqb_spec c 2) as [->|]; auto. congruence.
Qed.

(* ============================================================ a run *)
(** Four instances, two algorithms. *)
Definition ex_fit (i : nat) (h : hyper) (t : list bool) (w : list num) : res pyerr svm_res :=
  if Nat.eqb (length t) 4 then
    Ok {| r_ysub := if Nat.eqb i 0 then [true; false; false; false] else [false; true; true; true];
          r_psub := []; r_yhat := if Nat.eqb i 0 then [true; true; true; false] else [false; false; true; false];
          r_phat := []; r_c := Some 1%Q; r_g := Some 2%Q |}
  else Err EFit.
Definition ex_y : list (list num) := [[Some 1; Some 5]; [Some 2; Some 6]; [Some 7; Some 3]; [Some 8; Some 4]]%Q.
Definition ex_bin : list (list bool) := [[true; false]; [true; false]; [false; true]; [false; true]].
Definition ex_run := run ex_fit (fun v => v) (fun v => v) ex_y ex_bin [Some 1; Some 2; Some 3; Some 4]%Q ["a"; "b"]%string 2 false None.
Example ex_fit_shape : fit_shape ex_fit.
Proof.
  intros i h t w r. unfold ex_fit. destruct (Nat.eqb_spec (length t) 4) as [->|]; [|discriminate]. intro H. injection H as <-.
  cbn [r_yhat r_ysub]. destruct (Nat.eqb i 0); auto.
Qed.
Example run_met : exists out, ex_run = Ok out /\ o_selection0 out = [0; 0; 1; 0] /\ o_selection1 out = [0; 0; 1; 0] /\
  o_cvcmat out = [(2, 0, 1, 1); (1, 1, 0, 2)] /\ o_y out = [[None; None]; [None; None]; [Some 7%Q; None]; [None; None]].
Proof. eexists. split; [vm_compute; reflexivity|]. auto. Qed.
(** the same with an algorithm that is good everywhere and predicted so, and with one algorithm *)
Example C82_met :
  run (fun i h t w => Ok {| r_ysub := t; r_psub := []; r_yhat := t; r_phat := []; r_c := None; r_g := None |}) (fun v => v) (fun v => v) ex_y
    [[true; false]; [true; false]; [true; true]; [true; true]] [Some 1; Some 2; Some 3; Some 4]%Q ["a"; "b"]%string 2 false None = Err EUnpack /\
  run (fun i h t w => Ok {| r_ysub := t; r_psub := []; r_yhat := t; r_phat := []; r_c := None; r_g := None |}) (fun v => v) (fun v => v) [[Some 1]; [Some 2]]%Q
    [[true]; [false]] [Some 1; Some 2]%Q ["a"]%string 1 false None = Err EIndex.
Proof. split; vm_compute; reflexivity. Qed.
Lemma ex_out : exists out, ex_run = Ok out /\ length ex_bin = 4 /\ o_precision out = [2 # 3; 1 # 1]%Q /\ o_accuracy out = [3 # 4; 3 # 4]%Q.
Proof. eexists. split; [vm_compute; reflexivity|]. auto. Qed.

(** selection0 does not tell the first algorithm from "none": it is 0 both for an instance with
    the first algorithm selected and for one without a candidate. *)
Theorem C48_zero_means_none_refuted :
  exists fit round3 root y y_bin y_best labels nalgos out i i',
    fit_shape fit /\ run fit round3 root y y_bin y_best labels nalgos false None = Ok out /\
    i < length y_bin /\ i' < length y_bin /\
    nth i (o_selection0 out) 0 = 0 /\ best_candidate out nalgos i 0 /\
    nth i' (o_selection0 out) 0 = 0 /\ ~ exists j, candidate out nalgos i' j.
Proof.
  destruct (run_met) as (out & R & S & _). exists ex_fit, (fun v => v), (fun v => v), ex_y, ex_bin, [Some 1; Some 2; Some 3; Some 4]%Q, ["a"; "b"]%string, 2, out, 0, 3.
  assert (L : length ex_bin = 4) by reflexivity.
  split; [apply ex_fit_shape|]. split; [exact R|]. split; [rewrite L; lia|]. split; [rewrite L; lia|].
  assert (Yh : o_y_hat out = [[true; false]; [true; false]; [true; true]; [false; false]]) by (vm_compute in R; injection R as <-; reflexivity).
  assert (Pr : (0 < nth 0 (o_precision out) 0)%Q) by (vm_compute in R; injection R as <-; reflexivity).
  split; [rewrite S; reflexivity|]. split.
  - destruct (@C48_selection_is_the_best_candidate _ _ _ _ _ _ _ _ _ _ out R 0 ltac:(rewrite L; lia)) as [A _].
    rewrite S in A. apply A. exists 0. unfold candidate. split; [lia|]. split; [rewrite Yh; reflexivity|auto].
  - split; [rewrite S; reflexivity|]. intros (j & Hj & F & _). rewrite Yh in F. destruct j as [|[|j]]; [discriminate|discriminate|lia].
Qed.
(** The recorded accuracy is not the cross-validated one: it can differ from the accuracy of the
    confusion matrix of the same algorithm. *)
Theorem C78_accuracy_is_cross_validated_refuted :
  exists fit round3 root y y_bin y_best labels nalgos out a b c d,
    fit_shape fit /\ run fit round3 root y y_bin y_best labels nalgos false None = Ok out /\
    nth_error (o_cvcmat out) 1 = Some (a, b, c, d) /\
    ~ share (nth 1 (o_accuracy out) 0%Q) (a + d) (a + b + c + d).
Proof.
  exists ex_fit, (fun v => v), (fun v => v), ex_y, [[true; false]; [true; false]; [false; true]; [false; false]], [Some 1; Some 2; Some 3; Some 4]%Q, ["a"; "b"]%string, 2.
  eexists. exists 1, 2, 0, 1. split; [apply ex_fit_shape|]. split; [vm_compute; reflexivity|]. split; [reflexivity|].
  intros [S _]. vm_compute in S. discriminate.
Qed.
(** The columns of the summary do not list what their names say. *)
Theorem C79_summary_lists_accuracy_refuted :
  exists fit y y_bin y_best labels nalgos out j,
    fit_shape fit /\ run fit (fun v => v) (fun v => v) y y_bin y_best labels nalgos false None = Ok out /\ j < nalgos /\
    nth j (s_cv_model_accuracy (o_summary out)) None <> Some (100 * nth j (o_accuracy out) 0)%Q /\
    nth j (s_cv_model_precision (o_summary out)) None <> Some (100 * nth j (o_precision out) 0)%Q.
Proof.
  exists ex_fit, ex_y, ex_bin, [Some 1; Some 2; Some 3; Some 4]%Q, ["a"; "b"]%string, 2. eexists. exists 0.
  split; [apply ex_fit_shape|]. split; [vm_compute; reflexivity|]. split; [lia|]. split; vm_compute; discriminate.
Qed.
(** The selector's reported average (7) is not the average performance of the selected
    algorithms (7/2). *)
Theorem C80_selector_average_refuted :
  exists fit y y_bin y_best labels nalgos out v u,
    fit_shape fit /\ run fit (fun v => v) (fun v => v) y y_bin y_best labels nalgos false None = Ok out /\
    nth (nalgos + 1) (s_avg_perf_all (o_summary out)) None = Some v /\
    nanmean (map (fun i => cell y i (nth i (o_selection1 out) 0)) (seq 0 (length y_bin))) = Some u /\
    ~ (v == u)%Q.
Proof.
  exists ex_fit, ex_y, ex_bin, [Some 1; Some 2; Some 3; Some 4]%Q, ["a"; "b"]%string, 2. eexists. eexists. eexists.
  split; [apply ex_fit_shape|]. split; [vm_compute; reflexivity|]. split; [reflexivity|]. split; [vm_compute; reflexivity|].
  intro X. vm_compute in X. discriminate.
Qed.

Print Assumptions C48_selection_is_the_best_candidate.
Print Assumptions C48_right_prediction_is_followed.
Print Assumptions C48_zero_means_none_refuted.
Print Assumptions C49_fallback_selection.
Print Assumptions C77_unit_weights.
Print Assumptions C77_weights_are_deviations.
Print Assumptions C77_constant_performance_fails.
Print Assumptions C78_scores_of_the_final_models.
Print Assumptions C78_confusion_matrix_is_cross_validated.
Print Assumptions C78_accuracy_is_cross_validated_refuted.
Print Assumptions C79_summary_swaps_accuracy_and_precision.
Print Assumptions C79_summary_lists_accuracy_refuted.
Print Assumptions C80_selector_row_is_off_by_one.
Print Assumptions C80_selector_average_refuted.
Print Assumptions C81_performance_is_overwritten.
Print Assumptions C82_needs_two_algorithms.
Print Assumptions C82_when_it_completes.
Print Assumptions C83_given_parameters.
