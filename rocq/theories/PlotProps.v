(** Properties C99-C101: the plots. *)
From Coq Require Import Lqa.
From Verif Require Import BaseLemmas Mat PreprocSpec CloisterModel PilotProofs CloisterProofs SerialModel SerialSpec SerialProofs
  SerialProps WebSpec WebProofs.
From Verif Require PythiaModel PythiaProps PipelineProps.
Set Implicit Arguments.
Open Scope nat_scope.
Open Scope list_scope.

(* ========================================================== C99 *)
(** the label under which a group is drawn when its value is the number of the algorithm,
    counted from 1 *)
Definition shown_label (labels : list string) (i : nat) : string :=
  match i with 0 => "None"%string | S k => spaces (nth k labels ""%string) end.
(** Each group holds the instances of one value below the number of algorithms. *)
Theorem C99_groups :
  forall p labels i leg l, In (i, (leg, l)) (drawn_groups p labels) <->
    i < length labels /\ leg = shown_label labels i /\ l = filter (fun k => Nat.eqb (nth k p 0) i) (seq 0 (length p)) /\
    exists k, k < length p /\ nth k p 0 = i.
Proof.
  intros p labels i leg l. unfold drawn_groups. rewrite in_flat_map. split.
  - intros (i' & Hi & H). apply in_seq in Hi. unfold instances_with in H.
    destruct (filter _ _) as [|k l'] eqn:E; [destruct H|]. destruct H as [H|[]]. injection H as <- <- <-.
    split; [lia|]. split; auto. rewrite <- E. split; auto. exists k.
    assert (K : In k (filter (fun k => Nat.eqb (nth k p 0) i') (seq 0 (length p)))) by (rewrite E; left; auto).
    apply filter_In in K. destruct K as [K1 K2]. apply in_seq in K1. apply Nat.eqb_eq in K2. split; [lia|auto].
  - intros (Hi & -> & -> & k & Hk & Ek). exists i. split; [apply in_seq; lia|]. unfold instances_with.
    destruct (filter _ _) as [|k' l'] eqn:E.
    + assert (K : In k (filter (fun k => Nat.eqb (nth k p 0) i) (seq 0 (length p)))).
      { apply filter_In. split; [apply in_seq; lia|apply Nat.eqb_eq; auto]. }
      rewrite E in K. destruct K.
    + left. auto.
Qed.
(** Best algorithms are numbered from 1: the instances of the last algorithm are in no group, all
    others are under the name of their best algorithm. *)
Theorem C99_best_algorithm_plot :
  forall p labels k, k < length p -> 1 <= nth k p 0 <= length labels ->
    (nth k p 0 = length labels -> forall i leg l, In (i, (leg, l)) (drawn_groups p labels) -> ~ In k l) /\
    (nth k p 0 < length labels -> exists i l, In (i, (spaces (nth (nth k p 0 - 1) labels ""%string), l)) (drawn_groups p labels) /\ In k l).
Proof.
  intros p labels k Hk [H1 H2]. split.
  - intros E i leg l H I. apply C99_groups in H. destruct H as (Hi & _ & -> & _). apply filter_In in I. destruct I as [_ I].
    apply Nat.eqb_eq in I. lia.
  - intro L. exists (nth k p 0). eexists. split.
    + apply C99_groups. split; auto. split; [destruct (nth k p 0) as [|n]; [lia|simpl; rewrite Nat.sub_0_r; reflexivity]|]. eauto.
    + apply filter_In. split; [apply in_seq; lia|apply Nat.eqb_refl].
Qed.
(** Predicted algorithms are numbered from 0: every instance is drawn under the name of the algorithm
    before its own, or as None. *)
Theorem C99_predicted_algorithm_plot :
  forall p labels k, k < length p -> nth k p 0 < length labels ->
    exists i l, In (i, (shown_label labels (nth k p 0), l)) (drawn_groups p labels) /\ In k l.
Proof.
  intros p labels k Hk L. exists (nth k p 0). eexists. split.
  - apply C99_groups. split; auto. split; auto. eauto.
  - apply filter_In. split; [apply in_seq; lia|apply Nat.eqb_refl].
Qed.
(** In the footprint plot the group named after algorithm j comes with the footprint of
    algorithm j + 1. *)
Theorem C99_footprints_of_the_next_algorithm :
  forall p labels best leg l s, In (leg, l, s) (drawn_footprints p labels best) <->
    exists i, In (i, (leg, l)) (drawn_groups p labels) /\ s = nth_error best i.
Proof.
  intros p labels best leg l s. unfold drawn_footprints. rewrite in_map_iff. split.
  - intros ([i [g k]] & E & I). injection E as <- <- <-. eauto.
  - intros (i & I & ->). exists (i, (leg, l)). auto.
Qed.
(** So a plot of predictions names the wrong algorithm, and an instance is left out of the plot of
    best algorithms. *)
Theorem C99_plots_name_the_algorithm_refuted :
  (exists p labels k i leg l, k < length p /\ In (i, (leg, l)) (drawn_groups p labels) /\ In k l /\ leg <> spaces (nth (nth k p 0) labels ""%string)) /\
  (exists p labels k, k < length p /\ 1 <= nth k p 0 <= length labels /\ forall i leg l, In (i, (leg, l)) (drawn_groups p labels) -> ~ In k l) /\
  (exists p labels best i leg l, In (leg, l, nth_error best i) (drawn_footprints p labels best) /\ leg <> spaces (nth i labels ""%string)).
Proof.
  split; [|split].
  - exists [0; 1], ["A"; "B"]%string, 1, 1, "A"%string, [1]. split; [auto|]. split; [right; left; reflexivity|]. split; [left; auto|discriminate].
  - exists [1; 2], ["A"; "B"]%string, 1. split; [auto|]. split; [simpl; lia|]. intros i leg l H. simpl in H. destruct H as [H|[]].
    injection H as _ _ <-. simpl. lia.
  - exists [1; 1], ["A"; "B"]%string, [None; Some Collection], 1, "A"%string, [0; 1]. split; [left; reflexivity|discriminate].
Qed.
Example C99_applies : drawn_groups [1; 2; 2; 3; 0] ["a_1"; "b"; "c"]%string =
  [(0, ("None", [4])); (1, ("a 1", [0])); (2, ("b", [1; 2]))]%string.
Proof. reflexivity. Qed.

(* ========================================================== C100 *)
(** No plot overwrites another iff the labels are different and no algorithm is called portfolio. *)
Lemma nodup_app A (l l' : list A) : NoDup (l ++ l') <-> NoDup l /\ NoDup l' /\ forall x, In x l -> ~ In x l'.
Proof.
  induction l as [|a l IH]; simpl.
  - split; [intro H; split; [constructor|split; auto]|tauto].
  - split.
    + intro H. inversion H as [|? ? N D]; subst. apply IH in D. destruct D as (D1 & D2 & D3). rewrite in_app_iff in N. split; [constructor; tauto|].
      split; auto. intros x [->|I]; [tauto|auto].
    + intros (H & D2 & D3). inversion H as [|? ? N D]; subst. constructor.
      * rewrite in_app_iff. intros [I|I]; [auto|eapply D3; eauto].
      * apply IH. split; auto.
Qed.
Lemma nodup_flat_map A B (g : A -> list B) l :
  (forall a, NoDup (g a)) -> (forall a b x, In x (g a) -> In x (g b) -> a = b) -> NoDup l -> NoDup (flat_map g l).
Proof.
  intros G I. induction 1 as [|a l N D IH]; simpl; [constructor|]. apply nodup_app. split; auto. split; auto.
  intros x X Y. apply in_flat_map in Y. destruct Y as (b & Hb & Y). rewrite (I a b x X Y) in N. auto.
Qed.
Definition five (l : string) : list string :=
  [append "distribution_performance_global_normalized_" (append l ".png");
   append "distribution_performance_individual_normalized_" (append l ".png");
   append "binary_performance_" (append l ".png"); append "binary_svm_" (append l ".png"); append "footprint_" (append l ".png")]%string.
Lemma five_nodup l : NoDup (five l).
Proof. unfold five. repeat constructor; simpl; intuition discriminate. Qed.
Lemma five_inj a b x : In x (five a) -> In x (five b) -> a = b.
Proof.
  unfold five. cbn [In]. intros H K.
  repeat (destruct H as [H|H]; [subst x; repeat (destruct K as [K|K]; [try discriminate K; apply append_inj_l, append_inj_r in K; auto|]); destruct K|]).
  destruct H.
Qed.
Theorem C100_different_files :
  forall m, NoDup (graph_names m) <->
    NoDup (m_feat_labels m) /\ NoDup (m_algo_labels m) /\ ~ In "portfolio"%string (m_algo_labels m).
Proof.
  intro m. unfold graph_names. fold five.
  change (flat_map _ (m_algo_labels m)) with (flat_map five (m_algo_labels m)).
  set (last := _ ++ match m_s m with Some _ => _ | None => _ end ++ _).
  assert (Nl : NoDup last) by (unfold last; destruct (m_s m); simpl; repeat constructor; simpl; intuition discriminate).
  rewrite !nodup_app. split.
  - intros (F & (G & _ & D) & _). split.
    { apply NoDup_map_inv in F. auto. }
    split.
    + clear -G. induction (m_algo_labels m) as [|a l IH]; [constructor|]. change (flat_map five (a :: l)) with (five a ++ flat_map five l) in G. apply nodup_app in G. destruct G as (_ & G & D).
      constructor; auto. intro I. eapply D; [left; reflexivity|]. apply in_flat_map. exists a. split; auto. left. auto.
    + intro I. apply (D "footprint_portfolio.png"%string).
      * apply in_flat_map. exists "portfolio"%string. split; auto. simpl. auto 10.
      * unfold last. destruct (m_s m); simpl; auto 10.
  - intros (F & G & P). split; [|split; [split; [|split; auto]|]].
    + clear -F. induction F as [|a l N D IH]; [constructor|]. cbn [map]. constructor; auto. intro I. apply in_map_iff in I.
      destruct I as (b & E & I). apply append_inj_l, append_inj_r in E. subst b. auto.
    + apply nodup_flat_map; auto; [apply five_nodup|apply five_inj].
    + intros x X Y. apply in_flat_map in X. destruct X as (a & Ia & X).
      assert (Y' : In x ["distribution_number_good_algos.png"; "distribution_portfolio.png"; "distribution_svm_portfolio.png";
                         "distribution_beta_score.png"; "distribution_sources.png"; "footprint_portfolio.png"]%string)
        by (unfold last in Y; destruct (m_s m); simpl in *; tauto).
      unfold five in X. cbn [In] in X, Y'.
      repeat (destruct X as [X|X]; [subst x; repeat (destruct Y' as [Y'|Y']; [try discriminate Y'|]); try contradiction|]); [|destruct X].
      apply P. change "footprint_portfolio.png"%string with (append "footprint_" (append "portfolio" ".png")) in Y'.
      apply append_inj_l, append_inj_r in Y'. rewrite Y'. auto.
    + intros x X Y. apply in_map_iff in X. destruct X as (a & <- & _). apply in_app_iff in Y. destruct Y as [Y|Y].
      * apply in_flat_map in Y. destruct Y as (b & _ & Y). unfold five in Y. cbn [In] in Y.
        repeat (destruct Y as [Y|Y]; [discriminate Y|]). destruct Y.
      * assert (Y' : In (append "distribution_feature_" (append a ".png")) ["distribution_number_good_algos.png"; "distribution_portfolio.png"; "distribution_svm_portfolio.png";
                         "distribution_beta_score.png"; "distribution_sources.png"; "footprint_portfolio.png"]%string)
          by (unfold last in Y; destruct (m_s m); simpl in *; tauto).
        cbn [In] in Y'. repeat (destruct Y' as [Y'|Y']; [discriminate Y'|]). destruct Y'.
Qed.
Example C100_applies : NoDup (graph_names (ex_model ["A"; "B"]%string [0; 1])) /\ ~ NoDup (graph_names (ex_model ["A"; "portfolio"]%string [0; 1])).
Proof.
  rewrite !C100_different_files. split.
  - split; [|split]; simpl; [repeat constructor; simpl; intuition discriminate|repeat constructor; simpl; intuition discriminate|intuition discriminate].
  - intros (_ & _ & N). apply N. simpl. auto.
Qed.

(* ========================================================== C101 *)
Lemma scaled_value c lo hi v : ~ In None c -> bounds c lo hi -> (lo < hi)%Q -> In (Some v) c ->
  exists lo' hi', col_min c = Some lo' /\ col_max c = Some hi' /\ (lo' == lo)%Q /\ (hi' == hi)%Q.
Proof.
  intros F B L I. destruct (@col_bounds c) as (lo' & hi' & El & Eh & B'); auto.
  { intro X. rewrite X in I. destruct I. }
  destruct (bounds_unique B B') as [A C]. exists lo', hi'. split; auto. split; auto. split; symmetry; auto.
Qed.
Lemma in_column (x : list (list num)) i j : i < length x -> In (cell x i j) (column None x j).
Proof. intro H. unfold column, cell. apply (in_map (fun r => nth j r None)). apply nth_In. auto. Qed.
Lemma column_cell (x : list (list num)) i j : nth i (column None x j) None = cell x i j \/ length x <= i.
Proof.
  destruct (Nat.lt_ge_cases i (length x)) as [H|H]; [left|auto]. unfold column, cell. apply (@nth_map_in _ _ (fun r => nth j r None) x i None []). auto.
Qed.
(** Feature values are drawn on a scale from 0 (smallest of the feature) to 1 (largest). *)
Theorem C101_features :
  forall (x : list (list num)) i j lo hi, i < length x -> ~ In None (column None x j) -> bounds (column None x j) lo hi -> (lo < hi)%Q ->
    exists v q, cell x i j = Some v /\ x_aux x i j = Some q /\ (q * (hi - lo) == v - lo)%Q /\ (0 <= q <= 1)%Q.
Proof.
  intros x i j lo hi Hi F B L. pose proof (@in_column x i j Hi) as I. destruct (column_cell x i j) as [E|]; [|lia].
  destruct (cell x i j) as [v|] eqn:Ev; [|contradiction].
  destruct (@scaled_value _ lo hi v F B L I) as (lo' & hi' & El & Eh & A & C). exists v. unfold x_aux. rewrite El, Eh, E. simpl.
  destruct (Qeq_bool (hi' - lo') 0) eqn:Z; [apply Qeq_bool_eq in Z; lra|].
  exists ((v - lo') / (hi' - lo'))%Q. split; auto. split; auto. destruct B as (_ & _ & B). destruct (B v I) as [B1 B2].
  assert (P : (0 < hi' - lo')%Q) by lra. split.
  - rewrite <- A, <- C. field. lra.
  - split; [apply (@div_le 0 _ _ P); lra|]. apply Qle_shift_div_r; lra.
Qed.
(** Performance "normalised individually" is the value minus the ratio of smallest value and range. *)
Theorem C101_individual_performance :
  forall (y : list (list num)) i j lo hi, i < length y -> ~ In None (column None y j) -> bounds (column None y j) lo hi -> (lo < hi)%Q ->
    exists v q, cell y i j = Some v /\ y_ind y i j = Some q /\ (q == v - lo / (hi - lo))%Q.
Proof.
  intros x i j lo hi Hi F B L. pose proof (@in_column x i j Hi) as I. destruct (column_cell x i j) as [E|]; [|lia].
  destruct (cell x i j) as [v|] eqn:Ev; [|contradiction].
  destruct (@scaled_value _ lo hi v F B L I) as (lo' & hi' & El & Eh & A & C). exists v. unfold y_ind. rewrite El, Eh, E. simpl.
  destruct (Qeq_bool (hi' - lo') 0) eqn:Z; [apply Qeq_bool_eq in Z; lra|].
  eexists. split; auto. split; [reflexivity|]. rewrite A, C. reflexivity.
Qed.
Theorem C101_individual_scale_is_normalised_refuted :
  exists (y : list (list num)) i j q lo hi, ~ In None (column None y j) /\ bounds (column None y j) lo hi /\ (lo < hi)%Q /\ i < length y /\
    y_ind y i j = Some q /\ ~ (0 <= q <= 1)%Q.
Proof.
  exists [[Some 10]; [Some 20]]%Q, 1, 0. eexists. exists 10%Q, 20%Q. split; [simpl; intuition discriminate|]. split.
  - split; [left; auto|]. split; [right; left; auto|]. intros q [E|[E|[]]]; injection E as <-; lra.
  - split; [lra|]. split; [auto|]. split; [reflexivity|]. intros [_ X]. vm_compute in X. apply X. reflexivity.
Qed.
Section Global.
  Variable log10p1 : num -> num.
  Hypothesis log_nan : log10p1 None = None.
  (** Performance "normalised globally" is in [0, 1] for an algorithm iff the smallest performance of all is
      one of this algorithm's. *)
  Theorem C101_global_performance :
    forall y j lo hi low, let g := map (map log10p1) y in
      ~ In None (concat g) -> (forall r, In r y -> j < length r) -> y <> [] ->
      bounds (column None g j) lo hi -> (lo < hi)%Q -> (exists top, bounds (concat g) low top) ->
      ((forall i, i < length y -> exists q, y_glb log10p1 y i j = Some q /\ (0 <= q <= 1)%Q) <-> (lo == low)%Q).
  Proof.
    intros y j lo hi low g F R N B L [top T].
    assert (Lg : length g = length y) by (unfold g; apply map_length).
    assert (Sub : forall v, In v (column None g j) -> In v (concat g)).
    { intros v I. unfold column in I. apply in_map_iff in I. destruct I as (r & <- & Ir). apply in_concat. exists r. split; auto.
      apply nth_In. unfold g in Ir. apply in_map_iff in Ir. destruct Ir as (r0 & <- & I0). rewrite map_length. auto. }
    assert (Fc : ~ In None (column None g j)) by (intro X; apply F; auto).
    assert (I0 : exists v, In (Some v) (column None g j)) by (exists lo; apply B).
    destruct I0 as [v0 I0]. destruct (@scaled_value _ lo hi v0 Fc B L I0) as (lo' & hi' & El & Eh & A & C).
    assert (Ng : concat g <> []) by (intro X; apply Sub in I0; rewrite X in I0; destruct I0).
    destruct (@col_bounds (concat g) Ng F) as (low' & top' & Ew & _ & B'). destruct (bounds_unique T B') as [W _].
    assert (Val : forall i v, i < length y -> cell g i j = Some v ->
              exists q, y_glb log10p1 y i j = Some q /\ (q * (hi - lo) == v - low)%Q).
    { intros i v Hi Ev. unfold y_glb. fold g. destruct (column_cell g i j) as [E|]; [|lia]. rewrite E, Ev, El, Eh, Ew. simpl.
      destruct (Qeq_bool (hi' - lo') 0) eqn:Z; [apply Qeq_bool_eq in Z; lra|]. eexists. split; [reflexivity|].
      rewrite <- A, <- C, W. field. lra. }
    assert (P : (0 < hi - lo)%Q) by lra.
    split.
    - intro H. destruct B as (Blo & Bhi & Bb).
      assert (low <= lo)%Q by (apply T; auto).
      unfold column in Bhi. apply in_map_iff in Bhi. destruct Bhi as (r & Er & Ir). apply (In_nth _ _ []) in Ir. destruct Ir as (i & Hi & Ei).
      destruct (H i ltac:(unfold num in *; lia)) as (q & Eq & Q0 & Q1). destruct (Val i hi ltac:(unfold num in *; lia)) as (q' & Eq' & V).
      { unfold cell. unfold num in *. rewrite Ei. auto. }
      rewrite Eq in Eq'. injection Eq' as <-.
      assert (X : (q * (hi - lo) <= 1 * (hi - lo))%Q) by (apply Qmult_le_compat_r; lra). lra.
    - intros E i Hi. pose proof (@in_column g i j ltac:(lia)) as I. destruct (cell g i j) as [v|] eqn:Ev; [|contradiction].
      destruct (Val i v Hi Ev) as (q & Eq & V). exists q. split; auto. destruct B as (_ & _ & Bb). destruct (Bb v I) as [B1 B2].
      assert (Q : (q == (v - low) / (hi - lo))%Q) by (rewrite <- V; field; lra). rewrite Q. split.
      + apply (@div_le 0 _ _ P). lra.
      + apply Qle_shift_div_r; lra.
  Qed.
  (** A single missing performance makes all values undefined. *)
  Theorem C101_missing_performance :
    forall y, (exists r, In r y /\ In None r) -> forall i j, y_glb log10p1 y i j = None.
  Proof.
    intros y (r & Ir & In0) i j. unfold y_glb. rewrite PythiaWeights.is_min_none.
    - destruct (nth i _ None); auto.
    - apply in_concat. exists (map log10p1 r). split; [apply in_map; auto|]. rewrite <- log_nan. apply in_map. auto.
  Qed.
End Global.
(** log10(v + 1) for v = 0, 9, 99, 999 *)
Definition ex_log (v : num) : num :=
  match v with
  | Some q => if Qeq_bool q 0 then Some 0%Q else if Qeq_bool q 9 then Some 1%Q else if Qeq_bool q 99 then Some 2%Q
              else if Qeq_bool q 999 then Some 3%Q else None
  | None => None
  end.
Theorem C101_global_scale_is_normalised_refuted :
  exists y i j q, ~ In None (concat y) /\ ~ In None (concat (map (map ex_log) y)) /\ y_glb ex_log y i j = Some q /\ (1 < q)%Q.
Proof.
  exists [[Some 0; Some 99]; [Some 9; Some 999]]%Q, 1, 1. eexists.
  split; [simpl; intuition discriminate|]. split; [vm_compute; intuition discriminate|]. split; [reflexivity|reflexivity].
Qed.
Example C101_applies : bounds (column None [[Some 1; Some 2]; [Some 3; Some 5]]%Q 0) 1 3 /\
  ~ In None (concat (map (map ex_log) [[Some 0; Some 99]; [Some 9; Some 999]]%Q)) /\
  bounds (concat (map (map ex_log) [[Some 0; Some 99]; [Some 9; Some 999]]%Q)) 0 3.
Proof.
  split; [|split; [vm_compute; intuition discriminate|]]; (split; [vm_compute; auto|]; split; [vm_compute; auto|]); vm_compute column; vm_compute concat;
    intros q H; simpl in H; intuition (match goal with E : Some _ = Some _ |- _ => injection E as <- end; lra).
Qed.

Print Assumptions C99_groups.
Print Assumptions C99_best_algorithm_plot.
Print Assumptions C99_predicted_algorithm_plot.
Print Assumptions C99_footprints_of_the_next_algorithm.
Print Assumptions C99_plots_name_the_algorithm_refuted.
Print Assumptions C100_different_files.
Print Assumptions C101_features.
Print Assumptions C101_individual_performance.
Print Assumptions C101_individual_scale_is_normalised_refuted.
Print Assumptions C101_global_performance.
Print Assumptions C101_missing_performance.
Print Assumptions C101_global_scale_is_normalised_refuted.
