(** C42, C43, C62-C66: the SIFTED properties. *)
From Coq Require Import Lqa Qabs.
From Verif Require Import Base BaseLemmas Num FilterModel FilterProofs PreprocModel PreprocSpec PreprocProofs
  SiftedModel SiftedSpec SiftedProofs.
Set Implicit Arguments.
Open Scope nat_scope.
Open Scope list_scope.

(* ------------------------------------------------------------------ C42 *)
(** With no empty cluster every chromosome decodes to exactly one feature of each cluster. *)
Theorem C42_one_feature_per_cluster :
  forall labels selvars k best,
    length labels = length selvars -> increasing selvars -> no_empty_cluster k labels -> length best = k ->
    exists sel, decode_selvars labels k best selvars = Ok sel /\ increasing sel /\
      (forall f, In f sel -> exists c, c < k /\ in_cluster selvars labels c f) /\
      (forall c, c < k -> exists f, In f sel /\ in_cluster selvars labels c f /\
         forall f', In f' sel -> in_cluster selvars labels c f' -> f' = f).
Proof. intros. apply decode_one_each; auto. Qed.
(** Every choice of one feature per cluster is the decoding of some chromosome. *)
Theorem C42_every_choice_reachable :
  forall labels selvars k (choice : nat -> nat),
    length labels = length selvars -> increasing selvars -> no_empty_cluster k labels ->
    (forall c, c < k -> in_cluster selvars labels c (choice c)) ->
    exists best sel, length best = k /\ decode_selvars labels k best selvars = Ok sel /\
      forall f, In f sel <-> exists c, c < k /\ f = choice c.
Proof. intros labels selvars k choice L I F H. apply decode_reachable; auto. Qed.
(** An empty cluster makes decoding fail, always with ZeroDivisionError. *)
Theorem C42_empty_cluster_fails :
  forall labels selvars k best, length best = k ->
    ((exists e, decode_selvars labels k best selvars = Err e) <-> exists c, c < k /\ ~ In c labels) /\
    forall e, decode_selvars labels k best selvars = Err e -> e = EZeroDivide.
Proof. apply decode_fails. Qed.
Example C42_met : decode_selvars [0; 1; 0; 2; 1] 3 [5; -1; 7]%Z [2; 3; 5; 7; 9] = Ok [5; 7; 9] /\
  no_empty_cluster 3 [0; 1; 0; 2; 1] /\ increasing [2; 3; 5; 7; 9].
Proof.
  split; [reflexivity|]. split; [|repeat constructor; lia].
  intros [|[|[|c]]] H; simpl; auto. lia.
Qed.

(* ------------------------------------------------------------------ C43 *)
(** Exactly which features the correlation test keeps: those ranked first for some algorithm,
    and those ranked i-th for an algorithm with which the i-th feature of the table (not the
    i-th ranked one) has signed correlation at least rho. *)
Theorem C43_what_is_selected :
  forall rho order thr nf na f,
    In f (where_true (perf_mask rho order thr nf na)) <->
    f < nf /\ ((exists j, j < na /\ nth 0 (order j) 0 = f) \/
      (exists i j, i < nf /\ j < na /\ (thr <= corr rho i j)%Q /\ nth i (order j) 0 = f)).
Proof. apply perf_selected. Qed.
(** The best-correlated feature of every algorithm is kept. *)
Theorem C43_strongest_feature_kept :
  forall rho order thr nf na j, ranks rho nf na order -> 0 < nf -> j < na ->
    exists f, In f (where_true (perf_mask rho order thr nf na)) /\
      forall f', f' < nf -> (Qabs (corr rho f' j) <= Qabs (corr rho f j))%Q.
Proof.
  intros rho order thr nf na j R Hn Hj. destruct (R j Hj) as [P S]. exists (nth 0 (order j) 0).
  assert (Lo : length (order j) = nf) by (rewrite (Permutation_length P), seq_length; auto).
  split.
  - apply perf_selected. split; [|left; eauto].
    assert (X : In (nth 0 (order j) 0) (seq 0 nf)) by (eapply Permutation_in; [exact P|]; apply nth_In; lia).
    apply in_seq in X. lia.
  - intros f' Hf'. assert (X : In f' (order j)) by (eapply Permutation_in; [symmetry; exact P|]; apply in_seq; lia).
    apply In_nth with (d := 0) in X. destruct X as ([|b] & Lb & <-); [lra|]. apply S. lia.
Qed.
(** An algorithm keeps at least as many features as have signed correlation >= rho with it:
    distinct ranks name distinct features. *)
Theorem C43_as_many_as_pass :
  forall rho order thr nf na j, ranks rho nf na order -> j < na ->
    exists kept, NoDup kept /\ (forall f, In f kept -> In f (where_true (perf_mask rho order thr nf na))) /\
      length kept = length (filter (fun i => Qle_bool thr (corr rho i j)) (seq 0 nf)).
Proof.
  intros rho order thr nf na j R Hj. destruct (R j Hj) as [P S].
  assert (Lo : length (order j) = nf) by (rewrite (Permutation_length P), seq_length; auto).
  exists (map (fun i => nth i (order j) 0) (filter (fun i => Qle_bool thr (corr rho i j)) (seq 0 nf))).
  assert (B : forall i, In i (filter (fun i => Qle_bool thr (corr rho i j)) (seq 0 nf)) -> i < nf /\ (thr <= corr rho i j)%Q).
  { intros i Hi. apply filter_In in Hi. destruct Hi as [H1 H2]. apply in_seq in H1. apply Qle_bool_iff in H2. split; [lia|auto]. }
  split; [|split; [|rewrite map_length; auto]].
  - assert (ND : NoDup (order j)) by (eapply Permutation_NoDup; [symmetry; exact P|]; apply seq_NoDup).
    assert (NF : NoDup (filter (fun i => Qle_bool thr (corr rho i j)) (seq 0 nf))) by (apply NoDup_filter, seq_NoDup).
    revert B NF. generalize (filter (fun i => Qle_bool thr (corr rho i j)) (seq 0 nf)).
    induction l as [|a l IH]; intros B NF; simpl; constructor.
    + apply NoDup_cons_iff in NF. destruct NF as [N1 N2]. intro H. apply in_map_iff in H. destruct H as (i & E & Hi).
      apply N1. assert (i = a); [|subst; auto]. apply (proj1 (NoDup_nth (order j) 0) ND i a).
      * rewrite Lo. apply B. right. auto.
      * rewrite Lo. apply B. left. auto.
      * exact E.
    + apply NoDup_cons_iff in NF. destruct NF as [N1 N2]. apply IH; auto. intros i Hi. apply B. right. auto.
  - intros f Hf. apply in_map_iff in Hf. destruct Hf as (i & <- & Hi). apply B in Hi. destruct Hi as [Hi Ht].
    apply perf_selected. split.
    + assert (X : In (nth i (order j) 0) (seq 0 nf)) by (eapply Permutation_in; [exact P|]; apply nth_In; lia).
      apply in_seq in X. lia.
    + right. exists i, j. auto.
Qed.
(** The documented rule (keep a feature iff it is best for some algorithm or its absolute
    correlation with one is at least rho) fails both ways, and for negative correlations. *)
Definition ex_rho : list (list Q) := [[1#10]; [2#10]; [6#10]; [7#10]; [9#10]].
Definition neg_rho : list (list Q) := [[-9#10]; [-8#10]; [0#1]].
Theorem C43_documented_rule_refuted :
  (exists rho order thr nf na, ranks rho nf na order /\
     (exists f j, f < nf /\ j < na /\ (thr <= corr rho f j)%Q /\ ~ In f (where_true (perf_mask rho order thr nf na))) /\
     (exists f, In f (where_true (perf_mask rho order thr nf na)) /\
        forall j, j < na -> (Qabs (corr rho f j) < thr)%Q /\
          exists f', f' < nf /\ (Qabs (corr rho f j) < Qabs (corr rho f' j))%Q)) /\
  (exists rho order thr nf na, ranks rho nf na order /\
     exists f j, f < nf /\ j < na /\ (thr <= Qabs (corr rho f j))%Q /\ (corr rho f j < 0)%Q /\
       ~ In f (where_true (perf_mask rho order thr nf na))).
Proof.
  split.
  - exists ex_rho, (fun _ => [4; 3; 2; 1; 0]), (1#2), 5, 1. split; [|split].
    + intros j Hj. split.
      * change (seq 0 5) with (rev [4; 3; 2; 1; 0]). apply Permutation_rev.
      * intros a b [H1 H2]. assert (j = 0) by lia. subst j.
        destruct b as [|[|[|[|[|b]]]]]; try lia; destruct a as [|[|[|[|a]]]]; try lia; vm_compute; discriminate.
    + exists 3, 0. split; [lia|]. split; [lia|]. split; [vm_compute; discriminate|]. vm_compute. intuition discriminate.
    + exists 0. split; [vm_compute; auto|]. intros j Hj. assert (j = 0) by lia. subst j.
      split; [vm_compute; reflexivity|]. exists 4. split; [lia|vm_compute; reflexivity].
  - exists neg_rho, (fun _ => [0; 1; 2]), (1#2), 3, 1. split.
    + intros j Hj. split; [reflexivity|]. intros a b [H1 H2]. assert (j = 0) by lia. subst j.
      destruct b as [|[|[|b]]]; try lia; destruct a as [|[|a]]; try lia; vm_compute; discriminate.
    + exists 1, 0. split; [lia|]. split; [lia|]. split; [vm_compute; discriminate|].
      split; [vm_compute; reflexivity|]. vm_compute. intuition discriminate.
Qed.

(* ------------------------------------------------------------------ C62 *)
(** The fitness of a chromosome is its largest cross-validation error over the algorithms ... *)
Theorem C62_fitness_is_the_largest_error :
  forall (error : nat -> Q) nalgos, nalgos <> 0 ->
    exists q, fitness error nalgos = Some q /\ (forall i, i < nalgos -> (error i <= q)%Q) /\
      exists i, i < nalgos /\ q = error i.
Proof. apply fitness_is_max. Qed.
(** ... so a chromosome of maximal fitness, which is what the genetic algorithm looks for, is
    one with the largest error: no other candidate predicts worse. *)
Theorem C62_fittest_is_the_worst :
  forall (S : Type) (error : S -> nat -> Q) nalgos (candidates : list S) (chosen : S),
    nalgos <> 0 ->
    (forall c q q', In c candidates -> fitness (error c) nalgos = Some q ->
       fitness (error chosen) nalgos = Some q' -> (q <= q')%Q) ->
    forall c, In c candidates ->
      exists worst, worst < nalgos /\ forall i, i < nalgos -> (error c i <= error chosen worst)%Q.
Proof.
  intros S error n cands chosen N M c Hc.
  destruct (@fitness_is_max (error chosen) n N) as (q' & E' & _ & (w & Hw & ->)).
  destruct (@fitness_is_max (error c) n N) as (q & E & H & _).
  exists w. split; auto. intros i Hi. pose proof (H i Hi). pose proof (M c q _ Hc E E'). lra.
Qed.
Example C62_met : fitness (fun i => nth i [1#10; 3#10; 2#10] 0%Q) 3 = Some (3#10)%Q.
Proof. reflexivity. Qed.

(* ------------------------------------------------------------------ C63 *)
(** A chromosome is scored on the features at the chosen positions of the full table, but what
    is returned are the features at those positions among the preselected ones. *)
Theorem C63_scored_and_returned_features :
  forall labels selvars k best nfeats sel scored,
    length labels = length selvars -> length selvars <= nfeats ->
    decode_selvars labels k best selvars = Ok sel ->
    scored_features labels k best nfeats = Some scored ->
    sel = map (fun p => nth p selvars 0) scored /\
    (selvars = seq 0 nfeats -> sel = scored).
Proof.
  intros labels selvars k best nf sel scored L Ln E1 E2. unfold decode_selvars in E1. unfold scored_features in E2.
  destruct (decode labels (genes_of k best) (repeat false (length selvars))) as [m1|] eqn:D1; [|discriminate].
  destruct (decode labels (genes_of k best) (repeat false nf)) as [m2|] eqn:D2; [|discriminate].
  injection E1 as <-. injection E2 as <-.
  assert (W : where_true m1 = where_true m2) by (eapply decode_positions; [| |exact D1|exact D2]; lia).
  destruct (@decode_spec _ _ _ _ D1) as [L1 _]. rewrite repeat_length in L1.
  assert (S : select m1 selvars = map (fun p => nth p selvars 0) (where_true m2)) by (rewrite <- W; apply select_where; auto).
  split; auto. intros ->. rewrite S. rewrite <- map_id. apply map_ext_in. intros p Hp.
  rewrite <- W in Hp. apply where_true_in in Hp. rewrite seq_length in *. rewrite seq_nth; lia.
Qed.
Theorem C63_scored_is_returned_refuted :
  exists labels selvars k best nfeats sel scored,
    length labels = length selvars /\ increasing selvars /\ no_empty_cluster k labels /\ length best = k /\
    (forall f, In f selvars -> f < nfeats) /\
    decode_selvars labels k best selvars = Ok sel /\ scored_features labels k best nfeats = Some scored /\
    forall f, In f scored -> ~ In f sel.
Proof.
  exists [0; 1; 0; 1], [2; 3; 4; 5], 2, [0; 2]%Z, 6, [2; 3], [0; 1].
  split; [reflexivity|]. split; [repeat constructor; lia|]. split; [intros [|[|c]] H; simpl; auto; lia|].
  split; [reflexivity|]. split; [simpl; intuition lia|]. split; [reflexivity|]. split; [reflexivity|].
  simpl. intuition lia.
Qed.

(* ------------------------------------------------------------------ C67 *)
(** The instances with both a value of feature i and a performance of algorithm j. *)
Definition common (x y : list (list num)) (i j : nat) : list nat :=
  filter (fun r => negb (isnan (cell x r i)) && negb (isnan (cell y r j))) (seq 0 (length x)).
(** Their pairs of values. *)
Definition common_values (x y : list (list num)) (i j : nat) : list (Q * Q) :=
  let value v := match v with Some q => q | None => 0%Q end in
  map (fun r => (value (cell x r i), value (cell y r j))) (common x y i j).
Lemma valid_pairs_values x y i j : length x = length y ->
  valid_pairs (column None x i) (column None y j) = common_values x y i j.
Proof.
  unfold common_values, common, valid_pairs, column, cell, num in *. revert y. induction x as [|rx x IH]; intros [|ry y] E; try discriminate; auto.
  injection E as E. cbn [map combine flat_map length seq filter nth].
  rewrite (IH y E). rewrite <- seq_shift.
  set (f := fun r : nat => negb (isnan (nth i (nth r x []) None)) && negb (isnan (nth j (nth r y []) None))).
  set (g := fun r : nat => negb (isnan (nth i (nth r (rx :: x) []) None)) && negb (isnan (nth j (nth r (ry :: y) []) None))).
  set (value := fun v : option Q => match v with Some q => q | None => 0%Q end).
  assert (F : forall l, map (fun r => (value (nth i (nth r x []) None), value (nth j (nth r y []) None))) (filter f l)
    = map (fun r => (value (nth i (nth r (rx :: x) []) None), value (nth j (nth r (ry :: y) []) None))) (filter g (map S l))).
  { induction l as [|a l IHl]; auto. cbn [map filter]. unfold f at 1, g at 1. cbn [nth]. destruct (negb _ && negb _); cbn [map nth]; [f_equal|]; exact IHl. }
  rewrite F. destruct (nth i rx None) eqn:Ei, (nth j ry None) eqn:Ej; cbn [isnan negb andb app map nth]; rewrite ?Ei, ?Ej; reflexivity.
Qed.
(** The correlation step fails iff some feature and algorithm have exactly one common instance. *)
Theorem C67_single_common_instance_fails :
  forall pearson x y nfeats nalgos, length x = length y ->
    ((exists e, correlations pearson x y nfeats nalgos = Err e) <->
     exists i j, i < nfeats /\ j < nalgos /\ length (common x y i j) = 1).
Proof.
  intros pearson x y nf na L. unfold correlations. rewrite all_ok_err. split.
  - intros [e H]. apply in_map_iff in H. destruct H as (i & H & Hi).
    destruct (proj1 (@all_ok_err _ _ _) (ex_intro _ e H)) as [e' H']. apply in_map_iff in H'.
    destruct H' as (j & H' & Hj). apply in_seq in Hi. apply in_seq in Hj. exists i, j. split; [lia|]. split; [lia|].
    unfold common. rewrite <- (valid_pairs_rows x y i j L). unfold corr_pair in H'.
    destruct (valid_pairs _ _) as [|? [|? ?]]; simpl; congruence.
  - intros (i & j & Hi & Hj & H). unfold common in H. rewrite <- (valid_pairs_rows x y i j L) in H.
    assert (X : exists e, all_ok (map (fun j => corr_pair pearson (column None x i) (column None y j)) (seq 0 na)) = Err e).
    { apply all_ok_err. exists ECorrelation. apply in_map_iff. exists j. split; [|apply in_seq; lia].
      unfold corr_pair. destruct (valid_pairs _ _) as [|? [|? ?]]; simpl in H; congruence. }
    destruct X as [e X]. exists e. apply in_map_iff. exists i. split; [exact X|]. apply in_seq. lia.
Qed.
(** Otherwise each coefficient is the one of the common instances, missing when there are none. *)
Theorem C67_correlation_of_common_instances :
  forall pearson x y nfeats nalgos rp, length x = length y ->
    correlations pearson x y nfeats nalgos = Ok rp ->
    forall i j, i < nfeats -> j < nalgos ->
      exists row, nth_error rp i = Some row /\
        nth_error row j = Some (match common x y i j with
                                | [] => (None, None)
                                | _ => pearson (common_values x y i j)
                                end).
Proof.
  intros pearson x y nf na rp L H i j Hi Hj. unfold correlations in H.
  destruct (@all_ok_nth _ _ _ _ H) as [Lr Nr]. rewrite map_length, seq_length in Lr.
  destruct (nth_error rp i) as [row|] eqn:Er; [|apply nth_error_None in Er; lia]. exists row. split; auto.
  apply Nr in Er. rewrite nth_error_map, (nth_error_nth' (seq 0 nf) 0), seq_nth in Er by (rewrite ?seq_length; auto).
  cbn [option_map plus] in Er. injection Er as Er. destruct (@all_ok_nth _ _ _ _ Er) as [L2 N2]. rewrite map_length, seq_length in L2.
  destruct (nth_error row j) as [v|] eqn:Ev; [|apply nth_error_None in Ev; lia].
  apply N2 in Ev. rewrite nth_error_map, (nth_error_nth' (seq 0 na) 0), seq_nth in Ev by (rewrite ?seq_length; auto).
  cbn [option_map plus] in Ev. injection Ev as Ev. f_equal.
  pose proof (valid_pairs_rows x y i j L) as V. fold (common x y i j) in V. unfold corr_pair in Ev. rewrite <- (valid_pairs_values x y i j L).
  destruct (valid_pairs (column None x i) (column None y j)) as [|p [|p' t]]; simpl in V; destruct (common x y i j); simpl in V; congruence.
Qed.
Example C67_met : common [[Some 1%Q]; [None]; [Some 2%Q]] [[Some 1%Q]; [Some 1%Q]; [None]] 0 0 = [0].
Proof. reflexivity. Qed.

(* ------------------------------------------------------------------ the stage *)
Section Stage.
  Variable pearson : list (Q * Q) -> num * num.
  Variable order : list (list Q) -> nat -> list nat.
  Variable sil : list nat -> list Q.
  Variable km_labels : list nat -> list nat.
  Variable best : list nat -> list Z.
  Variables x y : list (list num).
  Variable labels : list string.
  Variable nalgos : nat.
  Variable threshold : Q.
  Variable k : nat.
  Variable dense : option (list (list num) * list (list num) * list (list bool)).
  Variable stype : string.
  Variable min_distance : Q.

  Definition run := sifted pearson order sil km_labels best x y labels nalgos threshold k dense stype min_distance.

  Lemma run_cases out : run = Ok out ->
    (length labels <= 3 /\ 2 <= length labels /\
     out = {| so_x := x; so_labels := labels; so_selvars := seq 0 (length labels); so_idx := seq 0 (length labels); so_clustered := false |}) \/
    exists rp, 4 <= length labels /\ correlations pearson x y (length labels) nalgos = Ok rp /\
      let rho := map (map clean_rho) rp in
      let sv := where_true (perf_mask rho (order rho) threshold (length labels) nalgos) in
      2 <= length sv /\
      ((length sv <= 3 \/ length sv <= k) /\
       out = {| so_x := take_columns x sv; so_labels := take_labels labels sv; so_selvars := sv; so_idx := seq 0 (length labels); so_clustered := false |} \/
       3 < length sv /\ k < length sv /\ evaluate_cluster (sil sv) k (length sv) = Ok tt /\ dense = None /\
       exists sel, decode_selvars (km_labels sv) k (best sv) sv = Ok sel /\
         out = {| so_x := take_columns x sel; so_labels := take_labels labels sel; so_selvars := sel; so_idx := seq 0 (length labels); so_clustered := true |}).
  Proof.
    unfold run, sifted. destruct (Nat.leb_spec (length labels) 1) as [A|A]; [discriminate|].
    destruct (Nat.leb_spec (length labels) 3) as [B|B].
    { intro H. injection H as <-. left. auto. }
    destruct (correlations pearson x y (length labels) nalgos) as [rp|e]; [|discriminate].
    intro H. right. exists rp. split; [lia|]. split; auto. cbv zeta in *.
    set (sv := where_true _) in *.
    destruct (Nat.leb_spec (length sv) 1) as [C|C]; [discriminate|]. split; [lia|].
    destruct (Nat.leb_spec (length sv) 3) as [D|D]; simpl in H.
    { injection H as <-. left. auto. }
    destruct (Nat.leb_spec (length sv) k) as [E|E]; simpl in H.
    { injection H as <-. left. auto. }
    right. split; auto. split; auto.
    destruct (evaluate_cluster (sil sv) k (length sv)) as [[]|e]; [|discriminate]. split; auto.
    destruct (decode_selvars (km_labels sv) k (best sv) sv) as [sel|e]; [|discriminate].
    destruct dense as [[[dx dy] db]|]; [destruct (filter_instance _ _ _ _ _ _ _); discriminate|].
    injection H as <-. split; auto. exists sel. auto.
  Qed.

  Lemma taken_ok sv : increasing sv -> (forall f, In f sv -> f < length labels) ->
    length (take_columns x sv) = length x /\ length (take_labels labels sv) = length sv /\
    forall c f, nth_error sv c = Some f ->
      nth_error (take_labels labels sv) c = nth_error labels f /\
      forall i, i < length x -> cell (take_columns x sv) i c = cell x i f.
  Proof.
    intros I B. unfold take_columns, take_labels. rewrite !map_length. split; auto. split; auto.
    intros c f H. split.
    - rewrite nth_error_map, H. simpl. symmetry. apply nth_error_nth'. apply B. eapply nth_error_In; eauto.
    - intros i Hi. unfold cell.
      assert (R : nth i (map (fun row : list num => map (fun c => nth c row None) sv) x) [] = map (fun c => nth c (nth i x []) None) sv).
      { apply nth_error_nth. rewrite nth_error_map, (nth_error_nth' x []) by auto. reflexivity. }
      etransitivity; [exact (f_equal (fun r => nth c r None) R)|]. cbv beta.
      apply nth_error_nth. rewrite nth_error_map, H. reflexivity.
  Qed.

  Lemma clean_effective z : effective z (clean_rho z).
  Proof.
    destruct z as [r q]. unfold effective; cbn [fst snd]. destruct r as [r|]; [|right; split; auto].
    destruct q as [q|].
    - simpl. destruct (Qle_bool q (5 # 100)) eqn:E.
      + apply Qle_bool_iff in E. left. split; auto.
        intros (q' & X & Y). injection X as <-. lra.
      + right. split; auto. right. exists q. split; auto. apply Qnot_le_lt. intro X. apply Qle_bool_iff in X. congruence.
    - simpl. left. split; auto. intros (q' & X & _). discriminate.
  Qed.

  (** C43 for the stage without clustering: the selection rule is applied to the coefficients of
      the instances where both values are present, zero where undefined or insignificant. *)
  Theorem C43_insignificant_correlations_are_ignored :
    forall out, run = Ok out -> length x = length y -> 4 <= length labels -> so_clustered out = false ->
      exists rho : list (list Q),
        (forall i j, i < length labels -> j < nalgos ->
           effective (match common x y i j with
                      | [] => (None, None)
                      | _ => pearson (common_values x y i j)
                      end) (corr rho i j)) /\
        (forall f, In f (so_selvars out) <->
           f < length labels /\ ((exists j, j < nalgos /\ nth 0 (order rho j) 0 = f) \/
             (exists i j, i < length labels /\ j < nalgos /\ (threshold <= corr rho i j)%Q /\ nth i (order rho j) 0 = f))).
  Proof.
    intros out H L Hn Hc. apply run_cases in H. destruct H as [(A & _)|(rp & _ & R & H)]; [lia|]. cbv zeta in H.
    destruct H as [_ [(_ & ->)|(_ & _ & _ & _ & sel & _ & ->)]]; [|discriminate Hc].
    exists (map (map clean_rho) rp). split.
    - intros i j Hi Hj. destruct (@C67_correlation_of_common_instances _ _ _ _ _ _ L R i j Hi Hj) as (row & Er & Ej).
      unfold corr. erewrite (nth_error_nth (map (map clean_rho) rp)) by (rewrite nth_error_map, Er; reflexivity).
      erewrite (nth_error_nth (map clean_rho row)) by (rewrite nth_error_map, Ej; reflexivity).
      apply clean_effective.
    - intro f. cbn [so_selvars]. apply perf_selected.
  Qed.

  (** C64: selected indices, labels and feature columns agree in every outcome. *)
  Theorem C64_columns_labels_and_indices_agree :
    forall out, run = Ok out ->
      increasing (so_selvars out) /\ (forall f, In f (so_selvars out) -> f < length labels) /\
      length (so_x out) = length x /\ length (so_labels out) = length (so_selvars out) /\
      (forall c f, nth_error (so_selvars out) c = Some f ->
         nth_error (so_labels out) c = nth_error labels f /\
         forall i, i < length x -> cell (so_x out) i c = cell x i f) /\
      so_idx out = seq 0 (length labels) /\
      (so_clustered out = false -> 2 <= length (so_selvars out)).
  Proof.
    intros out H. apply run_cases in H. destruct H as [(A & B & ->)|(rp & A & _ & H)].
    - cbn [so_x so_labels so_selvars so_idx so_clustered]. split; [apply increasing_seq|].
      split; [intros f Hf; apply in_seq in Hf; lia|]. rewrite seq_length. split; auto. split; auto. split; auto.
      intros c f H. assert (c < length labels) by (rewrite <- (seq_length (length labels) 0); apply nth_error_Some; congruence).
      rewrite (nth_error_nth' (seq 0 (length labels)) 0) in H by (rewrite seq_length; auto).
      rewrite seq_nth in H by auto. injection H as <-. auto.
    - cbv zeta in H. set (sv := where_true _) in *. destruct H as [L H].
      assert (Is : increasing sv) by apply where_true_increasing.
      assert (Bs : forall f, In f sv -> f < length labels).
      { intros f Hf. apply perf_selected in Hf. tauto. }
      destruct H as [(_ & ->)|(_ & _ & _ & _ & sel & E & ->)]; cbn [so_x so_labels so_selvars so_idx so_clustered].
      + destruct (@taken_ok sv Is Bs) as (T1 & T2 & T3). auto 10.
      + unfold decode_selvars in E. destruct (decode _ _ _) as [m|]; [|discriminate]. injection E as <-.
        assert (I' : increasing (select m sv)) by (apply select_increasing; auto).
        assert (B' : forall f, In f (select m sv) -> f < length labels).
        { intros f Hf. apply select_in in Hf. destruct Hf as (p & _ & Hp). apply Bs. eapply nth_error_In; eauto. }
        destruct (@taken_ok _ I' B') as (T1 & T2 & T3). split; auto. split; auto. split; auto. split; auto.
        split; auto. split; auto. discriminate.
  Qed.

  (** Which of the three outcomes a run has: two or three features are returned as they are; of four or more those that
      pass the selection by performance are returned if they are at most three or at most k, and otherwise what the
      clusters of them select. *)
  Theorem C64_which_outcome :
    forall out, run = Ok out ->
      2 <= length labels /\
      (length labels <= 3 -> so_x out = x /\ so_labels out = labels /\ so_selvars out = seq 0 (length labels) /\ so_clustered out = false) /\
      (3 < length labels -> length x = length y ->
       exists (rho : list (list Q)) passed,
        (forall i j, i < length labels -> j < nalgos ->
           effective (match common x y i j with
                      | [] => (None, None)
                      | _ => pearson (common_values x y i j)
                      end) (corr rho i j)) /\
        increasing passed /\
        (forall f, In f passed <->
           f < length labels /\ ((exists j, j < nalgos /\ nth 0 (order rho j) 0 = f) \/
             (exists i j, i < length labels /\ j < nalgos /\ (threshold <= corr rho i j)%Q /\ nth i (order rho j) 0 = f))) /\
        2 <= length passed /\
        (so_clustered out = true <-> 3 < length passed /\ k < length passed) /\
        (so_clustered out = false -> so_selvars out = passed) /\
        (so_clustered out = true -> dense = None /\ decode_selvars (km_labels passed) k (best passed) passed = Ok (so_selvars out))).
  Proof.
    intros out H. apply run_cases in H. destruct H as [(A & B & ->)|(rp & A & R & H)].
    - split; auto. split; [auto|]. intro X. lia.
    - split; [lia|]. split; [lia|]. intros _ L. cbv zeta in H. set (rho := map (map clean_rho) rp) in *.
      set (sv := where_true _) in *. exists rho, sv. split; [|split; [apply where_true_increasing|split; [intro f; apply perf_selected|]]].
      + intros i j Hi Hj. destruct (@C67_correlation_of_common_instances _ _ _ _ _ _ L R i j Hi Hj) as (row & Er & Ej).
        unfold corr, rho. erewrite (nth_error_nth (map (map clean_rho) rp)) by (rewrite nth_error_map, Er; reflexivity).
        erewrite (nth_error_nth (map clean_rho row)) by (rewrite nth_error_map, Ej; reflexivity). apply clean_effective.
      + destruct H as [L2 H]. split; auto. destruct H as [(D & ->)|(D1 & D2 & _ & Dn & sel & E & ->)]; cbn [so_clustered so_selvars].
        * split; [split; [discriminate|intros []; lia]|]. split; [auto|discriminate].
        * split; [tauto|]. split; [discriminate|auto].
  Qed.

  (** C65: a run that selects by clustering got past [evaluate_cluster]. *)
  Theorem C65_clustering_needs_the_silhouettes :
    forall out, run = Ok out -> so_clustered out = true ->
      exists sv, (forall f, In f (so_selvars out) -> In f sv) /\ 4 <= length sv /\ k < length sv /\
        evaluate_cluster (sil sv) k (length sv) = Ok tt.
  Proof.
    intros out H C. apply run_cases in H. destruct H as [(_ & _ & ->)|(rp & _ & _ & H)]; [discriminate|].
    cbv zeta in H. set (sv := where_true _) in *. destruct H as [_ [(_ & ->)|(A & B & E & _ & sel & D & ->)]]; [discriminate|].
    exists sv. split; [|split; [lia|auto]]. cbn [so_selvars]. intros f Hf.
    unfold decode_selvars in D. destruct (decode _ _ _) as [m|]; [|discriminate]. injection D as <-.
    apply select_in in Hf. destruct Hf as (p & _ & Hp). eapply nth_error_In; eauto.
  Qed.

  (** C66: with density-based selection no run selects by clustering: it fails instead. *)
  Theorem C66_density_with_clustering_always_fails :
    forall out, dense <> None -> run = Ok out -> so_clustered out = false.
  Proof.
    intros out D H. apply run_cases in H. destruct H as [(_ & _ & ->)|(rp & _ & _ & H)]; [auto|].
    cbv zeta in H. destruct H as [_ [(_ & ->)|(_ & _ & _ & E & _)]]; auto. contradiction.
  Qed.

  (** Too few features. *)
  Theorem C64_too_few_features :
    length labels <= 1 -> run = Err ENotEnoughFeatures.
  Proof. intro H. unfold run, sifted. destruct (Nat.leb_spec (length labels) 1); [auto|lia]. Qed.
End Stage.

(** When the look-up of the best number of clusters fails.  [sil] has the scores of
    2 .. width-1 clusters; the best is the first maximum. *)
Theorem C65_when_the_silhouettes_crash :
  forall sil k width, 4 <= width -> length sil = width - 2 -> 2 <= k < width ->
    exists b m, nth_error sil b = Some m /\ (forall v, In v sil -> (v <= m)%Q) /\
      evaluate_cluster sil k width =
        (if Nat.eqb (2 + b) k || Nat.ltb (2 + b) (width - 2) then Ok tt else Err EIndexError).
Proof.
  intros sil k width W L K. assert (N : sil <> []) by (destruct sil; [simpl in L; lia|discriminate]).
  destruct (argmax_spec N) as (m & E & M). exists (argmax sil), m. split; auto. split; auto.
  pose proof (argmax_lt N) as A. unfold evaluate_cluster.
  destruct (Nat.eqb_spec (2 + argmax sil) k) as [X|X].
  - cbn [negb andb orb]. destruct (Nat.leb_spec 2 k); [|lia]. destruct (Nat.ltb_spec k width); [auto|lia].
  - destruct (Nat.eqb_spec (2 + argmax sil) width) as [Y|Y]; [lia|]. rewrite L.
    destruct (Nat.ltb_spec (2 + argmax sil) (width - 2)) as [Z|Z]; cbn [negb andb orb]; auto.
    destruct (Nat.leb_spec 2 k); [|lia]. destruct (Nat.ltb_spec k width); [auto|lia].
Qed.
(** So with four preselected features the stage survives only if k is the best number. *)
Theorem C65_four_features_survive_only_with_best_k :
  forall s2 s3 k, 2 <= k < 4 ->
    (evaluate_cluster [s2; s3] k 4 = Ok tt <-> k = if Qle_bool s3 s2 then 2 else 3).
Proof.
  intros s2 s3 k K. unfold evaluate_cluster. simpl argmax.
  destruct (Qle_bool s3 s2); destruct k as [|[|[|[|k]]]]; try lia; simpl; split; intro H; congruence.
Qed.
Example C65_met : evaluate_cluster [1#10; 2#10; 9#10; 3#10]%Q 3 6 = Err EIndexError /\
  evaluate_cluster [1#10; 9#10; 2#10; 3#10]%Q 2 6 = Ok tt.
Proof. vm_compute. auto. Qed.

(** A run through all branches. *)
Definition q (n : Z) : num := Some (inject_Z n).
Definition ex_x : list (list num) := [[q 1; q 2; q 3; q 4; q 5; q 6]; [q 7; q 8; q 9; q 10; q 11; q 12]].
Definition ex_y : list (list num) := [[q 1]; [q 2]].
Definition ex_sift (dense : option (list (list num) * list (list num) * list (list bool))) :=
  sifted (fun _ => (Some (9#10), Some (1#100))) (fun _ _ => [0; 1; 2; 3; 4; 5]) (fun _ => [9#10; 1#10; 2#10; 3#10]%Q)
    (fun _ => [0; 1; 2; 1; 0; 2]) (fun _ => [1; 0; 3]%Z) ex_x ex_y ["a"; "b"; "c"; "d"; "e"; "f"]%string 1 (1#2) 3 dense "Ftr" 1.
Example stage_met : ex_sift None =
  Ok {| so_x := [[q 2; q 5; q 6]; [q 8; q 11; q 12]]; so_labels := ["b"; "e"; "f"]%string; so_selvars := [1; 4; 5]; so_idx := seq 0 6; so_clustered := true |}
  /\ ex_sift (Some (ex_x, ex_y, [[true]; [false]])) = Err ETypeError.
Proof. vm_compute. auto. Qed.

Print Assumptions C42_one_feature_per_cluster.
Print Assumptions C42_every_choice_reachable.
Print Assumptions C43_documented_rule_refuted.
Print Assumptions C43_as_many_as_pass.
Print Assumptions C43_insignificant_correlations_are_ignored.
Print Assumptions C62_fittest_is_the_worst.
Print Assumptions C63_scored_and_returned_features.
Print Assumptions C64_columns_labels_and_indices_agree.
Print Assumptions C64_which_outcome.
Print Assumptions C65_when_the_silhouettes_crash.
Print Assumptions C66_density_with_clustering_always_fails.
Print Assumptions C67_correlation_of_common_instances.
