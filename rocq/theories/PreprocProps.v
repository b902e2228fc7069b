(** C35, C36: the preprocessing properties. *)
From Verif Require Import Base BaseLemmas Num PreprocModel PreprocSpec PreprocProofs.
Set Implicit Arguments.
Open Scope nat_scope.
Open Scope list_scope.

Definition q (z : Z) : num := Some (inject_Z z).
(** Three features, five instances; the second has no feature value, the third no performance. *)
Definition ex_x : list (list num) :=
  [[q 1; q 2; None]; [None; None; None]; [q 3; q 4; q 5]; [q 6; None; q 7]; [q 8; q 9; q 10]].
Definition ex_y : list (list num) := [[q 1; q 0]; [q 1; q 0]; [None; None]; [None; q 1]; [q 2; q 2]].
Example ex_tables : table 5 3 ex_x /\ table 5 2 ex_y.
Proof. repeat split; repeat constructor. Qed.
Example ex_run :
  preproc_run ex_x ex_y ["f1"; "f2"; "f3"]%string ["a1"; "a2"]%string (Some ["f3"; "f1"; "zz"]%string) None
      (Some [7; 7; 8; 8; 9]) [101; 102; 103; 104; 105]
  = Ok {| p_inst := [101; 104; 105]; p_feat := ["f1"]%string; p_algo := ["a1"; "a2"]%string;
          p_x := [[q 1]; [q 6]; [q 8]]; p_y := [[q 1; q 0]; [None; q 1]; [q 2; q 2]];
          p_s := Some [7; 8; 9];
          p_x_raw := [[q 1]; [q 6]; [q 8]]; p_y_raw := [[q 1; q 0]; [None; q 1]; [q 2; q 2]] |}.
Proof. vm_compute. reflexivity. Qed.

(** C35: selecting columns by name *)
Theorem C35_selection_aligned :
  forall m labels req m' labels' n,
    table n (length labels) m -> select_columns m labels req = (m', labels') ->
    length m' = n /\
    match req with
    | Some names =>
        if existsb (fun l => mem string_dec l names) labels
        then labels' = filter (fun l => mem string_dec l names) labels /\
             forall i k l, i < n -> nth_error labels' k = Some l ->
               exists c, first_labelled labels l c /\ cell m' i k = cell m i c
        else m' = m /\ labels' = labels
    | None => m' = m /\ labels' = labels
    end.
Proof.
  intros m labels req m' labels' n T E.
  destruct (@select_columns_spec m labels req n T) as (cols & E2 & F & X).
  assert (Lm : length (subtable m (seq 0 n) cols) = n).
  { unfold subtable. rewrite map_length, seq_length. reflexivity. }
  destruct req as [names|].
  - destruct (existsb (fun l => mem string_dec l names) labels) eqn:Ex.
    + rewrite E in E2. injection E2 as -> ->. split; [exact Lm|]. destruct X as [X1 X2]. split; [exact X1|].
      intros i k l Hi Hk. unfold take_at in Hk. rewrite nth_error_map in Hk.
      destruct (nth_error cols k) as [c|] eqn:Ec; [|discriminate]. simpl in Hk. injection Hk as <-.
      exists c. split.
      * rewrite Forall_forall in X2. apply X2. eapply nth_error_In; eauto.
      * rewrite cell_sub; auto; [|apply nth_error_Some; congruence].
        erewrite nth_error_nth by eauto. reflexivity.
    + simpl in E. assert (Ne : filter (fun l => mem string_dec l names) labels = []).
      { destruct (filter _ labels) as [|l t] eqn:Ef; auto. exfalso. rewrite existsb_false_iff in Ex.
        assert (In l (filter (fun l => mem string_dec l names) labels)) by (rewrite Ef; left; auto).
        apply filter_In in H. destruct H as [H1 H2]. apply Ex in H1. congruence. }
      rewrite Ne in E. simpl in E. injection E as <- <-. split; auto. exact (proj1 T).
  - simpl in E. injection E as <- <-. split; auto. exact (proj1 T).
Qed.
(** With distinct labels the column of a label is the only one it names. *)
Theorem C35_distinct_labels_own_column :
  forall m labels names m' labels' n,
    table n (length labels) m -> NoDup labels ->
    select_columns m labels (Some names) = (m', labels') ->
    forall i k l c, i < n -> nth_error labels' k = Some l -> nth_error labels c = Some l ->
      cell m' i k = cell m i c.
Proof.
  intros m labels names m' labels' n T ND E i k l c Hi Hk Hc.
  destruct (@C35_selection_aligned _ _ _ _ _ _ T E) as [_ X].
  destruct (existsb _ labels).
  - destruct X as [_ X]. destruct (X i k l Hi Hk) as (c' & [H1 _] & ->). f_equal.
    eapply NoDup_nth_error; eauto; [apply nth_error_Some|]; congruence.
  - destruct X as [-> ->]. f_equal. eapply NoDup_nth_error; eauto; [apply nth_error_Some|]; congruence.
Qed.
(** Two columns with one name: the data of the second are replaced by those of the first. *)
Theorem C35_duplicate_labels_refuted :
  exists m labels names m' labels',
    table 1 (length labels) m /\ select_columns m labels (Some names) = (m', labels') /\
    labels' = labels /\ cell m 0 1 <> cell m' 0 1.
Proof.
  exists [[q 1; q 2]], ["f"; "f"]%string, ["f"]%string, [[q 1; q 1]], ["f"; "f"]%string.
  split; [repeat split; repeat constructor|]. split; [reflexivity|]. split; [reflexivity|].
  vm_compute. discriminate.
Qed.

(** C36 *)
Theorem C36_exactly_the_empty_are_removed :
  forall (L S : Type) (dl : L) (ds : S) x y s feat_labels width inst_labels n wy,
    table n width x -> table n wy y -> length inst_labels = n -> length feat_labels = width ->
    (forall l, s = Some l -> length l = n) ->
    exists rows cols,
      increasing rows /\ (forall i, In i rows <-> i < n /\ ~ empty_instance x y i) /\
      increasing cols /\ (forall c, In c cols <-> c < width /\ ~ (rows <> [] /\ missing_often x rows c)) /\
      (rows = [] -> remove_missing x y s feat_labels width inst_labels = Err EZeroDiv) /\
      (rows <> [] -> remove_missing x y s feat_labels width inst_labels =
         Ok (subtable x rows cols, take_at [] y rows, take_at dl inst_labels rows,
             take_at ""%string feat_labels cols, option_map (fun l => take_at ds l rows) s)).
Proof.
  intros L S dl ds x y s feat_labels width inst_labels n wy Tx Ty Li Lf Ls.
  destruct (@remove_missing_spec L S dl ds x y s feat_labels width inst_labels n wy Tx Ty Li Lf Ls)
    as (rows & cols & H1 & H2 & H3 & H4 & H5).
  exists rows, cols. do 4 (split; [assumption|]). rewrite H5. split; intro E.
  - rewrite E. reflexivity.
  - destruct rows; [contradiction|reflexivity].
Qed.
(** The whole stage: labels, sources, features and performances stay aligned. *)
Theorem C36_stage_output_aligned :
  forall (L S : Type) (dl : L) (ds : S) features algorithms fnames anames feats algos sources labels n,
    table n (length fnames) features -> table n (length anames) algorithms ->
    length labels = n -> (forall l, sources = Some l -> length l = n) ->
    forall o : preproc_out L S,
    preproc_run features algorithms fnames anames feats algos sources labels = Ok o ->
    exists rows fcols acols,
      increasing rows /\ rows <> [] /\ (forall i, In i rows -> i < n) /\
      Forall (fun c => c < length fnames) fcols /\ Forall (fun c => c < length anames) acols /\
      p_x o = subtable features rows fcols /\ p_feat o = take_at ""%string fnames fcols /\
      p_y o = subtable algorithms rows acols /\ p_algo o = take_at ""%string anames acols /\
      p_inst o = take_at dl labels rows /\ p_s o = option_map (fun l => take_at ds l rows) sources /\
      p_x_raw o = p_x o /\ p_y_raw o = p_y o /\
      prepared features algorithms fnames anames feats algos n rows fcols acols.
Proof. exact preproc_run_spec. Qed.
(** The documentation says an instance is removed if features AND performances are missing. *)
Theorem C36_documented_criterion_refuted :
  exists x y labels : list (list num), exists x' y' l' f' s',
    table 2 1 x /\ table 2 1 y /\
    remove_missing x y (None : option (list nat)) ["f"%string] 1 labels = Ok (x', y', l', f', s') /\
    ~ Forall (fun v => v = None) (nth 0 y []) /\ length x' = 1.
Proof.
  exists [[None]; [q 1]], [[q 5]; [q 6]], [[]; []]. do 5 eexists.
  split; [repeat split; repeat constructor|]. split; [repeat split; repeat constructor|].
  split; [vm_compute; reflexivity|]. split; [|reflexivity].
  intro H. inversion H. discriminate.
Qed.

Print Assumptions C35_selection_aligned.
Print Assumptions C35_distinct_labels_own_column.
Print Assumptions C35_duplicate_labels_refuted.
Print Assumptions C36_exactly_the_empty_are_removed.
Print Assumptions C36_stage_output_aligned.
Print Assumptions C36_documented_criterion_refuted.
