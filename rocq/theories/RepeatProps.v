(** C137: preparing data that are already prepared. *)
From Coq Require Import Lia.
From Verif Require Import Base BaseLemmas Num PreprocModel PreprocSpec PreprocProofs PreprocProps.
Set Implicit Arguments.
Open Scope nat_scope.
Open Scope list_scope.

Lemma filter_twice {A} (p : A -> bool) l : filter p (filter p l) = filter p l.
Proof. induction l as [|a l IH]; simpl; auto. destruct (p a) eqn:E; simpl; rewrite ?E, IH; auto. Qed.
Lemma index_of_lt l labels : In l labels -> index_of l labels < length labels.
Proof. intros H. destruct (index_of_first _ _ H) as [A _]. apply nth_error_Some. congruence. Qed.

Lemma some_value (r : list num) : ~ Forall (fun v => v = None) r -> exists v, In (Some v) r.
Proof.
  induction r as [|[q|] r IH]; intros H.
  - destruct H. constructor.
  - exists q. left. auto.
  - destruct IH as (v & V); [intros F; apply H; constructor; auto|]. exists v. right. auto.
Qed.
Lemma column_count (x : list (list num)) c :
  length (filter (fun i => isnan (cell x i c)) (seq 0 (length x))) = count isnan (column (A := num) None x c).
Proof.
  unfold count, column. rewrite <- (take_all [] x) at 2. unfold take_at. rewrite map_map.
  generalize (seq 0 (length x)). intros l. induction l as [|i l IH]; auto. simpl. fold (cell x i c).
  destruct (isnan (cell x i c)); simpl; auto.
Qed.
Lemma filter_map_length {A B} (f : A -> B) (p : B -> bool) l : length (filter p (map f l)) = length (filter (fun a => p (f a)) l).
Proof. induction l as [|a l IH]; simpl; auto. destruct (p (f a)); simpl; auto. Qed.
Lemma increasing_full l n : increasing l -> (forall i, In i l -> i < n) -> length l = n -> forall i, i < n -> In i l.
Proof.
  intros I B E i Hi. apply (@NoDup_length_incl _ l (seq 0 n)).
  - induction I as [|a l I IH F]; constructor.
    + intros X. rewrite Forall_forall in F. apply F in X. lia.
    + clear - I. induction I as [|a l I IH F]; constructor; auto. intros X. rewrite Forall_forall in F. apply F in X. lia.
  - rewrite seq_length. lia.
  - intros j J. apply in_seq. specialize (B j J). lia.
  - apply in_seq. lia.
Qed.
(** a table nothing of which is to be removed *)
Lemma remove_missing_id (L S : Type) x y (s : option (list S)) fl (il : list L) n wy :
  n <> 0 -> table n (length fl) x -> table n wy y ->
  (forall i, i < n -> ~ empty_instance x y i) ->
  (forall c, c < length fl -> ~ missing_often x (seq 0 n) c) ->
  remove_missing x y s fl (length fl) il = Ok (x, y, il, fl, s).
Proof.
  intros N [Lx Wx] [Ly Wy] E M. unfold remove_missing.
  assert (X : existsb (fun b => b) (map (fun p => forallb isnan (fst p) || forallb isnan (snd p)) (combine x y)) = false).
  { apply existsb_false_iff. intros b Hb. apply in_map_iff in Hb. destruct Hb as ((r, r') & <- & I).
    apply In_nth with (d := ([], [])) in I. destruct I as (i & Hi & I). rewrite combine_length in Hi.
    rewrite combine_nth in I by congruence. injection I as <- <-. simpl. apply not_true_iff_false. intros T.
    apply orb_true_iff in T. rewrite !forallb_isnan in T. apply (E i); [lia|exact T]. }
  rewrite X. cbv zeta. rewrite Lx.
  assert (Y : existsb (fun b => b) (map (fun c => Nat.leb n (5 * count isnan (column None x c)) && negb (Nat.eqb n 0)) (seq 0 (length fl))) = false).
  { apply existsb_false_iff. intros b Hb. apply in_map_iff in Hb. destruct Hb as (c & <- & I). apply in_seq in I.
    apply andb_false_iff. left. apply Nat.leb_gt. specialize (M c ltac:(lia)). unfold missing_often in M.
    rewrite seq_length in M. apply Nat.nle_gt in M. pose proof (column_count x c) as K. rewrite Lx in K.
    change (5 * count isnan (column (A := num) None x c) < n). rewrite <- K. exact M. }
  rewrite Y. destruct (Nat.eqb_spec n 0); [contradiction|reflexivity].
Qed.
(** Selecting the same names from what was selected: same table, same labels. *)
Theorem C137_selecting_twice :
  forall m labels req m' labels' n,
    table n (length labels) m -> select_columns m labels req = (m', labels') ->
    select_columns m' labels' req = (m', labels').
Proof.
  intros m labels req m' labels' n [T1 T2] E. unfold select_columns in E. destruct req as [req|]; [|injection E as <- <-; reflexivity].
  set (p := fun l => mem string_dec l req) in *. destruct (nonempty (filter p labels)) eqn:N; injection E as <- <-.
  - unfold select_columns. fold p. rewrite filter_twice, N. f_equal.
    set (sel := filter p labels). rewrite map_map.
    assert (X : forall row : list num, map (fun c => nth c (map (fun c => nth c row None) (map (fun l => index_of l labels) sel)) None)
                    (map (fun l => index_of l sel) sel) = map (fun c => nth c row None) (map (fun l => index_of l labels) sel)).
    { intros row. rewrite !map_map. apply map_ext_in. intros l Hl.
      rewrite (nth_indep _ None (nth (index_of "" labels) row None)) by (rewrite map_length; apply index_of_lt; auto).
      rewrite (map_nth (fun l => nth (index_of l labels) row None)).
      destruct (index_of_first _ _ Hl) as [A _]. rewrite (nth_error_nth _ _ _ A). auto. }
    induction m as [|r m IH]; simpl; auto. rewrite X. f_equal. clear - X. induction m as [|r m IH]; simpl; auto. rewrite X, IH. auto.
  - unfold select_columns. fold p. rewrite N. auto.
Qed.

(** Of the instances that are handed on each has a performance value ... *)
Theorem C137_every_instance_has_a_performance :
  forall (L S : Type) (dl : L) (ds : S) x y (s : option (list S)) feat_labels width (inst_labels : list L) n wy x' y' il' fl' s',
    table n width x -> table n wy y -> length inst_labels = n -> length feat_labels = width ->
    (forall l, s = Some l -> length l = n) ->
    remove_missing x y s feat_labels width inst_labels = Ok (x', y', il', fl', s') ->
    forall i, i < length y' -> exists v, In (Some v) (nth i y' []).
Proof.
  intros L S dl ds x y s feat_labels width inst_labels n wy x' y' il' fl' s' Tx Ty Li Lf Ls H i Hi.
  destruct (@C36_exactly_the_empty_are_removed L S dl ds x y s feat_labels width inst_labels n wy Tx Ty Li Lf Ls)
    as (rows & cols & _ & R & _ & _ & Z & O).
  destruct rows as [|r0 rows0] eqn:Er; [rewrite Z in H by auto; discriminate|]. rewrite <- Er in *.
  rewrite O in H by (rewrite Er; discriminate). injection H as <- <- <- <- <-.
  unfold take_at in *. rewrite map_length in Hi. rewrite (nth_indep _ [] (nth 0 y [])) by (rewrite map_length; auto).
  rewrite (map_nth (fun i => nth i y [])). assert (I : In (nth i rows 0) rows) by (apply nth_In; auto).
  apply R in I. destruct I as [_ NE]. apply some_value. intros F. apply NE. right. auto.
Qed.
(** ... but not necessarily a feature value: features are removed after the instances. *)
Theorem C137_every_instance_has_a_feature_refuted :
  exists x y, exists labels : list nat, exists x' y' il' fl' x'' y'' il'' fl'',
    table 6 2 x /\ table 6 1 y /\ length labels = 6 /\
    remove_missing x y (None : option (list nat)) ["f"; "g"]%string 2 labels = Ok (x', y', il', fl', None) /\
    length x' = 6 /\ fl' = ["f"%string] /\ nth 5 x' [] = [None] /\
    (* preparing the prepared data removes that instance *)
    remove_missing x' y' (None : option (list nat)) fl' 1 il' = Ok (x'', y'', il'', fl'', None) /\ length x'' = 5.
Proof.
  set (o := Some 1%Q : num).
  exists [[o; None]; [o; None]; [o; None]; [o; None]; [o; None]; [None; o]], [[o]; [o]; [o]; [o]; [o]; [o]], [1; 2; 3; 4; 5; 6].
  do 8 eexists. split; [repeat split; repeat constructor|]. split; [repeat split; repeat constructor|]. split; [reflexivity|].
  split; [vm_compute; reflexivity|]. split; [reflexivity|]. split; [reflexivity|]. split; [reflexivity|]. split; [vm_compute; reflexivity|reflexivity].
Qed.
Lemma prepared_shape (L S : Type) (dl : L) (ds : S) x y (s : option (list S)) feat_labels width (inst_labels : list L) n wy x' y' il' fl' s' :
  table n width x -> table n wy y -> length inst_labels = n -> length feat_labels = width ->
  (forall l, s = Some l -> length l = n) ->
  remove_missing x y s feat_labels width inst_labels = Ok (x', y', il', fl', s') ->
  exists n', n' <> 0 /\ table n' (length fl') x' /\ table n' wy y' /\ length il' = n' /\
    (forall l, s' = Some l -> length l = n') /\ (forall c, c < length fl' -> ~ missing_often x' (seq 0 n') c).
Proof.
  intros Tx Ty Li Lf Ls H.
  destruct (@C36_exactly_the_empty_are_removed L S dl ds x y s feat_labels width inst_labels n wy Tx Ty Li Lf Ls)
    as (rows & cols & _ & R & _ & C & Z & O).
  destruct (Nat.eq_dec (length rows) 0) as [E0|N0].
  { destruct rows; [|discriminate]. rewrite Z in H by auto. discriminate. }
  assert (NE : rows <> []) by (intros ->; auto). rewrite O in H by auto. injection H as <- <- <- <- <-.
  exists (length rows). unfold take_at, subtable. rewrite !map_length.
  split; [auto|]. split; [split; [apply map_length|]|]; [|split; [split; [apply map_length|]|split; [auto|split]]].
  - apply Forall_forall. intros r Hr. apply in_map_iff in Hr. destruct Hr as (i & <- & _). apply map_length.
  - apply Forall_forall. intros r Hr. apply in_map_iff in Hr. destruct Hr as (i & <- & I). apply R in I.
    destruct Ty as [A B]. rewrite Forall_forall in B. apply B. apply nth_In. lia.
  - intros l E. destruct s; simpl in E; [|discriminate]. injection E as <-. apply map_length.
  - intros c Hc M. assert (I : In (nth c cols 0) cols) by (apply nth_In; auto). apply C in I. destruct I as [_ I]. apply I.
    split; auto. unfold missing_often in *. rewrite seq_length in M.
    set (m := map (fun i => map (cell x i) cols) rows) in *.
    assert (Lm : length m = length rows) by (unfold m; apply map_length).
    pose proof (column_count m c) as K. rewrite Lm in K. rewrite K in M. unfold count, column, m in M.
    rewrite map_map, filter_map_length in M.
    erewrite filter_ext; [exact M|]. intros i. simpl. rewrite (nth_indep _ None (cell x i 0)) by (rewrite map_length; auto).
    rewrite map_nth. auto.
Qed.
(** Preparing what is prepared changes nothing exactly if every instance that was handed on has a feature value ... *)
Theorem C137_removing_twice :
  forall (L S : Type) (dl : L) (ds : S) x y (s : option (list S)) feat_labels width (inst_labels : list L) n wy x' y' il' fl' s',
    table n width x -> table n wy y -> length inst_labels = n -> length feat_labels = width ->
    (forall l, s = Some l -> length l = n) ->
    remove_missing x y s feat_labels width inst_labels = Ok (x', y', il', fl', s') ->
    (remove_missing x' y' s' fl' (length fl') il' = Ok (x', y', il', fl', s') <->
     forall i, i < length x' -> exists v, In (Some v) (nth i x' [])).
Proof.
  intros L S dl ds x y s feat_labels width inst_labels n wy x' y' il' fl' s' Tx Ty Li Lf Ls H.
  pose proof (@C137_every_instance_has_a_performance L S dl ds x y s feat_labels width inst_labels n wy x' y' il' fl' s' Tx Ty Li Lf Ls H) as P.
  destruct (@prepared_shape L S dl ds x y s feat_labels width inst_labels n wy x' y' il' fl' s' Tx Ty Li Lf Ls H)
    as (n' & N' & Tx' & Ty' & Li' & Ls' & M).
  split.
  - intros E i Hi. apply some_value. intros F.
    destruct (@C36_exactly_the_empty_are_removed L S dl ds x' y' s' fl' (length fl') il' n' wy Tx' Ty' Li' eq_refl Ls')
      as (rows & cols & I & R & _ & _ & Z & O).
    destruct (Nat.eq_dec (length rows) 0) as [E0|N0].
    { destruct rows; [|discriminate]. rewrite Z in E by auto. discriminate. }
    rewrite O in E by (intros ->; auto). injection E as _ Ey _ _ _.
    assert (Lr : length rows = n'). { apply (f_equal (@length _)) in Ey. unfold take_at in Ey. rewrite map_length in Ey. destruct Ty'; lia. }
    assert (J : In i rows). { apply increasing_full with (n := n'); auto; [intros j J; apply R in J; tauto|destruct Tx'; lia]. }
    apply R in J. destruct J as [_ J]. apply J. left. auto.
  - intros F. apply remove_missing_id with (n := n') (wy := wy); auto.
    intros i Hi [G|G].
    + destruct (F i) as (v & V); [destruct Tx'; lia|]. rewrite Forall_forall in G. apply G in V. discriminate.
    + destruct (P i) as (v & V); [destruct Ty'; lia|]. rewrite Forall_forall in G. apply G in V. discriminate.
Qed.
(** ... as is the case if no feature was removed. *)
Theorem C137_no_feature_removed :
  forall (L S : Type) (dl : L) (ds : S) x y (s : option (list S)) feat_labels width (inst_labels : list L) n wy x' y' il' s',
    table n width x -> table n wy y -> length inst_labels = n -> length feat_labels = width ->
    (forall l, s = Some l -> length l = n) ->
    remove_missing x y s feat_labels width inst_labels = Ok (x', y', il', feat_labels, s') ->
    remove_missing x' y' s' feat_labels width il' = Ok (x', y', il', feat_labels, s').
Proof.
  intros L S dl ds x y s feat_labels width inst_labels n wy x' y' il' s' Tx Ty Li Lf Ls H.
  rewrite <- Lf at 1.
  apply (@C137_removing_twice L S dl ds x y s feat_labels width inst_labels n wy x' y' il' feat_labels s' Tx Ty Li Lf Ls H).
  destruct (@C36_exactly_the_empty_are_removed L S dl ds x y s feat_labels width inst_labels n wy Tx Ty Li Lf Ls)
    as (rows & cols & _ & R & IC & C & Z & O).
  destruct (Nat.eq_dec (length rows) 0) as [E0|N0].
  { destruct rows; [|discriminate]. rewrite Z in H by auto. discriminate. }
  rewrite O in H by (intros ->; auto). injection H as Ex _ _ Ef _. subst x'. intros i Hi.
  unfold subtable in *. rewrite map_length in Hi.
  rewrite (nth_indep _ [] (map (cell x 0) cols)) by (rewrite map_length; auto).
  rewrite (map_nth (fun i => map (cell x i) cols)).
  assert (I : In (nth i rows 0) rows) by (apply nth_In; auto). apply R in I. destruct I as [I NE]. set (r := nth i rows 0) in *.
  destruct (some_value (r := nth r x [])) as (v & V); [intros F; apply NE; left; auto|].
  exists v. apply In_nth with (d := None) in V. destruct V as (c & Hc & V). apply in_map_iff. exists c. split; [exact V|].
  destruct Tx as [Lx Wx]. rewrite Forall_forall in Wx. rewrite Wx in Hc by (apply nth_In; lia).
  apply increasing_full with (n := width); auto.
  - intros j J. apply C in J. tauto.
  - apply (f_equal (@length _)) in Ef. unfold take_at in Ef. rewrite map_length in Ef. lia.
Qed.
(** Which columns are selected depends on the set of names requested, not on their order or repetition. *)
Theorem C137_set_of_names :
  forall m labels req req',
    (forall l, In l req <-> In l req') -> select_columns m labels (Some req) = select_columns m labels (Some req').
Proof.
  intros m labels req req' H. unfold select_columns.
  rewrite (filter_ext (fun l => mem string_dec l req) (fun l => mem string_dec l req')); auto.
  intros l. unfold mem. destruct (in_dec string_dec l req) as [I|I], (in_dec string_dec l req') as [J|J]; auto.
  - apply H in I. contradiction.
  - apply H in J. contradiction.
Qed.

(** Two columns with the same name: the first is selected twice, then and the second time. *)
Example C137_met_selecting :
  let o := Some 1%Q in let t := Some 2%Q in
  select_columns [[o; t; None]] ["f"; "f"; "g"]%string (Some ["f"]%string) = ([[o; o]], ["f"; "f"]%string) /\
  select_columns [[o; o]] ["f"; "f"]%string (Some ["f"]%string) = ([[o; o]], ["f"; "f"]%string).
Proof. vm_compute. auto. Qed.
(** An instance and a feature are removed, and every instance that is left has a value of the other feature. *)
Example C137_met_removing :
  let o := Some 1%Q in
  remove_missing [[o; None]; [o; o]; [None; None]] [[o]; [o]; [o]] (Some [7; 8; 9]) ["f"; "g"]%string 2 [1; 2; 3] =
    Ok ([[o]; [o]], [[o]; [o]], [1; 2], ["f"%string], Some [7; 8]) /\
  remove_missing [[o]; [o]] [[o]; [o]] (Some [7; 8]) ["f"%string] 1 [1; 2] =
    Ok ([[o]; [o]], [[o]; [o]], [1; 2], ["f"%string], Some [7; 8]).
Proof. vm_compute. auto. Qed.

Print Assumptions C137_selecting_twice.
Print Assumptions C137_every_instance_has_a_performance.
Print Assumptions C137_every_instance_has_a_feature_refuted.
Print Assumptions C137_removing_twice.
Print Assumptions C137_no_feature_removed.
Print Assumptions C137_set_of_names.
