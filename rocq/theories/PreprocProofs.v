(** Lemmas for PreprocProps.v. *)
From Coq Require Import Sorted.
From Verif Require Import Base BaseLemmas Num FilterModel FilterSpec FilterProofs PreprocModel PreprocSpec.
Set Implicit Arguments.

Lemma mem_in x (l : list string) : mem string_dec x l = true <-> In x l.
Proof. unfold mem. destruct (in_dec string_dec x l); intuition congruence. Qed.

Lemma index_of_first labels l : In l labels -> first_labelled labels l (index_of l labels).
Proof.
  induction labels as [|a t IH]; simpl; [tauto|]. intros H.
  destruct (String.eqb_spec a l) as [->|N].
  - split; simpl; auto. intros c' Hc. lia.
  - destruct H as [H|H]; [contradiction|]. destruct (IH H) as [H1 H2].
    split; simpl; auto. intros [|c'] Hc; simpl; [congruence|]. apply H2. lia.
Qed.

Lemma first_labelled_unique labels l c1 c2 :
  first_labelled labels l c1 -> first_labelled labels l c2 -> c1 = c2.
Proof.
  intros [A1 B1] [A2 B2]. destruct (Nat.lt_trichotomy c1 c2) as [H|[H|H]]; auto; exfalso.
  - apply (B2 c1 H A1).
  - apply (B1 c2 H A2).
Qed.

(** strictly increasing position lists *)
Lemma increasing_seq s n : increasing (seq s n).
Proof.
  revert s. induction n as [|n IH]; intro s; simpl; constructor; [apply IH|].
  apply Forall_forall. intros x Hx. apply in_seq in Hx. lia.
Qed.
Lemma same_elements (a b : list nat) : increasing a -> increasing b -> (forall x, In x a <-> In x b) -> a = b.
Proof.
  intros Ha. revert b. induction Ha as [|x a Ha IH Fa]; intros b Hb E.
  - destruct b as [|y b]; auto. destruct (proj2 (E y) (or_introl eq_refl)).
  - destruct Hb as [|y b Hb Fb]; [destruct (proj1 (E x) (or_introl eq_refl))|].
    rewrite Forall_forall in Fa, Fb.
    assert (x = y).
    { destruct (proj1 (E x) (or_introl eq_refl)) as [<-|I]; auto. destruct (proj2 (E y) (or_introl eq_refl)) as [->|J]; auto.
      specialize (Fa _ J). specialize (Fb _ I). lia. }
    subst y. f_equal. apply IH; auto. intros z. split; intros Hz.
    + destruct (proj1 (E z) (or_intror Hz)) as [<-|]; auto. specialize (Fa _ Hz). lia.
    + destruct (proj2 (E z) (or_intror Hz)) as [<-|]; auto. specialize (Fb _ Hz). lia.
Qed.
Lemma increasing_filter p l : increasing l -> increasing (filter p l).
Proof.
  induction 1 as [|a l S IH F]; simpl; [constructor|]. destruct (p a); auto.
  constructor; auto. apply Forall_forall. intros x Hx. apply filter_In in Hx.
  rewrite Forall_forall in F. apply F. tauto.
Qed.
Lemma select_seq_filter mask s : select mask (seq s (length mask)) = filter (fun i => nth (i - s) mask false) (seq s (length mask)).
Proof.
  revert s. induction mask as [|b m IH]; intro s; simpl; auto.
  rewrite IH, Nat.sub_diag.
  assert (E : filter (fun i => nth (i - S s) m false) (seq (S s) (length m)) =
              filter (fun i => nth (i - s) (b :: m) false) (seq (S s) (length m))).
  { apply filter_ext_in. intros a Ha. apply in_seq in Ha.
    replace (a - s) with (S (a - S s)) by lia. auto. }
  rewrite E. destruct b; auto.
Qed.
Lemma positions_filter mask : positions mask = filter (fun i => nth i mask false) (seq 0 (length mask)).
Proof.
  unfold positions. rewrite select_seq_filter. apply filter_ext. intro a. rewrite Nat.sub_0_r. auto.
Qed.
Lemma positions_increasing mask : increasing (positions mask).
Proof. rewrite positions_filter. apply increasing_filter, increasing_seq. Qed.
Lemma positions_in mask i : In i (positions mask) <-> i < length mask /\ nth i mask false = true.
Proof. rewrite positions_filter, filter_In, in_seq. split; intros [H1 H2]; split; auto; lia. Qed.

Lemma positions_all mask : existsb (fun b => b) (map negb mask) = false -> positions mask = seq 0 (length mask).
Proof.
  intro H. rewrite positions_filter. rewrite existsb_false_iff in H.
  rewrite (filter_ext_in (fun i => nth i mask false) (fun _ => true)).
  - generalize (seq 0 (length mask)). intro l. induction l; simpl; f_equal; auto.
  - intros i Hi. apply in_seq in Hi. assert (X : In (negb (nth i mask false)) (map negb mask)).
    { apply in_map, nth_In. lia. }
    apply H in X. destruct (nth i mask false); auto.
Qed.
Lemma take_all A (d : A) l : take_at d l (seq 0 (length l)) = l.
Proof.
  unfold take_at. apply nth_ext with (d := nth (length l) l d) (d' := d).
  - rewrite map_length, seq_length. auto.
  - intros i Hi. rewrite map_length, seq_length in Hi. rewrite map_nth with (f := fun i => nth i l d).
    rewrite seq_nth; auto.
Qed.
(** selecting by a mask, also when the code skips a mask without effect *)
Lemma guarded_select A (d : A) idx l : length l = length idx ->
  (if existsb (fun b => b) idx then select (map negb idx) l else l) = take_at d l (positions (map negb idx)).
Proof.
  intro E. destruct (existsb (fun b => b) idx) eqn:X.
  - rewrite (select_positions (map negb idx) l d) by (rewrite map_length; auto). auto.
  - rewrite positions_all, map_length, <- E, take_all; auto.
    rewrite map_map. rewrite existsb_false_iff in X. apply existsb_false_iff. intros b Hb.
    apply in_map_iff in Hb. destruct Hb as (b' & <- & Hb). apply X in Hb. subst. auto.
Qed.

Lemma nth_map_lt A B (f : A -> B) l i d d' : i < length l -> nth i (map f l) d = f (nth i l d').
Proof.
  intro H. rewrite nth_indep with (d' := f d') by (rewrite map_length; auto). apply map_nth.
Qed.

Lemma forallb_isnan r : forallb isnan r = true <-> Forall (fun v : num => v = None) r.
Proof.
  rewrite forallb_forall, Forall_forall. split; intros H v Hv; specialize (H v Hv).
  - destruct v; auto; discriminate.
  - subst. auto.
Qed.

Section Remove.
  Variables L S : Type.
  Variables (dl : L) (ds : S).

  Lemma remove_missing_spec x y s feat_labels width inst_labels n wy :
    table n width x -> table n wy y -> length inst_labels = n -> length feat_labels = width ->
    (forall l, s = Some l -> length l = n) ->
    exists rows cols,
      increasing rows /\ (forall i, In i rows <-> i < n /\ ~ empty_instance x y i) /\
      increasing cols /\ (forall c, In c cols <-> c < width /\ ~ (rows <> [] /\ missing_often x rows c)) /\
      remove_missing x y s feat_labels width inst_labels =
        if Nat.eqb (length rows) 0 then Err EZeroDiv
        else Ok (subtable x rows cols, take_at [] y rows, take_at dl inst_labels rows,
                 take_at ""%string feat_labels cols, option_map (fun l => take_at ds l rows) s).
  Proof.
    intros [Lx Wx] [Ly Wy] Li Lf Ls.
    set (idx := map (fun p => forallb isnan (fst p) || forallb isnan (snd p)) (combine x y)).
    assert (Lidx : length idx = n).
    { unfold idx. rewrite map_length, combine_length. lia. }
    set (rows := positions (map negb idx)).
    assert (Lrows : forall i, In i rows -> i < n).
    { intros i H. apply positions_in in H. rewrite map_length in H. lia. }
    assert (Hrows : forall i, In i rows <-> i < n /\ ~ empty_instance x y i).
    { intro i. unfold rows. rewrite positions_in, map_length, Lidx.
      split; intros [H1 H2]; split; auto.
      - rewrite nth_map_lt with (d' := false) in H2 by lia. apply negb_true_iff in H2. unfold idx in H2.
        rewrite nth_map_lt with (d' := ([], [])) in H2 by (rewrite combine_length; lia).
        rewrite combine_nth in H2 by lia. simpl in H2. unfold empty_instance.
        apply orb_false_iff in H2. rewrite <- !not_true_iff_false, !forallb_isnan in H2. tauto.
      - rewrite nth_map_lt with (d' := false) by lia. apply negb_true_iff. unfold idx.
        rewrite nth_map_lt with (d' := ([], [])) by (rewrite combine_length; lia).
        rewrite combine_nth by lia. simpl. unfold empty_instance in H2.
        apply orb_false_iff. rewrite <- !not_true_iff_false, !forallb_isnan. tauto. }
    set (x1 := take_at [] x rows).
    assert (L1 : length x1 = length rows) by (unfold x1, take_at; apply map_length).
    set (drop := map (fun c => Nat.leb (length x1) (5 * count isnan (column None x1 c)) && negb (Nat.eqb (length x1) 0)) (seq 0 width)).
    assert (Ldrop : length drop = width) by (unfold drop; rewrite map_length, seq_length; auto).
    set (cols := positions (map negb drop)).
    assert (Cnt : forall c, count isnan (column None x1 c) = length (filter (fun i => isnan (cell x i c)) rows)).
    { intro c. unfold count, column, x1, take_at. rewrite map_map. generalize rows. intro l0.
      induction l0 as [|i l IH]; simpl; auto.
      change (isnan (nth c (nth i x []) None)) with (isnan (cell x i c)). destruct (isnan (cell x i c)); simpl; auto. }
    exists rows, cols.
    split; [apply positions_increasing|]. split; [exact Hrows|]. split; [apply positions_increasing|].
    split.
    { intro c. unfold cols. rewrite positions_in, map_length, Ldrop.
      split; intros [H1 H2]; split; auto.
      - rewrite nth_map_lt with (d' := false) in H2 by lia. apply negb_true_iff in H2. unfold drop in H2.
        rewrite nth_map_lt with (d' := 0) in H2 by (rewrite seq_length; lia). rewrite seq_nth in H2 by lia.
        simpl plus in H2. rewrite L1, Cnt in H2. intros [Hne Hm]. unfold missing_often in Hm.
        apply Nat.leb_le in Hm. rewrite Hm in H2. destruct rows; [congruence|]. discriminate.
      - rewrite nth_map_lt with (d' := false) by lia. apply negb_true_iff. unfold drop.
        rewrite nth_map_lt with (d' := 0) by (rewrite seq_length; lia). rewrite seq_nth by lia.
        simpl plus. rewrite L1, Cnt. unfold missing_often in H2. apply andb_false_iff.
        destruct rows as [|i l]; [auto|]. left. apply Nat.leb_gt. apply Nat.nle_gt. intro X. apply H2.
        split; [discriminate|exact X]. }
    unfold remove_missing. fold idx.
    assert (Es : (if existsb (fun b => b) idx then option_map (select (map negb idx)) s else s)
                 = option_map (fun l => take_at ds l rows) s).
    { destruct s as [l|]; simpl; [|destruct (existsb _ idx); auto].
      unfold rows. rewrite <- (@guarded_select S ds idx l) by (rewrite Lidx; auto). destruct (existsb _ idx); auto. }
    pose proof (@guarded_select _ [] idx x ltac:(lia)) as Ex.
    pose proof (@guarded_select _ [] idx y ltac:(lia)) as Ey.
    pose proof (@guarded_select _ dl idx inst_labels ltac:(lia)) as Ei.
    fold rows in Ex, Ey, Ei. fold x1 in Ex.
    assert (E : (if existsb (fun b => b) idx
         then (select (map negb idx) x, select (map negb idx) y, select (map negb idx) inst_labels,
               option_map (select (map negb idx)) s)
         else (x, y, inst_labels, s)) =
         (x1, take_at [] y rows, take_at dl inst_labels rows, option_map (fun l => take_at ds l rows) s)).
    { destruct (existsb (fun b => b) idx); congruence. }
    rewrite E. clear E. cbv zeta. fold drop.
    assert (Ec : (if existsb (fun b => b) drop
       then (map (select (map negb drop)) x1, select (map negb drop) feat_labels)
       else (x1, feat_labels)) = (subtable x rows cols, take_at ""%string feat_labels cols)).
    { pose proof (@guarded_select _ ""%string drop feat_labels ltac:(lia)) as Ef. fold cols in Ef.
      assert (Em : (if existsb (fun b => b) drop then map (select (map negb drop)) x1 else x1)
                   = subtable x rows cols).
      { unfold x1, take_at, subtable.
        transitivity (map (fun i => if existsb (fun b => b) drop then select (map negb drop) (nth i x []) else nth i x []) rows).
        - destruct (existsb _ drop); [rewrite map_map|]; auto.
        - apply map_ext_in. intros i Hi. etransitivity; [apply (@guarded_select num None drop)|reflexivity].
          rewrite Ldrop. rewrite Forall_forall in Wx. apply Wx. apply nth_In. rewrite Lx. auto. }
      destruct (existsb _ drop); congruence. }
    rewrite Ec, L1. destruct (Nat.eqb (length rows) 0); auto.
  Qed.
End Remove.

Lemma select_columns_spec m labels req n :
  table n (length labels) m ->
  exists cols, 
    select_columns m labels req = (subtable m (seq 0 n) cols, take_at ""%string labels cols) /\
    Forall (fun c => c < length labels) cols /\
    match req with
    | Some names =>
        if existsb (fun l => mem string_dec l names) labels
        then take_at ""%string labels cols = filter (fun l => mem string_dec l names) labels /\
             Forall (fun c => first_labelled labels (nth c labels ""%string) c) cols
        else cols = seq 0 (length labels)
    | None => cols = seq 0 (length labels)
    end.
Proof.
  intros [Lm Wm].
  assert (All : (m, labels) = (subtable m (seq 0 n) (seq 0 (length labels)), take_at ""%string labels (seq 0 (length labels)))).
  { rewrite take_all. f_equal. unfold subtable. rewrite <- (take_all [] m) at 1. unfold take_at. rewrite Lm.
    apply map_ext_in. intros i Hi. apply in_seq in Hi. rewrite <- (take_all None (nth i m [])) at 1.
    unfold take_at, cell. f_equal. f_equal. rewrite Forall_forall in Wm. apply Wm, nth_In. lia. }
  assert (Fall : Forall (fun c => c < length labels) (seq 0 (length labels))).
  { apply Forall_forall. intros c Hc. apply in_seq in Hc. lia. }
  destruct req as [names|]; simpl.
  2:{ exists (seq 0 (length labels)). auto. }
  set (p := fun l => mem string_dec l names).
  destruct (existsb p labels) eqn:X.
  - assert (Ne : nonempty (filter p labels) = true).
    { apply existsb_exists in X. destruct X as (l & H1 & H2). apply nonempty_true. exists l. apply filter_In. auto. }
    rewrite Ne. exists (map (fun l => index_of l labels) (filter p labels)).
    assert (Hin : forall l, In l (filter p labels) -> In l labels) by (intros l H; apply filter_In in H; tauto).
    assert (Lb : forall l, In l labels -> index_of l labels < length labels /\ nth (index_of l labels) labels ""%string = l).
    { intros l H. destruct (index_of_first labels l H) as [H1 _]. split.
      - apply nth_error_Some. congruence.
      - apply nth_error_nth. auto. }
    assert (E2 : take_at ""%string labels (map (fun l => index_of l labels) (filter p labels)) = filter p labels).
    { unfold take_at. rewrite map_map. rewrite <- map_id. apply map_ext_in. intros l H. apply Lb. auto. }
    split; [|split; [|split]].
    + rewrite E2. f_equal. unfold subtable. rewrite <- (take_all [] m) at 1. unfold take_at. rewrite Lm, map_map.
      reflexivity.
    + apply Forall_forall. intros c Hc. apply in_map_iff in Hc. destruct Hc as (l & <- & H). apply Lb. auto.
    + exact E2.
    + apply Forall_forall. intros c Hc. apply in_map_iff in Hc. destruct Hc as (l & <- & H).
      rewrite (proj2 (Lb l (Hin l H))). apply index_of_first. auto.
  - assert (Ne : filter p labels = []).
    { destruct (filter p labels) as [|l t] eqn:F; auto. rewrite existsb_false_iff in X.
      assert (In l (filter p labels)) by (rewrite F; left; auto). apply filter_In in H. destruct H as [H1 H2].
      apply X in H1. congruence. }
    rewrite Ne. simpl. exists (seq 0 (length labels)). auto.
Qed.

Lemma cell_sub m n c1 i c : i < n -> c < length c1 ->
  cell (subtable m (seq 0 n) c1) i c = cell m i (nth c c1 0).
Proof.
  intros Hi Hc. unfold cell at 1. unfold subtable.
  rewrite nth_map_lt with (d' := 0) by (rewrite seq_length; auto). rewrite seq_nth by auto.
  rewrite nth_map_lt with (d' := 0) by auto. auto.
Qed.
Lemma subtable_sub m n c1 rows cols : (forall i, In i rows -> i < n) -> (forall c, In c cols -> c < length c1) ->
  subtable (subtable m (seq 0 n) c1) rows cols = subtable m rows (take_at 0 c1 cols).
Proof.
  intros Hr Hc. unfold subtable at 1. unfold subtable at 2. apply map_ext_in. intros i Hi.
  unfold take_at. rewrite map_map. apply map_ext_in. intros c Hcc. apply cell_sub; auto.
Qed.
Lemma take_sub A (d : A) l c1 cols : (forall c, In c cols -> c < length c1) ->
  take_at d (take_at d l c1) cols = take_at d l (take_at 0 c1 cols).
Proof.
  intro Hc. unfold take_at. rewrite map_map. apply map_ext_in. intros c H.
  rewrite nth_map_lt with (d' := 0) by auto. auto.
Qed.
Lemma table_sub m n c1 : table n (length c1) (subtable m (seq 0 n) c1).
Proof.
  split; [unfold subtable; rewrite map_length, seq_length; auto|].
  apply Forall_forall. intros r Hr. apply in_map_iff in Hr. destruct Hr as (i & <- & _).
  apply map_length.
Qed.
Lemma take_rows m n c1 rows : (forall i, In i rows -> i < n) ->
  take_at [] (subtable m (seq 0 n) c1) rows = subtable m rows c1.
Proof.
  intro H. unfold take_at, subtable. apply map_ext_in. intros i Hi.
  rewrite nth_map_lt with (d' := 0) by (rewrite seq_length; auto). rewrite seq_nth; auto.
Qed.

Section Run.
  Variables L S : Type.
  Variables (dl : L) (ds : S).

  Lemma preproc_run_spec features algorithms fnames anames feats algos sources labels n :
    table n (length fnames) features -> table n (length anames) algorithms ->
    length labels = n -> (forall l, sources = Some l -> length l = n) ->
    forall o : preproc_out L S,
    preproc_run features algorithms fnames anames feats algos sources labels = Ok o ->
    exists rows fcols acols,
      increasing rows /\ rows <> [] /\ (forall i, In i rows -> i < n) /\
      Forall (fun c => c < length fnames) fcols /\ Forall (fun c => c < length anames) acols /\
      p_x o = subtable features rows fcols /\ p_feat o = take_at ""%string fnames fcols /\
      p_y o = subtable algorithms rows acols /\ p_algo o = take_at ""%string anames acols /\
      p_inst o = take_at dl labels rows /\ p_s o = option_map (fun l => take_at ds l rows) sources /\
      p_x_raw o = p_x o /\ p_y_raw o = p_y o /\
      prepared features algorithms fnames anames feats algos n rows fcols acols.
  Proof.
    intros Tf Ta Ll Ls o. unfold preproc_run.
    destruct (@select_columns_spec features fnames feats n Tf) as (c1 & E1 & F1 & X1).
    destruct (@select_columns_spec algorithms anames algos n Ta) as (c2 & E2 & F2 & X2).
    rewrite E1, E2.
    destruct (@remove_missing_spec L S dl ds (subtable features (seq 0 n) c1) (subtable algorithms (seq 0 n) c2)
      sources (take_at ""%string fnames c1) (length c1) labels n (length c2)) as (rows & cols & H1 & H2 & H3 & H4 & H5);
      auto using table_sub; try (unfold take_at; apply map_length).
    assert (Lt : length (take_at ""%string fnames c1) = length c1) by (unfold take_at; apply map_length).
    rewrite Lt, H5. destruct (Nat.eqb_spec (length rows) 0) as [E|E]; [discriminate|].
    intro H. injection H as <-. simpl.
    assert (Hr : forall i, In i rows -> i < n) by (intros i Hi; apply H2 in Hi; tauto).
    assert (Hc : forall c, In c cols -> c < length c1) by (intros c Hi; apply H4 in Hi; tauto).
    exists rows, (take_at 0 c1 cols), c2.
    split; auto. split; [intros ->; apply E; auto|]. split; auto.
    split. { apply Forall_forall. intros c Hi. unfold take_at in Hi. apply in_map_iff in Hi.
             destruct Hi as (k & <- & Hk). rewrite Forall_forall in F1. apply F1, nth_In. auto. }
    split; auto. split; [apply subtable_sub; auto|]. split; [apply take_sub; auto|].
    split; [apply take_rows; auto|]. do 5 (split; [auto; fail|]). split; [exact X2|]. exists c1. split; [exact X1|].
    assert (Row : forall m c i, i < n -> nth i (subtable m (seq 0 n) c) [] = map (cell m i) c).
    { intros m c i Hi. unfold subtable. rewrite nth_map_lt with (d' := 0) by (rewrite seq_length; auto). rewrite seq_nth by auto. auto. }
    assert (Some_value : forall m c i, ~ Forall (fun v : num => v = None) (map (cell m i) c) <-> exists k, In k c /\ cell m i k <> None).
    { intros m c i. rewrite Forall_map. split.
      - intro N. induction c as [|k c IH]; [exfalso; apply N; constructor|]. destruct (cell m i k) eqn:V.
        + exists k. split; [left; auto|congruence].
        + destruct IH as (k' & I & V'); [intro F; apply N; constructor; auto|]. exists k'. split; [right; auto|auto].
      - intros (k & I & V) F. rewrite Forall_forall in F. auto. }
    split.
    - intro i. rewrite H2. unfold empty_instance. split.
      + intros (Hi & N). rewrite !Row in N by auto. split; auto. rewrite <- !Some_value. tauto.
      + intros (Hi & N1 & N2). rewrite <- Some_value in N1, N2. split; auto. rewrite !Row by auto. tauto.
    - exists cols. split; auto. split; auto. intro k. rewrite H4.
      assert (M : k < length c1 -> missing_often (subtable features (seq 0 n) c1) rows k <-> missing_often features rows (nth k c1 0)).
      { intro Hk. unfold missing_often. replace (filter (fun i => isnan (cell (subtable features (seq 0 n) c1) i k)) rows)
          with (filter (fun i => isnan (cell features i (nth k c1 0))) rows); [tauto|].
        apply filter_ext_in. intros i Hi. rewrite cell_sub; auto. }
      split; intros (Hk & N); (split; auto); rewrite <- M in * by auto; [|tauto]. intro X. apply N. split; auto. intros ->. apply E. auto.
  Qed.
End Run.
