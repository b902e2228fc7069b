(** Property C112: what the rows and columns of the results of the default pipeline stand for. *)
From Coq Require Import Sorted Lqa.
From Verif Require Import BaseLemmas Mat Ext PreprocModel PreprocSpec PreprocProofs PreprocProps PrelimModel PrelimSpec PrelimProofs PrelimProps
  HandOnModel EndModel EndProofs.
From Verif Require SiftedModel SiftedProofs SiftedProps PilotModel PythiaModel PythiaProofs.
Set Implicit Arguments.
Open Scope nat_scope.
Open Scope list_scope.

(** The tables of the metadata fit their names and labels. *)
Definition consistent {L S} (t : table_of L S) (n : nat) : Prop :=
  table n (length (t_feature_names t)) (t_features t) /\ table n (length (t_algorithm_names t)) (t_algorithms t) /\
  length (t_labels t) = n /\ forall l, t_sources t = Some l -> length l = n.

(** No performance that PRELIM returns is infinite. *)
Theorem C112_no_infinite_performance :
  forall o tr n rows col v, In col (prelim_y o tr n rows) -> In v col -> v <> PInf /\ v <> NInf.
Proof.
  intros o tr n rows col v Hc Hv. assert (X : exists a, v = of_num a); [|destruct X as ([q|] & ->); split; discriminate].
  unfold prelim_y in Hc. destruct (norm o).
  - apply in_map_iff in Hc. destruct Hc as (c & <- & _). apply in_map_iff in Hv. destruct Hv as (a & <- & _). eauto.
  - unfold columns_of in Hc. apply in_map_iff in Hc. destruct Hc as (j & <- & _). apply in_map_iff in Hv. destruct Hv as (r & <- & Hr).
    apply in_map_iff in Hr. destruct Hr as (ro & <- & Hr). apply in_map_iff in Hr. destruct Hr as (row & <- & _).
    destruct (Nat.lt_ge_cases j (length (r_y (prelim_row o row)))) as [Hj|Hj].
    + apply (@row_y_not_infinite o row). apply nth_In. auto.
    + rewrite nth_overflow by auto. exists None. reflexivity.
Qed.

Section Whole.
  Variables L S : Type.
  Variables (dl : L) (ds : S).
  Variable transform : list Q -> list num.
  Variable split : option (list nat).
  Variable file : list Z.
  Variable pearson : list (Q * Q) -> num * num.
  Variable order : list (list Q) -> nat -> list nat.
  Variable sil : list nat -> list Q.
  Variable km_labels : list nat -> list nat.
  Variable best : list nat -> list Z.
  Variable bfgs : list num -> list num * num.
  Variable quality : list (list num) -> res PilotModel.pierr num.
  Variable f16 : num -> num.
  Variable random : nat -> nat -> list (list num).
  Variable fit : list (list num) -> nat -> PythiaModel.hyper -> list bool -> list num -> res PythiaModel.pyerr PythiaModel.svm_res.
  Variable round3 : num -> num.
  Variable root : num -> num.
  Notation build := (build transform split file pearson order sil km_labels best bfgs quality f16 random fit round3 root).

  (** If the stages up to PYTHIA complete, there are instances [kept] (those with data), among them
      [rows] (those PRELIM selects), features [cols] among [cols0], and algorithms [acols] such that row k
      of every array belongs to instance rows[k] of the metadata, column c of x to the feature cols[c], of
      x_raw to cols0[c], column j of the performances to the algorithm acols[j]. *)
  Theorem C112_rows_and_columns :
    forall (t : table_of L S) (o : endopts) (n : nat) (out : end_out L S), consistent t n -> build t o = Ok out ->
      exists kept rows cols0 cols acols,
        increasing kept /\ (forall i, In i kept -> i < n) /\ increasing rows /\ (forall i, In i rows -> In i kept) /\
        (forall f, In f cols0 -> f < length (t_feature_names t)) /\ (forall f, In f cols -> In f cols0) /\
        (forall a, In a acols -> a < length (t_algorithm_names t)) /\
        (* names *)
        e_feat out = take_at ""%string (t_feature_names t) cols /\ e_algo out = take_at ""%string (t_algorithm_names t) acols /\
        d_labels (e_data out) = take_at dl (t_labels t) kept /\
        d_s (e_data out) = option_map (fun l => take_at ds l rows) (t_sources t) /\
        (* raw data *)
        d_x_raw (e_data out) = subtable (t_features t) rows cols0 /\ d_y_raw (e_data out) = map (map (raw_after (o_prelim o))) (subtable (t_algorithms t) rows acols) /\
        (* processed features: each value comes from its column among the instances kept *)
        table (length rows) (length cols) (d_x (e_data out)) /\
        (forall k i pos c f, nth_error rows k = Some i -> nth_error kept pos = Some i -> nth_error cols c = Some f ->
           cell (d_x (e_data out)) k c =
           nth pos (feature_column (o_prelim o) transform (map (fun i => cell (t_features t) i f) kept)) None) /\
        (* processed performances *)
        table (length rows) (length acols) (d_y (e_data out)) /\
        (forall k i pos j, nth_error rows k = Some i -> nth_error kept pos = Some i -> j < length acols ->
           cell (d_y (e_data out)) k j =
           to_num (nth pos (nth j (prelim_y (o_prelim o) transform (length acols) (subtable (t_algorithms t) kept acols)) []) ENaN)) /\
        (* PRELIM's verdicts: those on the instance's own performances *)
        (let verdict {A} (get : row_out -> A) := map (fun i => get (prelim_row (o_prelim o) (map (cell (t_algorithms t) i) acols))) rows in
         d_bin (e_data out) = verdict r_bin /\ d_beta (e_data out) = verdict r_beta /\ d_good (e_data out) = verdict r_good /\
         d_best (e_data out) = verdict r_best /\ d_p (e_data out) = verdict r_p) /\
        (* the projection *)
        PilotModel.po_z (e_pilot out) = map (mulv (PilotModel.po_a (e_pilot out))) (d_x (e_data out)) /\
        (* the predictions *)
        table (length rows) (length acols) (PythiaModel.o_y_hat (e_pythia out)) /\
        length (PythiaModel.o_selection0 (e_pythia out)) = length rows /\ length (PythiaModel.o_selection1 (e_pythia out)) = length rows /\
        (* the features kept are some of those considered; the indices reported are those of all of these *)
        (exists sv, increasing sv /\ (forall q, In q sv -> q < length cols0) /\ cols = take_at 0 cols0 sv) /\
        e_idx out = seq 0 (length cols0) /\
        (* which instances and columns: *)
        prepared (t_features t) (t_algorithms t) (t_feature_names t) (t_algorithm_names t) (o_feats o) (o_algos o) n kept cols0 acols /\
        (small_scale_flag (o_sel o) = false -> file_idx_flag (o_sel o) = false -> density_flag (o_sel o) = false -> rows = kept).
  Proof.
    intros t o n out (Tf & Ta & Ll & Ls) H. unfold EndModel.build in H.
    destruct (preproc_run _ _ _ _ _ _ _ _) as [p|e] eqn:EP; [|discriminate].
    destruct (C36_stage_output_aligned dl ds _ _ _ _ _ Tf Ta Ll Ls EP)
      as (kept & fcols & acols & Ik & Nk & Bk & Bf & Ba & Ex & Ef & Ey & Ea & Ei & Es & Exr & Eyr & Pr).
    set (nf := length (p_feat p)) in *. set (na := length (p_algo p)) in *.
    assert (Lf : nf = length fcols) by (unfold nf; rewrite Ef; unfold take_at; apply map_length).
    assert (La : na = length acols) by (unfold na; rewrite Ea; unfold take_at; apply map_length).
    set (d0 := prelim (o_prelim o) transform nf na (p_inst p) (p_s p) (p_x p) (p_y p) (p_x_raw p) (p_y_raw p)) in *.
    assert (Lx : length (p_x p) = length kept) by (rewrite Ex; unfold subtable; apply map_length).
    assert (Ly : length (p_y p) = length kept) by (rewrite Ey; unfold subtable; apply map_length).
    assert (Sz : of_size (length kept) d0).
    { unfold of_size, d0, prelim. cbn [d_x d_y d_x_raw d_y_raw d_bin d_beta d_good d_best d_p d_labels d_s].
      rewrite Exr, Eyr, !map_length, !rows_of_length, Lx, Ly, Ei, Es. unfold take_at. rewrite map_length.
      repeat (split; [auto; fail|]). destruct (t_sources t); simpl; rewrite ?map_length; auto. }
    destruct (filter_insts (o_sel o) split file nf na d0) as [[[m d1] dense]|e] eqn:EF; [|discriminate].
    destruct (C40_one_mask_for_everything (o_sel o) split file nf na Sz EF) as (Lm & idx & Ii & Mi & R & _).
    assert (Bi : forall q, In q idx -> q < length kept) by (intros q Hq; apply Mi in Hq; lia).
    destruct R as (Rx & Ry & Rxr & Ryr & Rb & Rbe & Rg & Rbs & Rp & Rl & Rs).
    unfold sifted_run in H.
    destruct (SiftedModel.sifted _ _ _ _ _ _ _ _ _ _ _ _ _ _) as [so|e] eqn:ES; [|discriminate].
    cbn [d_x d_y d_x_raw d_y_raw d_bin d_beta d_good d_best d_p d_labels d_s] in H.
    destruct (PilotModel.pilot _ _ _ _ _ _ _ _ _ _) as [po|e] eqn:EPi; [|discriminate].
    destruct (PythiaModel.pythia _ _ _ _ _ _ _ _ _ _) as [py|e] eqn:EPy; [|discriminate].
    injection H as <-. cbn [e_feat e_algo e_idx e_data e_pilot e_pythia d_x d_y d_x_raw d_y_raw d_bin d_beta d_good d_best d_p d_labels d_s].
    unfold sifted_inputs in *. cbn [d_x d_y d_x_raw d_y_raw d_bin d_beta d_good d_best d_p d_labels d_s] in *.
    assert (Xd1 : length (d_x d1) = length idx) by (apply restricted_length in Rx; auto).
    destruct (SiftedProps.C64_columns_labels_and_indices_agree _ _ _ _ _ _ _ _ _ _ _ _ _ _ ES) as (Isv & Bsv & Lsx & Lsl & Csv & Eidx & _).
    set (sv := SiftedModel.so_selvars so) in *. fold nf in Bsv.
    assert (Wd0 : forall k, k < length kept -> nth k (d_x d0) [] = map (fun c => nth k c None) (map (feature_column (o_prelim o) transform) (columns_of None nf (p_x p)))).
    { intros k Hk. unfold d0, prelim. cbn [d_x]. rewrite Lx. apply rows_of_nth. auto. }
    assert (Wx : Forall (fun r => length r = length (p_feat p)) (d_x d1)).
    { apply Forall_forall. intros r Hr. apply In_nth with (d := []) in Hr. destruct Hr as (k & Hk & <-). rewrite Xd1 in Hk.
      rewrite (restricted_nth [] Rx Hk), Wd0 by (apply Bi, nth_In; auto). rewrite !map_length, columns_of_length. auto. }
    assert (Wsv := sifted_width _ _ _ _ _ _ _ _ _ _ _ _ _ ES Wx). fold sv in Wsv.
    exists kept, (take_at 0 kept idx), fcols, (take_at 0 fcols sv), acols.
    assert (Lr : length (take_at 0 kept idx) = length idx) by (unfold take_at; apply map_length).
    assert (Lc : length (take_at 0 fcols sv) = length sv) by (unfold take_at; apply map_length).
    split; auto. split; auto. split; [apply increasing_take; auto|]. split; [intros i Hi; eapply in_take; eauto|].
    rewrite Forall_forall in Bf, Ba. split; auto. split; [intros f Hf; eapply in_take; eauto; intros q Hq; rewrite <- Lf; auto|]. split; auto.
    split.
    { apply nth_ext with (d := ""%string) (d' := ""%string); [unfold take_at; rewrite !map_length; auto|].
      intros c Hc. rewrite Lsl in Hc. destruct (nth_error sv c) as [f|] eqn:Ec; [|apply nth_error_None in Ec; lia].
      destruct (Csv c f Ec) as [E1 _]. assert (Hf : f < nf) by (apply Bsv; eapply nth_error_In; eauto).
      rewrite (nth_error_nth' (p_feat p) ""%string) in E1 by auto. erewrite nth_error_nth by exact E1.
      symmetry. rewrite Ef. unfold take_at at 1 2. apply nth_error_nth. rewrite nth_error_map, nth_error_map, Ec. simpl. f_equal.
      symmetry. unfold take_at. rewrite (nth_indep _ ""%string (nth 0 (t_feature_names t) ""%string)) by (rewrite map_length, <- Lf; auto).
      exact (map_nth (fun i => nth i (t_feature_names t) ""%string) fcols 0 f). }
    split; auto. split; auto.
    split.
    { clear - Rs Es Bi Bk Ls. change (d_s d0) with (p_s p) in Rs. rewrite Es in Rs. destruct (t_sources t) as [l|]; simpl in *.
      - destruct (d_s d1) as [l'|]; [|destruct Rs]. f_equal. apply (restricted_map (fun i => nth i l ds)); auto.
      - destruct (d_s d1); [destruct Rs|auto]. }
    split. { change (d_x_raw d0) with (p_x_raw p) in Rxr. rewrite Exr, Ex, subtable_map in Rxr. apply (restricted_map _ _ Rxr Bi). }
    split. { change (d_y_raw d0) with (map r_y_inplace (map (prelim_row (o_prelim o)) (p_y_raw p))) in Ryr.
      rewrite Eyr, Ey, !subtable_map in *. rewrite !map_map in *. rewrite (restricted_map _ _ Ryr Bi). apply map_ext. intro i. apply inplace_raw. }
    split. { split; [rewrite Lsx, Lr; auto|]. rewrite Lc. auto. }
    split.
    { intros k i pos c f Hk Hp Hc. unfold take_at in Hk, Hc. rewrite nth_error_map in Hk, Hc.
      destruct (nth_error idx k) as [q|] eqn:Ek; [|discriminate]. destruct (nth_error sv c) as [f'|] eqn:Ec; [|discriminate].
      simpl in Hk, Hc. injection Hk as Hk. injection Hc as Hc. assert (Kk : k < length idx) by (apply nth_error_Some; congruence).
      assert (Kq : q < length kept) by (apply Bi; eapply nth_error_In; eauto).
      assert (Kp : pos < length kept) by (apply nth_error_Some; congruence).
      assert (Eq : q = pos).
      { assert (X := nth_error_nth _ _ 0 Hp). destruct (Nat.lt_trichotomy q pos) as [G|[G|G]]; auto; exfalso;
          [assert (Y := sorted_nth Ik G Kp)|assert (Y := sorted_nth Ik G Kq)]; lia. }
      subst q. destruct (Csv c f' Ec) as [_ E2]. rewrite E2 by lia. unfold cell at 1.
      rewrite (restricted_nth [] Rx Kk), (nth_error_nth _ _ 0 Ek), Wd0 by auto.
      assert (Hf' : f' < nf) by (apply Bsv; eapply nth_error_In; eauto).
      rewrite (@nth_map_lt _ num _ _ _ None []) by (rewrite map_length, columns_of_length; auto).
      rewrite (@nth_map_lt _ _ _ _ _ [] []) by (rewrite columns_of_length; auto). rewrite columns_of_nth by auto. do 2 f_equal.
      rewrite Ex. unfold subtable. rewrite map_map. apply map_ext. intro a. rewrite <- Hc.
      rewrite (@nth_map_lt _ num _ _ _ None 0) by (rewrite <- Lf; auto). auto. }
    assert (Ld0 : forall k, k < length kept -> nth k (d_y d0) [] = map to_num (map (fun c => nth k c ENaN) (prelim_y (o_prelim o) transform na (p_y p)))).
    { intros k Hk. unfold d0, prelim. cbn [d_y]. rewrite Ly. rewrite (@nth_map_lt _ _ _ _ _ [] []) by (rewrite rows_of_length; auto). rewrite rows_of_nth; auto. }
    assert (Lpy : length (prelim_y (o_prelim o) transform na (p_y p)) = length acols).
    { unfold prelim_y. destruct (norm (o_prelim o)); unfold normalise_perf; rewrite ?map_length, columns_of_length; auto. }
    assert (Lyd : length (d_y d1) = length idx) by (apply restricted_length in Ry; auto).
    split.
    { split; [congruence|]. apply Forall_forall. intros r Hr. apply In_nth with (d := []) in Hr. destruct Hr as (k & Hk & <-).
      rewrite Lyd in Hk. rewrite (restricted_nth [] Ry Hk), Ld0 by (apply Bi, nth_In; auto). rewrite !map_length. auto. }
    split.
    { intros k i pos j Hk Hp Hj. unfold take_at in Hk. rewrite nth_error_map in Hk.
      destruct (nth_error idx k) as [q|] eqn:Ek; [|discriminate].
      simpl in Hk. injection Hk as Hk. assert (Kk : k < length idx) by (apply nth_error_Some; congruence).
      assert (Kq : q < length kept) by (apply Bi; eapply nth_error_In; eauto).
      assert (Kp : pos < length kept) by (apply nth_error_Some; congruence).
      assert (Eq : q = pos).
      { assert (X := nth_error_nth _ _ 0 Hp). destruct (Nat.lt_trichotomy q pos) as [G|[G|G]]; auto; exfalso;
          [assert (Y := sorted_nth Ik G Kp)|assert (Y := sorted_nth Ik G Kq)]; lia. }
      subst q. unfold cell. rewrite (restricted_nth [] Ry Kk), (nth_error_nth _ _ 0 Ek), Ld0 by auto. rewrite map_map.
      rewrite (@nth_map_lt _ num _ _ _ None []) by lia. rewrite Ey, La. auto. }
    split.
    { cbv zeta. assert (V : forall A (get : row_out -> A), map get (map (prelim_row (o_prelim o)) (p_y p)) =
        map (fun i => get (prelim_row (o_prelim o) (map (cell (t_algorithms t) i) acols))) kept).
      { intros A get. rewrite Ey. unfold subtable. rewrite !map_map. auto. }
      unfold d0, prelim in Rb, Rbe, Rg, Rbs, Rp. cbn [d_bin d_beta d_good d_best d_p] in Rb, Rbe, Rg, Rbs, Rp. rewrite V in Rb, Rbe, Rg, Rbs, Rp.
      split; [apply (restricted_map _ _ Rb Bi)|]. split; [apply (restricted_map _ _ Rbe Bi)|]. split; [apply (restricted_map _ _ Rg Bi)|].
      split; [apply (restricted_map _ _ Rbs Bi)|apply (restricted_map _ _ Rp Bi)]. }
    split.
    { clear - EPi. unfold PilotModel.pilot in EPi. destruct (negb _); [discriminate|]. destruct (PilotModel.precalculated _ _ _); [discriminate|].
      destruct (PilotModel.numerical_solve _ _ _ _ _ _ _) as [st|]; [|discriminate]. destruct (PilotModel.s_idx st); [|discriminate].
      destruct (negb _); [discriminate|]. injection EPi as <-. reflexivity. }
    assert (Lb : length (d_bin d1) = length idx) by (apply restricted_length in Rb; auto).
    destruct (PythiaProofs.pythia_inv _ _ _ _ _ _ _ _ _ _ EPy) as (_ & _ & w & rs & _ & _ & Lrs & _ & Yh & _ & _ & _ & _ & _ & S0 & S1 & _).
    assert (LY : length (PythiaModel.o_y_hat py) = length idx) by (rewrite Yh, PythiaProofs.of_columns_length; auto).
    split.
    { split; [congruence|]. rewrite Yh. apply Forall_forall. intros r Hr. unfold PythiaModel.of_columns in Hr. apply in_map_iff in Hr.
      destruct Hr as (q & <- & _). rewrite !map_length. congruence. }
    rewrite S0, S1, !map_length. split; [congruence|]. split; [congruence|]. split.
    - exists sv. rewrite <- Lf. auto.
    - split; [rewrite Eidx; fold nf; congruence|]. split; auto. intros N1 N2 N3.
      destruct (C40_which_instances (o_sel o) split file nf na Sz EF) as (_ & _ & _ & W).
      assert (Em : m = repeat true (length kept)) by (apply W; intros (X & _); congruence).
      assert (Eq : idx = seq 0 (length kept)).
      { apply same_elements; auto; [apply increasing_seq|]. intro i. rewrite Mi, in_seq, Em. split; [lia|]. intros (_ & Hi). split; auto.
        rewrite (nth_indep _ false true) by (rewrite repeat_length; auto). apply nth_repeat. }
      rewrite Eq. apply take_all.
  Qed.

  (** In terms of the metadata: with an absolute threshold, algorithm j is recorded as good on row k iff
      the performance of that algorithm on that instance of the metadata is at least (at most) epsilon. *)
  Theorem C112_good_in_terms_of_the_metadata :
    forall (t : table_of L S) (o : endopts) (n : nat) (out : end_out L S), consistent t n -> build t o = Ok out ->
      abs_perf (o_prelim o) = true ->
      exists rows acols, increasing rows /\ (forall i, In i rows -> i < n) /\
        e_algo out = take_at ""%string (t_algorithm_names t) acols /\
        length (d_bin (e_data out)) = length rows /\ length (PilotModel.po_z (e_pilot out)) = length rows /\
        forall k i j a, nth_error rows k = Some i -> nth_error acols j = Some a ->
          (good_at (nth k (d_bin (e_data out)) []) j <->
           exists v, cell (t_algorithms t) i a = Some v /\
             (if max_perf (o_prelim o) then epsilon (o_prelim o) <= v else v <= epsilon (o_prelim o))%Q).
  Proof.
    intros t o n out C H A.
    destruct (C112_rows_and_columns o C H) as (kept & rows & cols0 & cols & acols & _ & Bk & Ir & Rk & _ & _ & _ & _ & Ea & _ & _ & _ & _ & Tx & _ & _ & _ & V & Z & _).
    exists rows, acols. split; auto. split; auto. split; auto. cbv zeta in V. destruct V as (V & _). rewrite V.
    split; [apply map_length|]. split; [rewrite Z, map_length; apply Tx|].
    intros k i j a Hk Hj. erewrite nth_error_nth by (rewrite nth_error_map, Hk; reflexivity).
    rewrite C38_absolute_test; auto.
    - rewrite nth_error_map, Hj. cbn [option_map]. split; intros (v & E & G); exists v; (split; [|exact G]); [injection E as E; exact E|f_equal; exact E].
    - intro E. apply map_eq_nil in E. subst. destruct j; discriminate.
  Qed.
  (** Without normalisation the processed values are those of the metadata: features as they are if they are
      not bounded, performances as they are or relative to the instance's best. *)
  Theorem C112_data_without_normalisation :
    forall (t : table_of L S) (o : endopts) (n : nat) (out : end_out L S), consistent t n -> build t o = Ok out ->
      norm (o_prelim o) = false ->
      exists rows cols acols, increasing rows /\ (forall i, In i rows -> i < n) /\
        e_feat out = take_at ""%string (t_feature_names t) cols /\ e_algo out = take_at ""%string (t_algorithm_names t) acols /\
        table (length rows) (length cols) (d_x (e_data out)) /\ table (length rows) (length acols) (d_y (e_data out)) /\
        forall k i, nth_error rows k = Some i ->
          (bound (o_prelim o) = false -> forall c f, nth_error cols c = Some f ->
             cell (d_x (e_data out)) k c = cell (t_features t) i f) /\
          forall j a, nth_error acols j = Some a ->
            (abs_perf (o_prelim o) = true -> cell (d_y (e_data out)) k j = cell (t_algorithms t) i a) /\
            (abs_perf (o_prelim o) = false -> forall w b v,
               first_best (o_prelim o) (map (cell (t_algorithms t) i) acols) w b -> (machine_epsilon < b)%Q ->
               cell (t_algorithms t) i a = Some v ->
               exists q, cell (d_y (e_data out)) k j = Some q /\ (0 <= q)%Q /\ (q == 0 <-> v == b)%Q /\
                 (if max_perf (o_prelim o) then ~ v == 0 -> (1 - q) * b == v else (1 - q) * v == b)%Q).
  Proof.
    intros t o n out C H N.
    destruct (C112_rows_and_columns o C H) as (kept & rows & cols0 & cols & acols & Ik & Bk & Ir & Rk & _ & _ & _ & Ef & Ea & _ & _ & _ & _ & Tx & Vx & Ty & Vy & _).
    exists rows, cols, acols. split; auto. split; auto. split; auto. split; auto. split; auto. split; auto.
    intros k i Hk. assert (P : exists pos, nth_error kept pos = Some i) by (apply In_nth_error, Rk; eapply nth_error_In; eauto).
    destruct P as (pos & Hp). split.
    - intros B c f Hc. rewrite (Vx k i pos c f Hk Hp Hc). unfold feature_column. rewrite B, N.
      apply nth_error_nth. rewrite nth_error_map, Hp. reflexivity.
    - intros j a Hj. assert (Lj : j < length acols) by (apply nth_error_Some; congruence).
      rewrite (Vy k i pos j Hk Hp Lj).
      assert (R : nth_error (subtable (t_algorithms t) kept acols) pos = Some (map (cell (t_algorithms t) i) acols)).
      { unfold subtable. rewrite nth_error_map, Hp. reflexivity. }
      assert (V : nth_error (map (cell (t_algorithms t) i) acols) j = Some (cell (t_algorithms t) i a)) by (rewrite nth_error_map, Hj; reflexivity).
      split.
      + intros A. destruct (@C110_absolute_performance _ transform (length acols) _ _ _ _ _ A N Lj R V) as (col & E1 & E2).
        rewrite (nth_error_nth _ _ _ E1), (nth_error_nth _ _ _ E2). destruct (cell (t_algorithms t) i a); reflexivity.
      + intros A w b v F Hb Hv. rewrite Hv in V.
        destruct (@C110_relative_performance _ transform (length acols) _ _ _ _ _ _ _ A N Lj R F Hb V) as (col & q & E1 & E2 & Q0 & Q1 & Q2).
        rewrite (nth_error_nth _ _ _ E1), (nth_error_nth _ _ _ E2). exists q. auto.
  Qed.
  (** The raw performances handed on are those of the metadata iff performance is absolute or none of them
      is zero: otherwise each zero has become machine epsilon. *)
  Theorem C112_raw_performances :
    forall (t : table_of L S) (o : endopts) (n : nat) (out : end_out L S), consistent t n -> build t o = Ok out ->
      exists rows acols, increasing rows /\ (forall i, In i rows -> i < n) /\
        e_algo out = take_at ""%string (t_algorithm_names t) acols /\
        length (d_y_raw (e_data out)) = length rows /\
        (forall k i j a, nth_error rows k = Some i -> nth_error acols j = Some a ->
           cell (d_y_raw (e_data out)) k j = raw_after (o_prelim o) (cell (t_algorithms t) i a)) /\
        (d_y_raw (e_data out) = subtable (t_algorithms t) rows acols <->
         abs_perf (o_prelim o) = true \/
         forall i a q, In i rows -> In a acols -> cell (t_algorithms t) i a = Some q -> ~ (q == 0)%Q).
  Proof.
    intros t o n out C H.
    destruct (C112_rows_and_columns o C H) as (kept & rows & cols0 & cols & acols & _ & Bk & Ir & Rk & _ & _ & _ & _ & Ea & _ & _ & _ & Ey & _).
    exists rows, acols. split; auto. split; auto. split; auto. rewrite Ey. split; [unfold subtable; rewrite !map_length; auto|].
    unfold subtable. rewrite map_map. split.
    - intros k i j a Hk Hj. unfold cell at 1. erewrite (nth_error_nth (map _ rows)) by (rewrite nth_error_map, Hk; reflexivity).
      apply nth_error_nth. rewrite !nth_error_map, Hj. reflexivity.
    - unfold raw_after. split.
      + intros E. destruct (abs_perf (o_prelim o)); auto. right. intros i a q Hi Ha Hq Z.
        assert (X : map (map (fun v : num => match v with Some q => if Qeq_bool q 0 then Some machine_epsilon else v | None => None end)) (map (fun i => map (cell (t_algorithms t) i) acols) rows)
          = map (fun i => map (cell (t_algorithms t) i) acols) rows) by (rewrite map_map; exact E).
        clear E. apply In_nth_error in Hi. destruct Hi as (k & Hk). apply In_nth_error in Ha. destruct Ha as (j & Hj).
        apply (f_equal (fun m => nth_error (nth k m []) j)) in X.
        erewrite !(nth_error_nth (map _ _)) in X by (rewrite !nth_error_map, Hk; reflexivity).
        rewrite !nth_error_map, Hj in X. cbn [option_map] in X. rewrite Hq in X.
        rewrite (proj2 (Qeq_bool_iff q 0)) in X by auto. injection X as X. rewrite <- X in Z. discriminate.
      + intros [->|N]; apply map_ext_in; intros i Hi; [apply map_id|]. rewrite map_map. apply map_ext_in. intros a Ha.
        destruct (abs_perf (o_prelim o)); auto. specialize (N i a). destruct (cell (t_algorithms t) i a) as [q|]; auto.
        destruct (Qeq_bool q 0) eqn:Z; auto. apply Qeq_bool_iff in Z. exfalso. eapply N; eauto.
  Qed.
End Whole.

(** Three instances, the second without features; two features, two algorithms. *)
Definition ex_table : table_of nat nat :=
  {| t_feature_names := ["feature_a"; "feature_b"]%string; t_algorithm_names := ["algo_a"; "algo_b"]%string;
     t_labels := [10; 20; 30]; t_sources := Some [7; 8; 9];
     t_features := [[z 1; z 2]; [None; None]; [z 3; z 5]];
     t_algorithms := [[z 1; z 4]; [z 2; z 2]; [z 6; z 3]] |}.
Definition ex_opts : endopts :=
  {| o_feats := None; o_algos := None;
     o_prelim := {| max_perf := true; abs_perf := true; epsilon := 4#1; beta_threshold := 1#2; bound := false; norm := false |};
     o_sel := {| small_scale_flag := false; small_scale_float := true; file_idx_flag := false; file_exists := false;
                 density_flag := false; min_distance_float := true; type_str := true; selvars_type := "Ftr"%string; min_distance := 1 |};
     o_rho := 1#10; o_k := 3;
     o_pilot := {| PilotModel.p_x0 := Some [map Some [1; 0; 0; 1; 1; 0; 1; 0; 1; 0; 1; 0]%Q]; PilotModel.p_alpha := None; PilotModel.p_tries := 1 |};
     o_weights := false; o_params := None |}.
Example C112_met : consistent ex_table 3 /\
  exists out, build (map Some) None [] (fun _ => (None, None)) (fun _ _ => []) (fun _ => []) (fun _ => []) (fun _ => [])
    (fun g => (g, Some 0%Q)) (fun _ => Ok (Some 1%Q)) (fun v => v) (fun _ _ => [])
    (fun _ _ _ col _ => Ok {| PythiaModel.r_ysub := col; PythiaModel.r_psub := []; PythiaModel.r_yhat := col;
                              PythiaModel.r_phat := []; PythiaModel.r_c := None; PythiaModel.r_g := None |})
    (fun v => v) (fun v => v) ex_table ex_opts = Ok out /\
  d_labels (e_data out) = [10; 30] /\ d_s (e_data out) = Some [7; 9] /\ d_x (e_data out) = [[z 1; z 2]; [z 3; z 5]] /\
  d_bin (e_data out) = [[false; true]; [true; false]] /\ PythiaModel.o_y_hat (e_pythia out) = [[false; true]; [true; false]].
Proof.
  split.
  - split; [|split; [|split]]; try (split; [reflexivity|repeat constructor]); [reflexivity|]. intros l E. injection E as <-. reflexivity.
  - eexists. split; [vm_compute; reflexivity|]. repeat split.
Qed.

(** Relative performance and a zero in the metadata: the raw performances handed on are not a selection of
    those in the metadata. *)
Definition zero_table : table_of nat nat :=
  {| t_feature_names := t_feature_names ex_table; t_algorithm_names := t_algorithm_names ex_table;
     t_labels := t_labels ex_table; t_sources := t_sources ex_table; t_features := t_features ex_table;
     t_algorithms := [[z 1; z 0]; [z 2; z 2]; [z 3; z 6]] |}.
Definition relative_opts : endopts :=
  {| o_feats := None; o_algos := None;
     o_prelim := {| max_perf := true; abs_perf := false; epsilon := 1#10; beta_threshold := 1#2; bound := false; norm := false |};
     o_sel := o_sel ex_opts; o_rho := 1#10; o_k := 3; o_pilot := o_pilot ex_opts; o_weights := false; o_params := None |}.
Theorem C112_raw_performances_kept_refuted :
  exists out, consistent zero_table 3 /\
    build (map Some) None [] (fun _ => (None, None)) (fun _ _ => []) (fun _ => []) (fun _ => []) (fun _ => [])
    (fun g => (g, Some 0%Q)) (fun _ => Ok (Some 1%Q)) (fun v => v) (fun _ _ => [])
    (fun _ _ _ col _ => Ok {| PythiaModel.r_ysub := col; PythiaModel.r_psub := []; PythiaModel.r_yhat := col;
                              PythiaModel.r_phat := []; PythiaModel.r_c := None; PythiaModel.r_g := None |})
    (fun v => v) (fun v => v) zero_table relative_opts = Ok out /\
    d_y_raw (e_data out) = [[z 1; Some machine_epsilon]; [z 3; z 6]] /\
    forall rows acols, d_y_raw (e_data out) <> subtable (t_algorithms zero_table) rows acols.
Proof.
  eexists. split; [|split; [vm_compute; reflexivity|split; [vm_compute; reflexivity|]]].
  - split; [|split; [|split]]; try (split; [reflexivity|repeat constructor]); [reflexivity|]. intros l E. injection E as <-. reflexivity.
  - cbn [e_data d_y_raw]. intros rows acols E.
    assert (X : In (Some machine_epsilon) (concat (subtable (t_algorithms zero_table) rows acols))).
    { rewrite <- E. simpl. auto. }
    apply in_concat in X. destruct X as (r & Hr & Hv). apply in_map_iff in Hr. destruct Hr as (i & <- & _).
    apply in_map_iff in Hv. destruct Hv as (a & Ev & _). revert Ev. unfold cell, zero_table. cbn [t_algorithms].
    destruct i as [|[|[|[|i]]]]; destruct a as [|[|[|a]]]; cbn; discriminate.
Qed.

Print Assumptions C112_no_infinite_performance.
Print Assumptions C112_rows_and_columns.
Print Assumptions C112_good_in_terms_of_the_metadata.
Print Assumptions C112_data_without_normalisation.
Print Assumptions C112_raw_performances.
Print Assumptions C112_raw_performances_kept_refuted.
