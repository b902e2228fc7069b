(** Property C119: saving what a run of the default pipeline leaves. *)
From Coq Require Import Permutation.
From Verif Require Import BaseLemmas Mat Ext PreprocSpec PrelimModel PrelimSpec PrelimProps HandOnModel EndModel EndProps WholeModel WholeProps.
From Verif Require Import SerialModel SavedModel.
From Verif Require PrelimProofs PilotModel PythiaModel CloisterModel TraceModel TraceProps SiftedProofs PreprocProofs
  CloisterSpec CloisterProofs EdgeSpec EdgeProps SerialSpec SerialProps WebSpec WebProps DrawModel DrawSpec DrawProps PlotProps.
Set Implicit Arguments.
Open Scope nat_scope.
Open Scope list_scope.

(** [a] is what is left of [b] when some entries are dropped *)
Definition chosen_from (a b : list nat) : Prop :=
  exists at_, increasing at_ /\ (forall q, In q at_ -> q < length b) /\ a = take_at 0 b at_.

Lemma increasing_all (a b : list nat) : increasing a -> increasing b -> (forall x, In x a -> In x b) -> length a = length b -> a = b.
Proof.
  intros Ha Hb I L. apply PreprocProofs.same_elements; auto. intros x. split; auto. apply NoDup_length_incl; auto; [apply SiftedProofs.increasing_nodup; auto|lia].
Qed.
Lemma chosen_all a b : chosen_from a b -> length a = length b -> a = b.
Proof.
  intros (s & I & B & ->) L. unfold take_at in L. rewrite map_length in L.
  assert (s = seq 0 (length b)).
  { apply increasing_all; auto; [apply PreprocProofs.increasing_seq| |rewrite seq_length; auto].
    intros x Hx. apply in_seq. specialize (B x Hx). lia. }
  subst s. clear. unfold take_at. induction b as [|y b IH]; simpl; auto. f_equal. rewrite <- seq_shift, map_map. auto.
Qed.
Lemma take_len {A} (d : A) l r : length (take_at d l r) = length r.
Proof. apply map_length. Qed.

Section Saved.
  Variable transform : list Q -> list num.
  Variable split : option (list nat).
  Variable file : list Z.
  Variable pearson : list (Q * Q) -> num * num.
  Variable order : list (list Q) -> nat -> list nat.
  Variable sil : list nat -> list Q.
  Variable km_labels : list nat -> list nat.
  Variable best : list nat -> list Z.
  Variable bfgs : list num -> list num * num.
  Variable quality : list (list num) -> res PilotModel.pierr num.
  Variable f16 : num -> num.
  Variable random : nat -> nat -> list (list num).
  Variable fit : list (list num) -> nat -> PythiaModel.hyper -> list bool -> list num -> res PythiaModel.pyerr PythiaModel.svm_res.
  Variable round3 : num -> num.
  Variable root : num -> num.
  Notation build := (build transform split file pearson order sil km_labels best bfgs quality f16 random fit round3 root).
  Variable cpearson : list num -> list num -> res CloisterModel.clerr (num * num).
  Variable hull : list (list num) -> option (list nat).
  Variable G : Type.
  Variable is_empty : G -> bool.
  Variable area : G -> Q.
  Variable contains : G -> TraceModel.pt -> bool.
  Variable contains_all : G -> list TraceModel.pt -> bool.
  Variable intersection difference union : G -> G -> G.
  Variable no_polygon : G.
  Variable smooth : G -> G.
  Variable triangulate : G -> list G.
  Variable convex_hull : G -> G.
  Variable geoms : G -> list G.
  Variable alphashape : list TraceModel.pt -> option G.
  Variable radius : list TraceModel.pt -> nat -> Z.
  Variable point : list num -> TraceModel.pt.
  Variable finished : list nat.
  Hypothesis removed_points : forall a c s q l,
    In s (geoms (difference a c)) -> contains c q = true -> In q l -> contains_all s l = false.
  Hypothesis empty_intersection : forall a b, is_empty a = true -> is_empty (intersection a b) = true.
  Notation build_all := (build_all build cpearson hull is_empty area contains contains_all intersection difference union no_polygon smooth
    triangulate convex_hull geoms alphashape radius point finished).
  Variable shape_of : G -> shape.
  Notation saved := (saved_model shape_of).

  (** [kept]: the instances with data; [rows]: those PRELIM selects; [cols0]: the features considered; [cols]:
      those SIFTED keeps; [acols]: the algorithms. *)
  Definition describes (o : endopts) (t : table_of string string) (n : nat) (m : model) (kept rows cols0 cols acols : list nat) : Prop :=
    increasing kept /\ (forall i, In i kept -> i < n) /\ increasing rows /\ (forall i, In i rows -> In i kept) /\
    chosen_from cols cols0 /\
    m_inst_labels m = take_at ""%string (t_labels t) kept /\
    m_feat_labels m = take_at ""%string (t_feature_names t) cols /\
    m_algo_labels m = take_at ""%string (t_algorithm_names t) acols /\
    m_x_raw m = subtable (t_features t) rows cols0 /\ m_y_raw m = map (map (raw_after (o_prelim o))) (subtable (t_algorithms t) rows acols) /\
    (forall f, In f cols -> f < length (t_feature_names t)) /\ (forall a, In a acols -> a < length (t_algorithm_names t)) /\
    prepared (t_features t) (t_algorithms t) (t_feature_names t) (t_algorithm_names t) (o_feats o) (o_algos o) n kept cols0 acols /\
    (small_scale_flag (o_sel o) = false -> file_idx_flag (o_sel o) = false -> density_flag (o_sel o) = false -> rows = kept).

  Lemma built (t : table_of string string) (o : wopts) n out : consistent t n -> build_all t o = Ok out ->
    Permutation finished (seq 0 (length (e_algo (w_out out)))) ->
    let m := saved out in
    exists kept rows cols0 cols acols,
      describes (w_end o) t n m kept rows cols0 cols acols /\
      PreprocSpec.table (length rows) (length cols) (m_x m) /\ PreprocSpec.table (length rows) (length acols) (m_y m) /\
      m_y_bin m = map (fun i => r_bin (prelim_row (o_prelim (w_end o)) (map (cell (t_algorithms t) i) acols))) rows /\
      m_beta m = map (fun i => r_beta (prelim_row (o_prelim (w_end o)) (map (cell (t_algorithms t) i) acols))) rows /\
      m_num_good_algos m = map (fun i => Some (inject_Z (Z.of_nat (r_good (prelim_row (o_prelim (w_end o)) (map (cell (t_algorithms t) i) acols)))))) rows /\
      m_p m = map (fun i => r_p (prelim_row (o_prelim (w_end o)) (map (cell (t_algorithms t) i) acols))) rows /\
      m_s m = option_map (fun l => take_at ""%string l rows) (t_sources t) /\
      length (m_z m) = length rows /\ PreprocSpec.table (length rows) (length acols) (m_y_hat m) /\ length (m_selection0 m) = length rows /\
      m_idx m = seq 0 (length cols0) /\ m_nalgos m = length acols /\
      length (m_good m) = length acols /\ length (m_best m) = length acols /\ 11 = length (header (m_trace_summary m)).
  Proof.
    intros C H Pm m. destruct (@all_inv string string transform split file pearson order sil km_labels best bfgs quality f16 random fit round3 root cpearson hull G
       is_empty area contains contains_all intersection difference union no_polygon smooth triangulate convex_hull geoms alphashape radius point finished _ _ _ H) as (HB & _ & HT).
    destruct (C112_rows_and_columns ""%string ""%string _ _ _ _ _ _ _ _ _ _ _ _ _ _ _ _ C HB)
      as (kept & rows & cols0 & cols & acols & Ik & Bk & Ir & Rk & B0 & Bc & Ba & Ef & Ea & El & Es & Ex & Ey & Tx & _ & Ty & _ & V & Z & Th & Ls & _ & Ch & Ei & Pr & Nos).
    cbv zeta in V. destruct V as (Vb & Vbe & Vg & _ & Vp).
    assert (La : length (e_algo (w_out out)) = length acols) by (rewrite Ea; apply take_len).
    assert (F : length (TraceModel.t_good (w_trace out)) = length acols /\ length (TraceModel.t_best (w_trace out)) = length acols).
    { unfold TraceModel.run in HT. rewrite La in *. destruct (w_use_sim o);
      apply (@TraceProps.C89_result G is_empty area contains contains_all intersection difference union no_polygon smooth triangulate convex_hull geoms alphashape radius removed_points empty_intersection _ _ _ _ _ _ _ _ _ Pm) in HT;
      destruct HT as (_ & _ & Lg & Lb & _); auto. }
    exists kept, rows, cols0, cols, acols. unfold m, saved_model. cbv zeta.
    cbn [m_inst_labels m_feat_labels m_algo_labels m_x m_y m_x_raw m_y_raw m_nalgos m_y_bin m_p m_num_good_algos m_beta m_s m_idx m_z m_y_hat m_selection0 m_good m_best m_trace_summary].
    unfold describes. cbn [m_inst_labels m_feat_labels m_algo_labels m_x_raw m_y_raw].
    split; [split; auto; split; auto; split; auto; split; auto; split; [exact Ch|repeat (split; auto)]|].
    split; auto. split; auto. split; auto. split; auto. split; [rewrite Vg, map_map; auto|]. split; auto. split; auto.
    split; [rewrite map_length, Z, map_length; apply Tx|]. split; auto. split; auto. split; auto. split; auto.
    rewrite !map_length. split; [apply F|]. split; [apply F|reflexivity].
  Qed.

  Lemma fits_of {A} (a : list (list A)) n w labels cols : PreprocSpec.table n w a -> length labels = n -> length cols = w -> SerialSpec.fits a labels cols.
  Proof. intros [L W] <- <-. split; auto. rewrite Forall_forall in W. auto. Qed.
  Lemma sub_table m rows cols : PreprocSpec.table (length rows) (length cols) (subtable m rows cols).
  Proof. split; [apply map_length|]. apply Forall_forall. intros r Hr. apply in_map_iff in Hr. destruct Hr as (i & <- & _). apply map_length. Qed.
  Lemma raw_table o m rows cols : PreprocSpec.table (length rows) (length cols) (map (map (raw_after o)) (subtable m rows cols)).
  Proof. destruct (sub_table m rows cols) as [L W]. split; [rewrite map_length; auto|]. rewrite Forall_map. eapply Forall_impl; [|exact W]. intros r Hr. rewrite map_length. auto. Qed.
  Lemma width_sub m rows cols : rows <> [] -> width (subtable m rows cols) = length cols.
  Proof. destruct rows; [congruence|]. intros _. simpl. apply map_length. Qed.
  Lemma some_bin {o : popts} {t : table_of string string} {acols} (rows : list nat) w :
    w = length acols -> PreprocSpec.table (length rows) w (map (fun i => r_bin (prelim_row o (map (cell (t_algorithms t) i) acols))) rows).
  Proof.
    intros ->. split; [apply map_length|]. apply Forall_forall. intros r Hr. apply in_map_iff in Hr. destruct Hr as (i & <- & _).
    destruct (C38_counts o (map (cell (t_algorithms t) i) acols)) as (_ & L & _). rewrite L. apply map_length.
  Qed.

  (** save_to_csv: it returns iff PRELIM dropped no instance, SIFTED no feature, CLOISTER found a boundary and
      every file can be written.  The files then show the metadata, each value under its own names. *)
  Theorem C119_csv_files_of_a_built_model :
    forall (t : table_of string string) (o : wopts) (n : nat) out can_write d, consistent t n -> build_all t o = Ok out ->
      Permutation finished (seq 0 (length (e_algo (w_out out)))) -> d_x (e_data (w_out out)) <> [] ->
      let m := saved out in
      exists kept rows cols0 cols acols, describes (w_end o) t n m kept rows cols0 cols acols /\
        ((exists d', save_to_csv can_write true m d = (d', None)) <->
         rows = kept /\ cols = cols0 /\ w_edge out <> [] /\ forall f, SerialSpec.csv_file m f -> can_write f = true) /\
        forall d', save_to_csv can_write true m d = (d', None) ->
          let names := take_at ""%string (t_feature_names t) cols in
          let algos := take_at ""%string (t_algorithm_names t) acols in
          let labels := take_at ""%string (t_labels t) rows in
          let shown f cols g := exists tb, d' f = Some tb /\ SerialSpec.shows tb cols labels g in
          shown "feature_raw.csv"%string names (fun k c => CNum (cell (t_features t) (nth k rows 0) (nth c cols 0))) /\
          shown "algorithm_raw.csv"%string algos (fun k j => CNum (raw_after (o_prelim (w_end o)) (cell (t_algorithms t) (nth k rows 0) (nth j acols 0)))) /\
          (exists g, shown "algorithm_bin.csv"%string algos (fun k j => CBool (g k j)) /\
             (abs_perf (o_prelim (w_end o)) = true -> forall k i j a, nth_error rows k = Some i -> nth_error acols j = Some a ->
                (g k j = true <-> good_on t (o_prelim (w_end o)) i a))) /\
          (exists g, shown "portfolio.csv"%string ["Best_Algorithm"%string] (fun k _ => CNat (g k)) /\
             (abs_perf (o_prelim (w_end o)) = true -> forall k i j b, nth_error rows k = Some i ->
                first_best (o_prelim (w_end o)) (map (cell (t_algorithms t) i) acols) j b -> g k = Nat.succ j)).
  Proof.
    intros t o n out cw d C H Pm Nx m. destruct (built o C H Pm) as (kept & rows & cols0 & cols & acols & D & R). fold m in D, R.
    exists kept, rows, cols0, cols, acols. split; auto.
    destruct D as (Ik & Bk & Ir & Rk & Ch & El & Ef & Ea & Ex & Ey & _).
    destruct R as (Tx & Ty & Vb & Vbe & Vg & Vp & Vs & Lz & Th & Ls & Ei & Na & Lg & Lb & Hs).
    assert (Nr : rows <> []).
    { intros E. destruct Tx as [L _]. rewrite E in L. apply Nx. change (d_x (e_data (w_out out))) with (m_x m). destruct (m_x m); auto. discriminate. }
    assert (LL : length (m_inst_labels m) = length kept) by (rewrite El; apply take_len).
    assert (LF : length (m_feat_labels m) = length cols) by (rewrite Ef; apply take_len).
    assert (LA : length (m_algo_labels m) = length acols) by (rewrite Ea; apply take_len).
    assert (Rs : (exists d', save_to_csv cw true m d = (d', None)) <->
         rows = kept /\ cols = cols0 /\ w_edge out <> [] /\ forall f, SerialSpec.csv_file m f -> cw f = true).
    { rewrite SerialProps.C94_when_it_returns. split.
      - intros (K & W). destruct K as (_ & Kz & _ & _ & Kx & _ & _ & _ & _ & _ & _ & _ & _ & _ & _ & Ke & _).
        assert (w_edge out <> []). { intro X. apply Ke. unfold m, saved_model. cbv zeta. cbn [m_z_edge]. rewrite X. reflexivity. }
        assert (rows = kept) by (apply increasing_all; auto; congruence).
        assert (cols = cols0); [|auto]. apply chosen_all; auto. rewrite Ei, seq_length, LF in Kx. symmetry. apply Kx.
        rewrite Ex. destruct rows; [congruence|discriminate].
      - intros (E & E0 & Ne & W). split; auto. assert (Er : length (m_inst_labels m) = length rows) by congruence.
        unfold SerialSpec.consistent. cbv zeta. split; [|unfold SerialSpec.fits; repeat apply conj].
        + intros i Hi. assert (X : forall (l : list (option shape)), length l = length acols -> exists s, nth_error l i = Some s).
          { intros l Ll. destruct (nth_error l i) eqn:Y; eauto. apply nth_error_None in Y. lia. }
          split; [auto|split; [auto|intros _; lia]].
        + congruence.
        + intros j Hj. rewrite Ex, width_sub by auto. rewrite Ei in Hj. apply in_seq in Hj. lia.
        + rewrite Ex, Er. apply sub_table.
        + intros _. rewrite Ei, seq_length. congruence.
        + rewrite Er. apply Tx.
        + intros r Hr. rewrite LF. destruct Tx as [_ F]. rewrite Forall_forall in F. auto.
        + rewrite Ey, Er. apply raw_table.
        + intros r Hr. rewrite LA. rewrite Ey in Hr. destruct (raw_table (o_prelim (w_end o)) (t_algorithms t) rows acols) as [_ F]. rewrite Forall_forall in F. auto.
        + rewrite Er. apply Ty.
        + intros r Hr. rewrite LA. destruct Ty as [_ F]. rewrite Forall_forall in F. auto.
        + rewrite Er, Vb. apply map_length.
        + intros r Hr. rewrite LA. rewrite Vb in Hr. destruct (@some_bin (o_prelim (w_end o)) t acols rows (length acols) eq_refl) as [_ F]. rewrite Forall_forall in F. auto.
        + rewrite Vg, Er. apply map_length.
        + rewrite Vbe, Er. apply map_length.
        + rewrite Vp, Er. apply map_length.
        + rewrite Er. apply Th.
        + intros r Hr. rewrite LA. destruct Th as [_ F]. rewrite Forall_forall in F. auto.
        + congruence.
        + lia.
        + unfold m, saved_model. cbv zeta. cbn [m_z_edge]. intro X. apply map_eq_nil in X. auto.
        + unfold m, saved_model. cbv zeta. cbn [m_z_ecorr]. intro X. apply map_eq_nil in X. revert X.
          destruct (@all_inv string string transform split file pearson order sil km_labels best bfgs quality f16 random fit round3 root cpearson hull G
            is_empty area contains contains_all intersection difference union no_polygon smooth triangulate convex_hull geoms alphashape radius point finished _ _ _ H) as (_ & HC & _).
          destruct (CloisterProofs.cloister_inv _ _ _ _ _ _ _ HC) as (_ & rho & _ & _ & Ec). cbv zeta in Ec. rewrite Ec.
          destruct (CloisterModel.compute_convex_hull _ _); [auto|discriminate]. }
    split; auto. intros d' Sv names algos labels shown.
    destruct (proj1 Rs (ex_intro _ d' Sv)) as (E & E0 & _). clear Rs. subst kept cols0.
    destruct (SerialProps.C93_arrays _ _ _ Sv) as (A & _).
    assert (In1 : forall f cs g, In (f, (cs, labels, g)) (SerialSpec.array_files m) -> shown f cs g).
    { intros f cs g I. destruct (A _ _ _ _ I) as (tb & X & Y). exists tb. auto. }
    assert (Ext : forall f cs g g', shown f cs g -> (forall k c, k < length rows -> c < length cs -> g k c = g' k c) -> shown f cs g').
    { intros f cs g g' (tb & X & (Y1 & Y2 & Y3)) Eq. exists tb. split; auto. split; auto. split; auto. intros i l Hl. rewrite (Y3 i l Hl). do 2 f_equal.
      apply map_ext_in. intros c Hc. apply in_seq in Hc. apply Eq; [|lia].
      assert (i < length labels) by (apply nth_error_Some; congruence). unfold labels in *. rewrite take_len in *. auto. }
    assert (Lab : m_inst_labels m = labels) by auto.
    assert (Sub : forall mm cs k c, k < length rows -> c < length cs -> cell (subtable mm rows cs) k c = cell mm (nth k rows 0) (nth c cs 0)).
    { intros mm cs k c Hk Hc. unfold cell at 1, subtable. rewrite (nth_indep _ [] (map (cell mm 0) cs)) by (rewrite map_length; auto).
      rewrite (map_nth (fun i => map (cell mm i) cs)). rewrite (nth_indep _ None (cell mm (nth k rows 0) 0)) by (rewrite map_length; auto). apply map_nth. }
    split; [|split; [|split]].
    - eapply Ext; [apply In1; unfold SerialSpec.array_files; rewrite Lab, Ef; do 3 right; left; reflexivity|].
      intros k c Hk Hc. cbv beta. unfold names in Hc. rewrite take_len in Hc. rewrite Ex, Ei, seq_nth by auto. simpl. f_equal. auto.
    - eapply Ext; [apply In1; unfold SerialSpec.array_files; rewrite Lab, Ea; do 5 right; left; reflexivity|].
      intros k c Hk Hc. cbv beta. unfold algos in Hc. rewrite take_len in Hc. rewrite Ey. f_equal.
      rewrite <- Sub by auto. unfold cell.
      rewrite (nth_indep (map _ (subtable _ _ _)) [] (map (raw_after (o_prelim (w_end o))) [])) by (unfold subtable; rewrite !map_length; auto). rewrite map_nth.
      rewrite (nth_indep _ None (raw_after (o_prelim (w_end o)) None)); [apply map_nth|]. rewrite map_length.
      destruct (sub_table (t_algorithms t) rows acols) as [W1 W2]. rewrite Forall_forall in W2. rewrite W2; auto. apply nth_In. rewrite W1. auto.
    - exists (SerialSpec.bit (m_y_bin m)). split; [apply In1; unfold SerialSpec.array_files; rewrite Lab, Ea; do 7 right; left; reflexivity|].
      intros Ab k i j a Hk Hj. unfold SerialSpec.bit. rewrite Vb. erewrite (nth_error_nth (map _ rows)) by (rewrite nth_error_map, Hk; reflexivity).
      assert (Gn : forall l j, nth j l false = true <-> good_at l j).
      { unfold good_at. induction l as [|b l IH]; intros [|q]; simpl; try (split; discriminate); auto. split; intros Q; [f_equal; auto|injection Q as Q; auto]. }
      rewrite Gn, C38_absolute_test; auto.
      + rewrite nth_error_map, Hj. cbn [option_map]. unfold good_on. split; intros (v & Q & Q'); exists v; (split; [|exact Q']); [injection Q as Q; exact Q|f_equal; exact Q].
      + intro Q. apply map_eq_nil in Q. subst acols. destruct j; discriminate.
    - exists (fun k => nth k (m_p m) 0). split; [apply In1; unfold SerialSpec.array_files; rewrite Lab; do 10 right; left; reflexivity|].
      intros Ab k i j b Hk Fb. cbv beta. rewrite Vp. erewrite (nth_error_nth (map _ rows)) by (rewrite nth_error_map, Hk; reflexivity).
      assert (Nrow : map (cell (t_algorithms t) i) acols <> []) by (intro Q; rewrite Q in Fb; destruct Fb as (Q' & _); destruct j; discriminate).
      destruct (C37_best_performance_and_algorithm (o_prelim (w_end o)) Nrow) as [(k' & b' & Fb' & _ & Q)|(Q & _)].
      + rewrite Q by auto. destruct (PrelimProofs.first_best_value Fb Fb') as (_ & ->). reflexivity.
      + destruct Fb as (Q' & _). apply nth_error_In in Q'. specialize (Q _ Q'). discriminate.
  Qed.

  (** save_to_csv can return only if two processed features that vary are projected in different directions. *)
  Theorem C140_saving_needs_a_boundary :
    forall (t : table_of string string) (o : wopts) (n : nat) out can_write d d' a1 a2, consistent t n -> build_all t o = Ok out ->
      Permutation finished (seq 0 (length (e_algo (w_out out)))) ->
      CloisterSpec.hull_correct hull -> EdgeSpec.fails_on_lines hull ->
      let x := d_x (e_data (w_out out)) in
      let f := length (e_feat (w_out out)) in
      (forall r, In r x -> ~ In None r) ->
      PilotModel.po_a (e_pilot (w_out out)) = [map Some a1; map Some a2] -> length a1 = f -> length a2 = f ->
      save_to_csv can_write true (saved out) d = (d', None) ->
      exists j k, j < f /\ k < f /\ EdgeSpec.varies x j /\ EdgeSpec.varies x k /\ EdgeSpec.independent a1 a2 j k.
  Proof.
    intros t o n out cw d d' a1 a2 C H Pm HC HF x f Fx Ea L1 L2 Sv.
    destruct (@all_inv string string transform split file pearson order sil km_labels best bfgs quality f16 random fit round3 root cpearson hull G
       is_empty area contains contains_all intersection difference union no_polygon smooth triangulate convex_hull geoms alphashape radius point finished _ _ _ H) as (HB & HCl & _).
    destruct (C112_rows_and_columns ""%string ""%string _ _ _ _ _ _ _ _ _ _ _ _ _ _ _ _ C HB)
      as (kept & rows & cols0 & cols & acols & _ & _ & _ & _ & _ & _ & _ & Ef & _ & _ & _ & _ & _ & Tx & _).
    assert (Lf : f = length cols) by (unfold f; rewrite Ef; apply take_len).
    destruct (CloisterProofs.cloister_inv _ _ _ _ _ _ _ HCl) as (Nx & _).
    assert (Cx : CloisterSpec.complete x f).
    { split; [exact Nx|]. intros r Hr. split; [|apply Fx; auto]. rewrite Lf. destruct Tx as [_ W]. rewrite Forall_forall in W. auto. }
    destruct (C119_csv_files_of_a_built_model o cw d C H Pm Nx) as (kept' & rows' & cols0' & cols' & acols' & _ & R & _).
    destruct (proj1 R (ex_intro _ _ Sv)) as (_ & _ & Ne & _).
    rewrite Ea in HCl. apply (@EdgeProps.C140_when_there_is_a_boundary _ _ _ _ _ _ _ _ _ _ HC HF Cx L1 L2 HCl). exact Ne.
  Qed.

  (** The other files of arrays: each entry is one of the results of the run. *)
  Theorem C119_result_files_of_a_built_model :
    forall out can_write d d', save_to_csv can_write true (saved out) d = (d', None) ->
      let e := w_out out in
      let labels := d_labels (e_data e) in
      let points (a : list (list num)) := map (fun i => append "bnd_pnt_" (decimal (i + 1))) (seq 0 (length a)) in
      let shown f cols labels g := exists tb, d' f = Some tb /\ SerialSpec.shows tb cols labels g in
      let z12 := ["z_1"; "z_2"]%string in
      shown "coordinates.csv"%string z12 labels (fun k c => CNum (cell (PilotModel.po_z (e_pilot e)) k c)) /\
      shown "bounds.csv"%string z12 (points (w_edge out)) (fun k c => CNum (cell (w_edge out) k c)) /\
      shown "bounds_prunned.csv"%string z12 (points (w_ecorr out)) (fun k c => CNum (cell (w_ecorr out) k c)) /\
      shown "feature_process.csv"%string (e_feat e) labels (fun k c => CNum (cell (d_x (e_data e)) k c)) /\
      shown "algorithm_process.csv"%string (e_algo e) labels (fun k j => CNum (cell (d_y (e_data e)) k j)) /\
      shown "beta_easy.csv"%string ["IsBetaEasy"%string] labels (fun k _ => CBool (nth k (d_beta (e_data e)) false)) /\
      shown "algorithm_svm.csv"%string (e_algo e) labels
        (fun k j => CBool (nth j (nth k (PythiaModel.o_y_hat (e_pythia e)) []) false)) /\
      shown "portfolio_svm.csv"%string ["Best_Algorithm"%string] labels
        (fun k _ => CNat (nth k (PythiaModel.o_selection0 (e_pythia e)) 0)) /\
      exists tb, d' "good_algos.csv"%string = Some tb /\ length (SerialModel.rows tb) = length labels /\
        forall k l g, nth_error labels k = Some l -> nth_error (d_good (e_data e)) k = Some g ->
          nth_error (SerialModel.rows tb) k = Some [CStr l; CNum (Some (inject_Z (Z.of_nat g)))].
  Proof.
    intros out cw d d' Sv e labels points shown z12.
    destruct (SerialProps.C93_arrays _ _ _ Sv) as (A & _).
    assert (I : forall f cs ls g, In (f, (cs, ls, g)) (SerialSpec.array_files (saved out)) -> shown f cs ls g).
    { intros f cs ls g I. destruct (A _ _ _ _ I) as (tb & X & Y). exists tb. auto. }
    assert (Ext : forall f cs ls g g', shown f cs ls g -> (forall k c, c < length cs -> g k c = g' k c) -> shown f cs ls g').
    { intros f cs ls g g' (tb & X & (Y1 & Y2 & Y3)) Eq. exists tb. split; auto. split; auto. split; auto. intros i l Hl. rewrite (Y3 i l Hl). do 2 f_equal.
      apply map_ext_in. intros c Hc. apply in_seq in Hc. apply Eq. lia. }
    assert (P : forall (a : list (list num)) k c, c < length z12 -> CNum (SerialSpec.coord (map pair_of a) k c) = CNum (cell a k c)).
    { intros a k c Hc. f_equal. unfold SerialSpec.coord, cell. change (None, None) with (pair_of []). rewrite map_nth. unfold pair_of.
      destruct c as [|[|c]]; [reflexivity..|simpl in Hc; lia]. }
    assert (Ll : forall a : list (list num), make_bind_labels (length (map pair_of a)) = points a) by (intros a; rewrite map_length; reflexivity).
    split; [eapply Ext; [apply I; left; reflexivity|apply P]|].
    split; [eapply Ext; [rewrite <- Ll; apply I; do 1 right; left; reflexivity|apply P]|].
    split; [eapply Ext; [rewrite <- Ll; apply I; do 2 right; left; reflexivity|apply P]|].
    split; [apply I; do 4 right; left; reflexivity|].
    split; [apply I; do 6 right; left; reflexivity|].
    split; [apply I; do 9 right; left; reflexivity|].
    split; [apply I; do 11 right; left; reflexivity|].
    split; [apply I; do 12 right; left; reflexivity|].
    destruct (I "good_algos.csv"%string ["NumGoodAlgos"%string] labels (fun i _ => CNum (nth i (m_num_good_algos (saved out)) None))) as (tb & X & Y1 & Y2 & Y3);
      [do 8 right; left; reflexivity|].
    exists tb. split; auto. split; auto. intros k l g Hl Hg. rewrite (Y3 k l Hl). cbn [length seq map]. do 3 f_equal. f_equal.
    apply nth_error_nth. cbn [saved_model m_num_good_algos]. rewrite nth_error_map. unfold e in Hg. rewrite Hg. reflexivity.
  Qed.

  (** footprint_performance.csv: one row for each algorithm, with the measures of its good and of its best
      footprint relative to those of the whole space. *)
  Definition relative (a whole r : Q) : Prop := (~ (whole == 0)%Q -> (r * whole == a)%Q) /\ ((whole == 0)%Q -> r = a).
  Theorem C119_footprint_table_of_a_built_model :
    forall (t : table_of string string) (o : wopts) (n : nat) out can_write d d', consistent t n -> build_all t o = Ok out ->
      Permutation finished (seq 0 (length (e_algo (w_out out)))) ->
      save_to_csv can_write true (saved out) d = (d', None) ->
      exists acols tb, e_algo (w_out out) = take_at ""%string (t_algorithm_names t) acols /\
        d' "footprint_performance.csv"%string = Some tb /\
        header tb = map Name ["Row"; "Area_Good_Normalised"; "Density_Good_Normalised"; "Purity_Good";
                              "Area_Best_Normalised"; "Density_Best_Normalised"; "Purity_Best"]%string /\
        length (SerialModel.rows tb) = length acols /\
        forall j a, nth_error acols j = Some a -> exists good best area_g density_g area_b density_b,
          nth_error (TraceModel.t_good (w_trace out)) j = Some good /\ nth_error (TraceModel.t_best (w_trace out)) j = Some best /\
          nth_error (SerialModel.rows tb) j = Some
            [CStr (nth a (t_algorithm_names t) ""%string);
             CNum (Some area_g); CNum (Some density_g); CNum (Some (TraceModel.f_purity good));
             CNum (Some area_b); CNum (Some density_b); CNum (Some (TraceModel.f_purity best))] /\
          let space := TraceModel.t_space (w_trace out) in
          relative (TraceModel.f_area good) (TraceModel.f_area space) area_g /\
          relative (TraceModel.f_density good) (TraceModel.f_density space) density_g /\
          relative (TraceModel.f_area best) (TraceModel.f_area space) area_b /\
          relative (TraceModel.f_density best) (TraceModel.f_density space) density_b /\
          (* the polygons, each in a file of its own *)
          (NoDup (e_algo (w_out out)) ->
           let shown file (fp : TraceModel.footprint G) := match TraceModel.f_polygon fp with
             | Some g => exists tb, d' file = Some tb /\ SerialSpec.footprint_table (shape_of g) tb
             | None => d' file = d file
             end in
           shown (SerialSpec.good_file (nth a (t_algorithm_names t) ""%string)) good /\
           shown (SerialSpec.best_file (nth a (t_algorithm_names t) ""%string)) best).
  Proof.
    intros t o n out cw d d' C H Pm Hs. destruct (built o C H Pm) as (kept & rows & cols0 & cols & acols & D & _).
    destruct D as (_ & _ & _ & _ & _ & _ & _ & Ea & _). cbn [saved_model m_algo_labels] in Ea.
    assert (La : length (e_algo (w_out out)) = length acols) by (rewrite Ea; apply take_len).
    destruct (SerialProps.C93_summaries cw (saved out) d Hs) as ((tb & Et & Hh & Lh & Er) & _).
    destruct (@all_inv string string transform split file pearson order sil km_labels best bfgs quality f16 random fit round3 root cpearson hull G
       is_empty area contains contains_all intersection difference union no_polygon smooth triangulate convex_hull geoms alphashape radius point finished _ _ _ H) as (_ & _ & HT).
    assert (F : length (TraceModel.t_good (w_trace out)) = length acols /\ length (TraceModel.t_best (w_trace out)) = length acols /\
      length (TraceModel.t_summary (w_trace out)) = length acols /\
      forall i, i < length acols -> nth i (TraceModel.t_summary (w_trace out)) (EmptyString, []) =
          (nth i (e_algo (w_out out)) EmptyString, TraceModel.summary (nth i (TraceModel.t_good (w_trace out)) (TraceModel.no_footprint G)) (TraceModel.t_space (w_trace out)) ++
             TraceModel.summary (nth i (TraceModel.t_best (w_trace out)) (TraceModel.no_footprint G)) (TraceModel.t_space (w_trace out)))).
    { unfold TraceModel.run in HT. rewrite La in *. destruct (w_use_sim o);
      apply (@TraceProps.C89_result G is_empty area contains contains_all intersection difference union no_polygon smooth triangulate convex_hull geoms alphashape radius removed_points empty_intersection _ _ _ _ _ _ _ _ _ Pm) in HT;
      destruct HT as (_ & _ & Lg & Lb & _ & _ & Ls & S); auto. }
    destruct F as (Lg & Lb & Ls & S). exists acols, tb. split; auto. split; auto. split.
    { assert (X : forall k, k < 7 -> nth_error (header tb) k = nth_error (map Name ["Row"; "Area_Good_Normalised"; "Density_Good_Normalised"; "Purity_Good";
          "Area_Best_Normalised"; "Density_Best_Normalised"; "Purity_Best"]%string) k).
      { intros k K. destruct (nth_error [0; 2; 4; 5; 7; 9; 10] k) as [c|] eqn:E; [|apply nth_error_None in E; simpl in E; lia].
        destruct (Hh _ _ E) as (nm & En & ->). do 7 (destruct k as [|k]; [cbn in E; injection E as <-; cbn in En; injection En as <-; reflexivity|]). lia. }
      clear - X Lh. destruct (header tb) as [|h0 [|h1 [|h2 [|h3 [|h4 [|h5 [|h6 [|]]]]]]]]; try discriminate.
      pose proof (X 0 ltac:(lia)) as X0. pose proof (X 1 ltac:(lia)) as X1. pose proof (X 2 ltac:(lia)) as X2. pose proof (X 3 ltac:(lia)) as X3.
      pose proof (X 4 ltac:(lia)) as X4. pose proof (X 5 ltac:(lia)) as X5. pose proof (X 6 ltac:(lia)) as X6. cbn in *. congruence. }
    split; [rewrite Er, map_length; cbn [saved_model m_trace_summary summary_frame SerialModel.rows]; rewrite map_length; auto|].
    intros j a Ha. assert (Hj : j < length acols) by (apply nth_error_Some; congruence). specialize (S j Hj).
    destruct (nth_error (TraceModel.t_good (w_trace out)) j) as [g|] eqn:Eg; [|apply nth_error_None in Eg; lia].
    destruct (nth_error (TraceModel.t_best (w_trace out)) j) as [b|] eqn:Eb; [|apply nth_error_None in Eb; lia].
    rewrite (nth_error_nth _ _ _ Eg), (nth_error_nth _ _ _ Eb) in S.
    destruct (TraceProps.C89_summary_row g (TraceModel.t_space (w_trace out))) as (ag & dg & Sg & G1 & G2 & G3 & G4).
    destruct (TraceProps.C89_summary_row b (TraceModel.t_space (w_trace out))) as (ab & db & Sb & B1 & B2 & B3 & B4).
    exists g, b, ag, dg, ab, db. split; auto. split; auto. unfold relative. split; [|do 4 (split; [auto 10|])].
    2:{ intros Nd. cbv zeta.
        destruct (SerialProps.C93_footprints cw (saved out) d Hs Nd (i := j) (l := nth a (t_algorithm_names t) ""%string)) as (F1 & F2 & F3 & F4).
        { cbn [saved_model m_nalgos]. lia. }
        { cbn [saved_model m_algo_labels]. rewrite Ea. unfold take_at. rewrite nth_error_map, Ha. reflexivity. }
        cbn [saved_model m_best m_good] in F1, F2, F3, F4. rewrite nth_error_map, Eb in F1, F3. rewrite nth_error_map, Eg in F2, F4.
        cbn [option_map] in F1, F2, F3, F4.
        split; [destruct (TraceModel.f_polygon g)|destruct (TraceModel.f_polygon b)]; cbn [option_map] in *; auto. }
    rewrite Er, nth_error_map. cbn [saved_model m_trace_summary summary_frame SerialModel.rows]. rewrite nth_error_map.
    rewrite (nth_error_nth' _ (EmptyString, [])) by lia. rewrite S, Sg, Sb. cbn.
    rewrite Ea. unfold take_at.
    rewrite (nth_error_nth _ _ _ (map_nth_error (fun i => nth i (t_algorithm_names t) ""%string) _ _ Ha)). reflexivity.
  Qed.

  (** save_for_web: the same. *)
  Theorem C119_web_files_of_a_built_model :
    forall (t : table_of string string) (o : wopts) (n : nat) out can_write colours d, consistent t n -> build_all t o = Ok out ->
      Permutation finished (seq 0 (length (e_algo (w_out out)))) -> d_x (e_data (w_out out)) <> [] ->
      let m := saved out in
      exists kept rows cols0 cols acols, describes (w_end o) t n m kept rows cols0 cols acols /\
        ((exists d', save_for_web can_write colours true m d = (d', None)) <->
         rows = kept /\ cols = cols0 /\ acols <> [] /\
         can_write "color_table.csv"%string = true /\ forall f, In f (map fst (WebSpec.colour_files m)) -> can_write f = true).
  Proof.
    intros t o n out cw cl d C H Pm Nx m. destruct (built o C H Pm) as (kept & rows & cols0 & cols & acols & D & R). fold m in D, R.
    exists kept, rows, cols0, cols, acols. split; auto.
    destruct D as (Ik & Bk & Ir & Rk & Ch & El & Ef & Ea & Ex & Ey & _).
    destruct R as (Tx & Ty & Vb & Vbe & Vg & Vp & Vs & Lz & Th & Ls & Ei & Na & Lg & Lb & Hs).
    assert (Nr : rows <> []).
    { intros E. destruct Tx as [L _]. rewrite E in L. apply Nx. change (d_x (e_data (w_out out))) with (m_x m). destruct (m_x m); auto. discriminate. }
    assert (LL : length (m_inst_labels m) = length kept) by (rewrite El; apply take_len).
    assert (LF : length (m_feat_labels m) = length cols) by (rewrite Ef; apply take_len).
    assert (LA : length (m_algo_labels m) = length acols) by (rewrite Ea; apply take_len).
    assert (AS : WebSpec.array_shaped m).
    { intros a r Ha Hr.
      assert (X : forall n w, PreprocSpec.table n w a -> length r = width a).
      { intros n' w [_ F]. rewrite Forall_forall in F. rewrite (F r Hr). destruct a as [|r' a]; [destruct Hr|]. simpl. symmetry. apply F. simpl. auto. }
      destruct Ha as [<-|[<-|[<-|[<-|[]]]]]; [rewrite Ex in *|..|]; try (eapply X; eauto using sub_table; fail).
      rewrite Ey in *. eapply X. apply raw_table. }
    rewrite (WebProps.C96_when_it_returns cw cl d AS). split.
    - intros (K & W). destruct K as (_ & Ka & _ & Kx & Ki & _). rewrite Ex in Kx. unfold subtable in Kx. rewrite map_length in Kx.
      assert (rows = kept) by (apply increasing_all; auto; congruence).
      split; auto. split; [|split; auto].
      + apply chosen_all; auto. rewrite Ei, seq_length, LF in Ki. auto.
      + intro E. apply Ka. rewrite Ea, E. reflexivity.
    - intros (E & E0 & Nac & W). split; auto. assert (Er : length (m_inst_labels m) = length rows) by congruence.
      assert (Nl : forall (A : Type) (l : list A) (l' : list nat), length l = length l' -> l' <> [] -> l <> []).
      { intros A [|? ?] [|? ?]; simpl; congruence. }
      unfold WebSpec.web_consistent, SerialSpec.fits. cbv zeta. repeat apply conj.
      + eapply Nl; eauto.
      + eapply Nl; eauto.
      + intros j Hj. rewrite Ex, width_sub by auto. rewrite Ei in Hj. apply in_seq in Hj. lia.
      + rewrite Ex, Er. apply sub_table.
      + rewrite Ei, seq_length. congruence.
      + rewrite Er. apply Tx.
      + intros r Hr. rewrite LF. destruct Tx as [_ F]. rewrite Forall_forall in F. auto.
      + rewrite Ey, Er. apply raw_table.
      + intros r Hr. rewrite LA. rewrite Ey in Hr. destruct (raw_table (o_prelim (w_end o)) (t_algorithms t) rows acols) as [_ F]. rewrite Forall_forall in F. auto.
      + rewrite Er. apply Ty.
      + intros r Hr. rewrite LA. destruct Ty as [_ F]. rewrite Forall_forall in F. auto.
      + rewrite Vg, Er. apply map_length.
  Qed.

  (** save_graphs: it always returns.  For differing names (C100), the plots of measured performance tell the
      retained instances apart as the metadata do, except that no instance whose best algorithm is the last one is on
      the portfolio plot. *)
  Theorem C119_plots_of_a_built_model :
    forall (t : table_of string string) (o : wopts) (n : nat) out log10p1 d, consistent t n -> build_all t o = Ok out ->
      Permutation finished (seq 0 (length (e_algo (w_out out)))) -> d_x (e_data (w_out out)) <> [] ->
      let m := saved out in
      exists kept rows cols0 cols acols d', describes (w_end o) t n m kept rows cols0 cols acols /\
        DrawModel.save_graphs log10p1 (w_use_sim o) m (length cols) true d = (d', None) /\
        (NoDup (m_feat_labels m) -> NoDup (m_algo_labels m) -> ~ In "portfolio"%string (m_algo_labels m) ->
         abs_perf (o_prelim (w_end o)) = true ->
         (forall j a, nth_error acols j = Some a -> exists pl,
            d' (append "binary_performance_" (append (nth a (t_algorithm_names t) ""%string) ".png")) = Some pl /\
            forall k i, nth_error rows k = Some i ->
              (DrawSpec.drawn_under pl k "GOOD" <-> good_on t (o_prelim (w_end o)) i a) /\
              (DrawSpec.drawn_under pl k "BAD" <-> ~ good_on t (o_prelim (w_end o)) i a)) /\
         (exists pl, d' "distribution_portfolio.png"%string = Some pl /\
            forall k i j b leg, nth_error rows k = Some i ->
              first_best (o_prelim (w_end o)) (map (cell (t_algorithms t) i) acols) j b ->
              (DrawSpec.drawn_under pl k leg <->
               Nat.succ j < length acols /\ leg = spaces (nth (nth j acols 0) (t_algorithm_names t) ""%string))) /\
         forall s, t_sources t = Some s -> exists pl, d' "distribution_sources.png"%string = Some pl /\
            forall k i leg, nth_error rows k = Some i -> (DrawSpec.drawn_under pl k leg <-> leg = nth i s ""%string)).
  Proof.
    intros t o n out lg d C H Pm Nx m. destruct (built o C H Pm) as (kept & rows & cols0 & cols & acols & D & R). fold m in D, R.
    pose proof D as (Ik & Bk & Ir & Rk & Ch & El & Ef & Ea & Ex & Ey & _).
    destruct R as (Tx & Ty & Vb & Vbe & Vg & Vp & Vs & Lz & Th & Ls & Ei & Na & Lg & Lb & Hs).
    assert (Nr : 0 < length rows).
    { destruct rows; [|simpl; lia]. destruct Tx as [L _]. exfalso. apply Nx. change (d_x (e_data (w_out out))) with (m_x m). destruct (m_x m); auto. discriminate. }
    assert (LF : length (m_feat_labels m) = length cols) by (rewrite Ef; apply take_len).
    assert (LA : length (m_algo_labels m) = length acols) by (rewrite Ea; apply take_len).
    assert (Fi : DrawSpec.fits m (length rows) (length cols)).
    { unfold DrawSpec.fits. repeat apply conj; auto; try apply Tx; try apply Th; try congruence.
      - rewrite Ey. apply raw_table.
      - rewrite Vb. apply map_length.
      - rewrite Vp. apply map_length.
      - rewrite Vbe. apply map_length.
      - rewrite Vg. apply map_length.
      - intros s E. rewrite Vs in E. destruct (t_sources t); [|discriminate]. injection E as <-. apply take_len. }
    destruct (DrawProps.C116_what_each_plot_shows lg (w_use_sim o) d Fi) as (d' & Sv & _ & Sh).
    exists kept, rows, cols0, cols, acols, d'. split; auto. split; auto. intros N1 N2 N3 Ab.
    assert (Nd : NoDup (graph_names m)) by (apply PlotProps.C100_different_files; auto).
    specialize (Sh Nd). cbv zeta in Sh. destruct Sh as (_ & Sa & _ & Sp & _ & _ & Ss & _).
    assert (Bnd : forall (A : Type) (l : list A) k x, nth_error l k = Some x -> k < length l) by (intros; apply nth_error_Some; congruence).
    split; [|split].
    - intros j a Hj. assert (Nj : nth_error (m_algo_labels m) j = Some (nth a (t_algorithm_names t) ""%string)).
      { rewrite Ea. unfold take_at. rewrite nth_error_map, Hj. reflexivity. }
      destruct (Sa j _ Nj) as (_ & _ & (pl & Ed & _ & (_ & _ & Dr)) & _). exists pl. split; [exact Ed|].
      intros k i Hk. rewrite !Dr. pose proof (Bnd _ _ _ _ Hk) as Lk.
      assert (Q : nth k (DrawSpec.flags_of (m_y_bin m) j) false = true <-> good_on t (o_prelim (w_end o)) i a).
      { unfold DrawSpec.flags_of. rewrite Vb, map_map. erewrite (nth_error_nth (map _ rows)) by (rewrite nth_error_map, Hk; reflexivity).
        assert (Gn : forall l j, nth j l false = true <-> good_at l j).
        { unfold good_at. induction l as [|b l IH]; intros [|q]; simpl; try (split; discriminate); auto. split; intros Q; [f_equal; auto|injection Q as Q; auto]. }
        rewrite Gn, C38_absolute_test; auto.
        - rewrite nth_error_map, Hj. cbn [option_map]. unfold good_on. split; intros (v & Q & Q'); exists v; (split; [|exact Q']); [injection Q as Q; exact Q|f_equal; exact Q].
        - intro Q. apply map_eq_nil in Q. subst acols. destruct j; discriminate. }
      rewrite <- Q. unfold DrawSpec.good_or_bad. destruct (nth k (DrawSpec.flags_of (m_y_bin m) j) false); intuition discriminate.
    - destruct Sp as (pl & Ed & _ & Dr). exists pl. split; auto. intros k i j b leg Hk Fb. rewrite Dr. pose proof (Bnd _ _ _ _ Hk) as Lk.
      assert (P : nth k (m_p m) 0 = Nat.succ j).
      { rewrite Vp. erewrite (nth_error_nth (map _ rows)) by (rewrite nth_error_map, Hk; reflexivity).
        assert (Nrow : map (cell (t_algorithms t) i) acols <> []) by (intro Q; rewrite Q in Fb; destruct Fb as (Q' & _); destruct j; discriminate).
        destruct (C37_best_performance_and_algorithm (o_prelim (w_end o)) Nrow) as [(k' & b' & Fb' & _ & Q)|(Q & _)].
        - rewrite Q by auto. destruct (PrelimProofs.first_best_value Fb Fb') as (_ & ->). reflexivity.
        - destruct Fb as (Q' & _). apply nth_error_In in Q'. specialize (Q _ Q'). discriminate. }
      rewrite P, Na. unfold PlotProps.shown_label, Nat.succ. rewrite Ea. unfold take_at.
      assert (Q : S j < length acols -> nth j (map (fun i => nth i (t_algorithm_names t) ""%string) acols) ""%string = nth (nth j acols 0) (t_algorithm_names t) ""%string).
      { intros Hj. rewrite (nth_indep _ ""%string (nth 0 (t_algorithm_names t) ""%string)) by (rewrite map_length; lia). apply (map_nth (fun i => nth i (t_algorithm_names t) ""%string)). }
      split; [intros (_ & A & B)|intros (A & B)]; rewrite Q in * by auto; auto.
    - intros s Es. rewrite Es in Vs. destruct (Ss _ Vs) as (pl & Ed & _ & (_ & _ & Dr)). exists pl. split; auto.
      intros k i leg Hk. rewrite Dr. pose proof (Bnd _ _ _ _ Hk) as Lk. unfold take_at. erewrite (nth_error_nth (map _ rows)) by (rewrite nth_error_map, Hk; reflexivity). tauto.
  Qed.
End Saved.

(** The metadata of C112_met with texts as labels and one more instance; with [flag], PRELIM takes the first two
    instances (an index file).  With four features, SIFTED keeps the two most correlated ones. *)
Definition sv_table (four : bool) : table_of string string :=
  let more := if four then [z 1; z 1] else [] in
  {| t_feature_names := ["feature_a"; "feature_b"]%string ++ (if four then ["feature_c"; "feature_d"]%string else []);
     t_algorithm_names := ["algo_a"; "algo_b"]%string;
     t_labels := ["i1"; "i2"; "i3"; "i4"]%string; t_sources := Some ["s"; "s"; "r"; "r"]%string;
     t_features := [[z 1; z 2] ++ more; [None; None] ++ map (fun _ => None) more; [z 3; z 5] ++ more; [z 2; z 7] ++ more];
     t_algorithms := [[z 1; z 4]; [z 2; z 2]; [z 6; z 3]; [z 5; z 4]] |}.
Definition sv_opts (flag : bool) : wopts :=
  {| w_end := {| o_feats := None; o_algos := None; o_prelim := o_prelim ex_opts;
       o_sel := {| small_scale_flag := false; small_scale_float := true; file_idx_flag := flag; file_exists := flag;
                   density_flag := false; min_distance_float := true; type_str := true; selvars_type := "Ftr"%string; min_distance := 1 |};
       o_rho := o_rho ex_opts; o_k := o_k ex_opts; o_pilot := o_pilot ex_opts; o_weights := false; o_params := None |};
     w_p_val := 1#20; w_c_thres := 7#10; w_use_sim := false; w_purity := 1#2; w_cores := 2 |}.
Definition sv_build (four flag : bool) : res wherr (whole_out string string unit) :=
  build_all (build (map Some) None [1; 2]%Z (fun _ => (Some 0%Q, Some 0%Q)) (fun _ j => [j; 2; 3; 1 - j]) (fun _ => []) (fun _ => []) (fun _ => [])
      (fun g => (g, Some 0%Q)) (fun _ => Ok (Some 1%Q)) (fun v => v) (fun _ _ => [])
      (fun _ _ _ col _ => Ok {| PythiaModel.r_ysub := col; PythiaModel.r_psub := []; PythiaModel.r_yhat := col;
                                PythiaModel.r_phat := []; PythiaModel.r_c := None; PythiaModel.r_g := None |})
      (fun v => v) (fun v => v))
      (fun _ _ => Ok (Some 0%Q, Some 1%Q)) (fun l => Some (seq 0 (length l)))
      (fun _ => true) (fun _ => 0%Q) (fun _ _ => false) (fun _ _ => false) (fun a _ => a) (fun a _ => a) (fun a _ => a) tt
      (fun a => a) (fun _ => []) (fun a => a) (fun _ => []) (fun _ => None) (fun _ _ => 1%Z)
      (fun _ => (0, 0)%Z) [1; 0] (sv_table four) (sv_opts flag).
Definition no_rows : SerialModel.table := {| header := []; SerialModel.rows := [] |}.
Definition sv_saved : whole_out string string unit -> model := saved_model (fun _ => Collection).
Lemma sv_consistent four : consistent (sv_table four) 4.
Proof.
  destruct four; (split; [|split; [|split]]; try (split; [reflexivity|repeat constructor]); [reflexivity|]; intros l E; injection E as <-; reflexivity).
Qed.
(** Nothing is dropped by PRELIM and SIFTED: the files are written and the plots are drawn. *)
Example C119_met : consistent (sv_table false) 4 /\ exists out, sv_build false false = Ok out /\
  Permutation [1; 0] (seq 0 (length (e_algo (w_out out)))) /\ d_x (e_data (w_out out)) <> [] /\
  (exists d' tb, save_to_csv (fun _ => true) true (sv_saved out) (fun _ => None) = (d', None) /\
     d' "feature_raw.csv"%string = Some tb /\
     SerialModel.rows tb = [[CStr "i1"; CNum (z 1); CNum (z 2)]; [CStr "i3"; CNum (z 3); CNum (z 5)]; [CStr "i4"; CNum (z 2); CNum (z 7)]]%string) /\
  (exists d', save_for_web (fun _ => true) no_rows true (sv_saved out) (fun _ => None) = (d', None)) /\
  (exists d' pl, DrawModel.save_graphs (fun v => v) false (sv_saved out) 2 true (fun _ => None) = (d', None) /\
     d' "binary_performance_algo_a.png"%string = Some pl /\
     DrawModel.d_groups pl = [(Some "BAD", [0]); (Some "GOOD", [1; 2])]%string) /\
  NoDup (m_feat_labels (sv_saved out)) /\ NoDup (m_algo_labels (sv_saved out)) /\ ~ In "portfolio"%string (m_algo_labels (sv_saved out)).
Proof.
  split; [apply sv_consistent|]. eexists. split; [vm_compute; reflexivity|]. split; [apply perm_swap|]. split; [discriminate|].
  split; [|split; [|split]].
  - do 2 eexists. split; [reflexivity|]. split; [reflexivity|]. vm_compute. reflexivity.
  - eexists. vm_compute. reflexivity.
  - do 2 eexists. split; [reflexivity|]. split; [reflexivity|]. vm_compute. reflexivity.
  - vm_compute. repeat split; try (repeat constructor; simpl; intuition discriminate).
Qed.
(** A run that completes need not be saveable: not after PRELIM has selected instances, not after SIFTED has
    dropped a feature, whatever files can be written. *)
Theorem C119_every_built_model_can_be_saved_refuted :
  forall four, exists out, consistent (sv_table four) 4 /\ sv_build four (negb four) = Ok out /\
    (if four then length (e_feat (w_out out)) = 2 /\ length (t_feature_names (sv_table four)) = 4
     else length (d_x (e_data (w_out out))) = 2 /\ length (d_labels (e_data (w_out out))) = 3) /\
    forall can_write colours d d', save_to_csv can_write true (sv_saved out) d <> (d', None) /\
      save_for_web can_write colours true (sv_saved out) d <> (d', None).
Proof.
  intros four.
  assert (W : forall m, (~ SerialSpec.consistent m) -> (WebSpec.array_shaped m /\ ~ WebSpec.web_consistent m) ->
     forall can_write colours d d', save_to_csv can_write true m d <> (d', None) /\ save_for_web can_write colours true m d <> (d', None)).
  { intros m A (B1 & B2) cw cl d d'. split; intro E.
    - apply A. apply (proj1 (SerialProps.C94_when_it_returns cw m d)). eauto.
    - apply B2. apply (proj1 (WebProps.C96_when_it_returns cw cl d B1)). eauto. }
  destruct four; eexists; (split; [apply sv_consistent|]); (split; [vm_compute; reflexivity|]); (split; [vm_compute; auto|]); apply W.
  - intros (_ & _ & _ & _ & X & _). vm_compute in X. assert (Y : 4 = 2) by (apply X; discriminate). discriminate.
  - split; [|intros (_ & _ & _ & _ & X & _); vm_compute in X; discriminate].
    intros a r Ha Hr. vm_compute in Ha. intuition (subst; vm_compute in Hr; intuition (subst; reflexivity)).
  - intros (_ & X & _). vm_compute in X. discriminate.
  - split; [|intros (_ & _ & _ & X & _); vm_compute in X; discriminate].
    intros a r Ha Hr. vm_compute in Ha. intuition (subst; vm_compute in Hr; intuition (subst; reflexivity)).
Qed.

Print Assumptions C119_csv_files_of_a_built_model.
Print Assumptions C140_saving_needs_a_boundary.
Print Assumptions C119_result_files_of_a_built_model.
Print Assumptions C119_footprint_table_of_a_built_model.
Print Assumptions C119_web_files_of_a_built_model.
Print Assumptions C119_plots_of_a_built_model.
Print Assumptions C119_every_built_model_can_be_saved_refuted.
