(** Property C115: boundary and footprints of the whole pipeline, in terms of the metadata. *)
From Coq Require Import Lqa Permutation.
From Verif Require Import BaseLemmas Mat Ext PreprocSpec PrelimModel PrelimSpec PrelimProps HandOnModel EndModel EndProps WholeModel.
From Verif Require PilotModel PythiaModel CloisterModel CloisterSpec CloisterProofs CloisterProps TraceModel TraceSpec TraceProps SiftedProofs PreprocModel PythiaSpec PythiaProps TracePipelineProps.
Set Implicit Arguments.
Open Scope nat_scope.
Open Scope list_scope.

(** Algorithm a is good on instance i of the metadata, with an absolute threshold. *)
Definition good_on {L S} (t : table_of L S) (o : popts) (i a : nat) : Prop :=
  exists v, cell (t_algorithms t) i a = Some v /\ (if max_perf o then epsilon o <= v else v <= epsilon o)%Q.

Section Whole.
  Variables L S : Type.
  Variables (dl : L) (ds : S).
  Variable transform : list Q -> list num.
  Variable split : option (list nat).
  Variable file : list Z.
  Variable pearson : list (Q * Q) -> num * num.
  Variable order : list (list Q) -> nat -> list nat.
  Variable sil : list nat -> list Q.
  Variable km_labels : list nat -> list nat.
  Variable best : list nat -> list Z.
  Variable bfgs : list num -> list num * num.
  Variable quality : list (list num) -> res PilotModel.pierr num.
  Variable f16 : num -> num.
  Variable random : nat -> nat -> list (list num).
  Variable fit : list (list num) -> nat -> PythiaModel.hyper -> list bool -> list num -> res PythiaModel.pyerr PythiaModel.svm_res.
  Variable round3 : num -> num.
  Variable root : num -> num.
  Notation build := (build transform split file pearson order sil km_labels best bfgs quality f16 random fit round3 root).
  Variable cpearson : list num -> list num -> res CloisterModel.clerr (num * num).
  Variable hull : list (list num) -> option (list nat).
  Variable G : Type.
  Variable is_empty : G -> bool.
  Variable area : G -> Q.
  Variable contains : G -> TraceModel.pt -> bool.
  Variable contains_all : G -> list TraceModel.pt -> bool.
  Variable intersection difference union : G -> G -> G.
  Variable no_polygon : G.
  Variable smooth : G -> G.
  Variable triangulate : G -> list G.
  Variable convex_hull : G -> G.
  Variable geoms : G -> list G.
  Variable alphashape : list TraceModel.pt -> option G.
  Variable radius : list TraceModel.pt -> nat -> Z.
  Variable point : list num -> TraceModel.pt.
  Variable finished : list nat.
  (** what is left of a polygon after a difference contains none of the points of what was taken away;
      the intersection with an empty polygon is empty *)
  Hypothesis removed_points : forall a c s q l,
    In s (geoms (difference a c)) -> contains c q = true -> In q l -> contains_all s l = false.
  Hypothesis empty_intersection : forall a b, is_empty a = true -> is_empty (intersection a b) = true.
  Notation build_all := (build_all build cpearson hull is_empty area contains contains_all intersection difference union no_polygon smooth
    triangulate convex_hull geoms alphashape radius point finished).
  Notation footprint := (TraceModel.build is_empty area contains difference union no_polygon smooth triangulate convex_hull alphashape radius).

  Lemma all_inv t o (out : whole_out L S G) : build_all t o = Ok out ->
    build t (w_end o) = Ok (w_out out) /\
    CloisterModel.cloister cpearson hull (d_x (e_data (w_out out))) (PilotModel.po_a (e_pilot (w_out out))) (length (e_feat (w_out out)))
      (w_p_val o) (w_c_thres o) = Ok (w_edge out, w_ecorr out) /\
    TraceModel.run is_empty area contains contains_all intersection difference union no_polygon smooth
      triangulate convex_hull geoms alphashape radius (w_use_sim o)
      (map point (PilotModel.po_z (e_pilot (w_out out)))) (w_purity o) (PythiaModel.o_selection0 (e_pythia (w_out out))) (d_p (e_data (w_out out)))
      (PythiaModel.o_y_hat (e_pythia (w_out out))) (d_bin (e_data (w_out out))) (d_beta (e_data (w_out out))) (e_algo (w_out out))
      (length (e_algo (w_out out))) (w_cores o) finished = Ok (w_trace out).
  Proof.
    unfold WholeModel.build_all. destruct (build t (w_end o)) as [e|x] eqn:E1; [|discriminate].
    destruct (CloisterModel.cloister _ _ _ _ _ _ _) as [[ze zc]|x] eqn:E2; [|discriminate].
    destruct (TraceModel.run _ _ _ _ _ _ _ _ _ _ _ _ _ _ _ _ _ _ _ _ _ _ _ _ _ _) as [tr|x] eqn:E3; [|discriminate].
    intros H. injection H as <-. auto.
  Qed.

  (** Every instance of the metadata that the pipeline retained lies, with its own coordinates, within the
      boundary that CLOISTER reports; for processed features and projection without missing values, unless
      the boundary is empty (no hull of the projected corners could be computed). *)
  Theorem C115_instances_lie_within_the_boundary :
    forall (t : table_of L S) (o : wopts) (n : nat) (out : whole_out L S G), consistent t n -> build_all t o = Ok out ->
      CloisterSpec.hull_correct hull ->
      (forall r, In r (d_x (e_data (w_out out))) -> ~ In None r) ->
      (forall r, In r (PilotModel.po_a (e_pilot (w_out out))) -> ~ In None r) ->
      w_edge out <> [] ->
      exists rows, increasing rows /\ (forall i, In i rows -> i < n) /\
        length (PilotModel.po_z (e_pilot (w_out out))) = length rows /\
        forall k, k < length rows ->
          exists p, nth k (PilotModel.po_z (e_pilot (w_out out))) [] = map Some p /\ CloisterSpec.in_hull (w_edge out) p.
  Proof.
    intros t o n out C H HC Nx Na Hh. destruct (all_inv _ _ H) as (HB & HCl & _).
    destruct (C112_rows_and_columns dl ds _ _ _ _ _ _ _ _ _ _ _ _ _ _ _ _ C HB)
      as (kept & rows & cols0 & cols & acols & _ & Bk & Ir & Rk & _ & _ & _ & Ef & _ & _ & _ & _ & _ & Tx & _ & _ & _ & _ & Z & _).
    exists rows. split; auto. split; auto. destruct Tx as [Lx Wx]. split; [rewrite Z, map_length; auto|].
    intros k Hk. rewrite Z.
    assert (Lf : length (e_feat (w_out out)) = length cols) by (rewrite Ef; unfold take_at; apply map_length).
    assert (Cx : CloisterSpec.complete (d_x (e_data (w_out out))) (length (e_feat (w_out out)))).
    { split.
      - intros E. rewrite E in Lx. simpl in Lx. lia.
      - intros r Hr. rewrite Lf. split; auto. rewrite Forall_forall in Wx. auto. }
    rewrite (nth_indep _ [] (mulv (PilotModel.po_a (e_pilot (w_out out))) [])) by (rewrite map_length; lia). rewrite map_nth.
    eapply CloisterProps.C75_plain_boundary_encloses_instances; eauto; [|apply nth_In; lia].
    intros E. apply Hh. destruct (@CloisterProofs.cloister_inv _ _ _ _ _ _ _ _ _ HCl) as (_ & rho & _ & Ez & _).
    rewrite Ez. unfold CloisterModel.compute_convex_hull. rewrite E. reflexivity.
  Qed.

  (** The footprints, from measured performances (use_sim off) with an absolute threshold: the space is
      that of all retained instances; the good footprint of an algorithm is built from the retained
      instances on which the metadata say it is good; the hard region from those with too few good
      algorithms. *)
  Theorem C115_footprints_in_terms_of_the_metadata :
    forall (t : table_of L S) (o : wopts) (n : nat) (out : whole_out L S G), consistent t n -> build_all t o = Ok out ->
      Permutation finished (seq 0 (length (e_algo (w_out out)))) ->
      w_use_sim o = false -> abs_perf (o_prelim (w_end o)) = true ->
      let points := map point (PilotModel.po_z (e_pilot (w_out out))) in
      exists rows acols, increasing rows /\ (forall i, In i rows -> i < n) /\ length points = length rows /\
        e_algo (w_out out) = take_at ""%string (t_algorithm_names t) acols /\
        footprint points (w_purity o) (repeat true (length rows)) = Ok (TraceModel.t_space (w_trace out)) /\
        (forall j a, nth_error acols j = Some a -> exists flags, length flags = length rows /\
           (forall k i, nth_error rows k = Some i -> (nth k flags false = true <-> good_on t (o_prelim (w_end o)) i a)) /\
           footprint points (w_purity o) flags = Ok (nth j (TraceModel.t_good (w_trace out)) (TraceModel.no_footprint G))) /\
        (exists flags, length flags = length rows /\
           (forall k i, nth_error rows k = Some i ->
              (nth k flags false = true <->
               exists js, increasing js /\ (forall j, In j js <-> exists a, nth_error acols j = Some a /\ good_on t (o_prelim (w_end o)) i a) /\
                 (inject_Z (Z.of_nat (length js)) <= beta_threshold (o_prelim (w_end o)) * inject_Z (Z.of_nat (length acols)))%Q)) /\
           footprint points (w_purity o) flags = Ok (TraceModel.t_hard (w_trace out))).
  Proof.
    intros t o n out C H Pm Us A points. destruct (all_inv _ _ H) as (HB & _ & HT).
    destruct (C112_rows_and_columns dl ds _ _ _ _ _ _ _ _ _ _ _ _ _ _ _ _ C HB)
      as (kept & rows & cols0 & cols & acols & _ & Bk & Ir & Rk & _ & _ & _ & Ef & Ea & _ & _ & _ & _ & Tx & _ & _ & _ & V & Z & _).
    cbv zeta in V. destruct V as (Vb & Vbe & _).
    unfold TraceModel.run in HT. rewrite Us in HT.
    apply (@TraceProps.C89_result G is_empty area contains contains_all intersection difference union no_polygon smooth triangulate convex_hull geoms alphashape radius removed_points empty_intersection _ _ _ _ _ _ _ _ _ Pm) in HT.
    destruct HT as (Sp & Hd & _ & _ & Gd & _).
    exists rows, acols. split; auto. split; auto. split; [unfold points; rewrite map_length, Z, map_length; apply Tx|]. split; auto.
    assert (La : length (e_algo (w_out out)) = length acols) by (rewrite Ea; unfold take_at; apply map_length).
    assert (Gi : forall i j a, nth_error acols j = Some a ->
               (good_at (r_bin (prelim_row (o_prelim (w_end o)) (map (cell (t_algorithms t) i) acols))) j <-> good_on t (o_prelim (w_end o)) i a)).
    { intros i j a Hj. rewrite C38_absolute_test; auto.
      - rewrite nth_error_map, Hj. cbn [option_map]. unfold good_on. split; intros (v & E & Q); exists v; (split; [|exact Q]); [injection E as E; exact E|f_equal; exact E].
      - intro E. apply map_eq_nil in E. subst. destruct j; discriminate. }
    assert (Gn : forall l j, nth j l false = true <-> good_at l j).
    { unfold good_at. induction l as [|b l IH]; intros [|j]; simpl; try (split; discriminate); auto. split; intros E; [f_equal; auto|injection E as E; auto]. }
    split.
    { rewrite Vb, map_map in Sp. unfold points. rewrite <- Sp. f_equal. clear. induction rows; simpl; congruence. }
    split.
    - intros j a Hj. assert (Lj : j < length acols) by (apply nth_error_Some; congruence).
      exists (map (fun r => nth j r false) (d_bin (e_data (w_out out)))). split; [rewrite Vb, !map_length; auto|]. split.
      + intros k i Hk. rewrite Vb, map_map. erewrite nth_error_nth by (rewrite nth_error_map, Hk; reflexivity). rewrite Gn. auto.
      + apply Gd. lia.
    - exists (map negb (d_beta (e_data (w_out out)))). split; [rewrite Vbe, !map_length; auto|]. split; auto.
      intros k i Hk. rewrite Vbe, map_map. erewrite nth_error_nth by (rewrite nth_error_map, Hk; reflexivity).
      set (row := map (cell (t_algorithms t) i) acols) in *. destruct (C38_counts (o_prelim (w_end o)) row) as (Cn & Lb & Be).
      assert (Lr : length row = length acols) by (unfold row; apply map_length).
      set (bin := r_bin (prelim_row (o_prelim (w_end o)) row)) in *.
      assert (X : exists js, increasing js /\ (forall j, In j js <-> good_at bin j) /\ length js = length (filter (fun b => b) bin)).
      { clear. induction bin as [|b l IH].
        - exists []. split; [constructor|]. split; auto. intros j. unfold good_at. destruct j; simpl; split; try tauto; discriminate.
        - destruct IH as (js & I & M & Ln). exists ((if b then [0] else []) ++ map Nat.succ js).
          assert (Im : increasing (map Nat.succ js)).
          { clear - I. unfold increasing in *. induction I as [|x m ? IHm F]; simpl; constructor; auto.
            apply Forall_forall. intros y Hy. apply in_map_iff in Hy. destruct Hy as (z & <- & Hz). rewrite Forall_forall in F. specialize (F z Hz). unfold Nat.succ in *. lia. }
          split; [|split].
          + destruct b; simpl; auto. constructor; auto. apply Forall_forall. intros y Hy. apply in_map_iff in Hy. destruct Hy as (z & <- & Hz). unfold Nat.succ. lia.
          + intros j. unfold good_at in *. rewrite in_app_iff, in_map_iff. destruct j as [|j]; simpl.
            * destruct b; simpl; split; auto; try discriminate. intros [[]|(x & E & _)]; discriminate.
            * rewrite <- M. split.
              -- intros [Hj|(x & E & Hx)]; [destruct b; simpl in Hj; intuition discriminate|]. injection E as ->. auto.
              -- intros Hj. right. exists j. auto.
          + rewrite app_length, map_length, Ln. destruct b; reflexivity. }
      destruct X as (js & Ij & Mj & Lj). rewrite <- Cn in Lj.
      assert (Mj' : forall j, In j js <-> exists a, nth_error acols j = Some a /\ good_on t (o_prelim (w_end o)) i a).
      { intros j. rewrite Mj. destruct (nth_error acols j) as [a|] eqn:Ej.
        - split; [intros Hg; exists a; split; auto; apply (Gi i j a Ej); exact Hg|].
          intros (a' & E & Hg). injection E as <-. apply (Gi i j a Ej); exact Hg.
        - split; [|intros (a & E & _); discriminate]. intros Hg. exfalso. unfold good_at in Hg.
          apply nth_error_None in Ej. assert (nth_error bin j = None) by (apply nth_error_None; lia). congruence. }
      destruct (r_beta (prelim_row (o_prelim (w_end o)) row)) eqn:Eb; cbn [negb].
      + split; [discriminate|]. intros (js' & I' & M' & Le). exfalso. assert (B : true = true) by auto. apply Be in B.
        assert (Ejs : length js' = length js).
        { apply Nat.le_antisymm; apply NoDup_incl_length; try (apply SiftedProofs.increasing_nodup; auto; fail);
            intros j Hj; [apply Mj', M'|apply M', Mj']; auto. }
        rewrite Ejs, Lj in Le. rewrite Lr in B. lra.
      + split; auto. intros _. exists js. split; auto. split; auto. rewrite Lj.
        destruct (Qlt_le_dec (beta_threshold (o_prelim (w_end o)) * inject_Z (Z.of_nat (length acols)))
                    (inject_Z (Z.of_nat (r_good (prelim_row (o_prelim (w_end o)) row))))) as [Q|Q]; auto.
        exfalso. rewrite Lr in Be. apply Be in Q. discriminate.
  Qed.

  (** The best footprints, from measured performances: those of the first algorithm are always empty, and
      those reported for algorithm j + 1 are built from the retained instances for which the metadata say
      algorithm j is the first with the best performance. *)
  Theorem C115_best_footprint_of_its_algorithm_refuted :
    forall (t : table_of L S) (o : wopts) (n : nat) (out : whole_out L S G), consistent t n -> build_all t o = Ok out ->
      Permutation finished (seq 0 (length (e_algo (w_out out)))) ->
      w_use_sim o = false -> abs_perf (o_prelim (w_end o)) = true \/ max_perf (o_prelim (w_end o)) = true ->
      let points := map point (PilotModel.po_z (e_pilot (w_out out))) in
      exists rows acols, increasing rows /\ (forall i, In i rows -> i < n) /\ length points = length rows /\
        e_algo (w_out out) = take_at ""%string (t_algorithm_names t) acols /\
        ((forall i, In i rows -> exists a v, In a acols /\ cell (t_algorithms t) i a = Some v) ->
         (0 < length acols -> TraceModel.f_polygon (nth 0 (TraceModel.t_best (w_trace out)) (TraceModel.no_footprint G)) = None) /\
         forall j, Nat.succ j < length acols -> exists flags, length flags = length rows /\
           (forall k i, nth_error rows k = Some i ->
              (nth k flags false = true <-> exists b, first_best (o_prelim (w_end o)) (map (cell (t_algorithms t) i) acols) j b)) /\
           footprint points (w_purity o) flags = Ok (nth (Nat.succ j) (TraceModel.t_best (w_trace out)) (TraceModel.no_footprint G))).
  Proof.
    intros t o n out C H Pm Us A points. destruct (all_inv _ _ H) as (HB & _ & HT).
    destruct (C112_rows_and_columns dl ds _ _ _ _ _ _ _ _ _ _ _ _ _ _ _ _ C HB)
      as (kept & rows & cols0 & cols & acols & _ & Bk & Ir & Rk & _ & _ & _ & Ef & Ea & _ & _ & _ & _ & Tx & _ & _ & _ & V & Z & _).
    cbv zeta in V. destruct V as (_ & _ & _ & _ & Vp). rewrite Us in HT.
    exists rows, acols. split; auto. split; auto. split; [unfold points; rewrite map_length, Z, map_length; apply Tx|]. split; auto.
    intros Sv. assert (La : length (e_algo (w_out out)) = length acols) by (rewrite Ea; unfold take_at; apply map_length).
    set (y := map (fun i => map (cell (t_algorithms t) i) acols) rows).
    assert (Ep : d_p (e_data (w_out out)) = map (fun row => r_p (prelim_row (o_prelim (w_end o)) row)) y)
      by (rewrite Vp; unfold y; rewrite map_map; reflexivity).
    rewrite Ep in HT.
    apply (TracePipelineProps.C52_best_footprints_are_shifted is_empty area contains contains_all intersection difference union no_polygon smooth triangulate convex_hull geoms alphashape radius removed_points empty_intersection _ _ _ _ _ _ _ _ Pm) in HT; auto.
    - destruct HT as (_ & H0 & H1). rewrite La in *. split; [intros Hn; rewrite (H0 Hn); reflexivity|].
      intros j Hj. destruct (H1 j Hj) as (fl & Lf & Ff & Bf). exists fl. split; [rewrite Lf; unfold y; apply map_length|]. split; auto.
      intros k i Hk. apply Ff. unfold y. rewrite nth_error_map, Hk. reflexivity.
    - intros row Hr. unfold y in Hr. apply in_map_iff in Hr. destruct Hr as (i & <- & Hi). destruct (Sv i Hi) as (a & v & Ha & E).
      exists v. apply in_map_iff. eauto.
  Qed.

  (** With simulated selections (use_sim on) the footprints are built from PYTHIA's predictions for the
      retained instances; an instance for which no algorithm is predicted good counts as one for which the
      first algorithm is best. *)
  Theorem C115_footprints_from_predictions :
    forall (t : table_of L S) (o : wopts) (n : nat) (out : whole_out L S G), consistent t n -> build_all t o = Ok out ->
      Permutation finished (seq 0 (length (e_algo (w_out out)))) -> w_use_sim o = true ->
      let points := map point (PilotModel.po_z (e_pilot (w_out out))) in
      let py := e_pythia (w_out out) in
      exists rows acols, increasing rows /\ (forall i, In i rows -> i < n) /\ length points = length rows /\
        e_algo (w_out out) = take_at ""%string (t_algorithm_names t) acols /\
        table (length rows) (length acols) (PythiaModel.o_y_hat py) /\
        forall j, j < length acols ->
          footprint points (w_purity o) (map (fun k => PythiaSpec.flag (PythiaModel.o_y_hat py) k j) (seq 0 (length rows)))
            = Ok (nth j (TraceModel.t_good (w_trace out)) (TraceModel.no_footprint G)) /\
          exists flags, length flags = length rows /\
            (forall k, k < length rows ->
               (nth k flags false = true <->
                PythiaSpec.best_candidate py (length acols) k j \/ (j = 0 /\ ~ exists c, PythiaSpec.candidate py (length acols) k c))) /\
            footprint points (w_purity o) flags = Ok (nth j (TraceModel.t_best (w_trace out)) (TraceModel.no_footprint G)).
  Proof.
    intros t o n out C H Pm Us points py. destruct (all_inv _ _ H) as (HB & _ & HT).
    destruct (C112_rows_and_columns dl ds _ _ _ _ _ _ _ _ _ _ _ _ _ _ _ _ C HB)
      as (kept & rows & cols0 & cols & acols & _ & Bk & Ir & Rk & _ & _ & _ & Ef & Ea & _ & _ & _ & _ & Tx & _ & _ & _ & V & Z & Ty & _).
    cbv zeta in V. destruct V as (Vb & _). rewrite Us in HT.
    exists rows, acols. split; auto. split; auto. split; [unfold points; rewrite map_length, Z, map_length; apply Tx|]. split; auto. split; auto.
    assert (La : length (e_algo (w_out out)) = length acols) by (rewrite Ea; unfold take_at; apply map_length).
    assert (X : exists f y bst lab uw par, PythiaProps.run f round3 root y (d_bin (e_data (w_out out))) bst lab (length (e_algo (w_out out))) uw par = Ok py).
    { clear - HB. unfold EndModel.build in HB.
      destruct (PreprocModel.preproc_run _ _ _ _ _ _ _ _) as [p|e]; [|discriminate].
      destruct (filter_insts _ _ _ _ _ _) as [[[m d1] dense]|e]; [|discriminate].
      destruct (sifted_run _ _ _ _ _ _ _ _ _ _ _ _ _) as [[so d2]|e]; [|discriminate].
      destruct (PilotModel.pilot _ _ _ _ _ _ _ _ _ _) as [po|e]; [|discriminate].
      destruct (PythiaModel.pythia _ _ _ _ _ _ _ _ _ _) as [q|e] eqn:E; [|discriminate].
      injection HB as HB. unfold py. rewrite <- HB. cbn [e_pythia e_data e_algo]. do 6 eexists. exact E. }
    destruct X as (f & y & bst & lab & uw & par & X).
    destruct (TracePipelineProps.C90_unselected_instances_go_to_the_first is_empty area contains contains_all intersection difference union no_polygon smooth triangulate convex_hull geoms alphashape radius removed_points empty_intersection _ _ _ _ _ _ _ Pm _ _ _ _ _ _ _ _ _ _ X HT) as (Gd & Bs).
    rewrite La in *. assert (Lb : length (d_bin (e_data (w_out out))) = length rows) by (rewrite Vb; apply map_length).
    intros j Hj. split.
    - rewrite <- (Gd j Hj). f_equal. destruct Ty as [Ly _]. unfold py. fold py in Ly |- *. rewrite <- Ly. unfold PythiaSpec.flag.
      generalize (PythiaModel.o_y_hat py). clear. intros m. induction m as [|r m IH]; simpl; auto. f_equal. rewrite <- seq_shift, map_map. auto.
    - destruct (Bs j Hj) as (fl & Lf & Ff & Bf). exists fl. rewrite Lb in *. split; auto.
  Qed.
End Whole.

(** The metadata of C112_met; CLOISTER without significant correlations and a hull routine that returns all
    points; TRACE with polygons that hold no point. *)
Definition ex_wopts : wopts :=
  {| w_end := ex_opts; w_p_val := 1#20; w_c_thres := 7#10; w_use_sim := false; w_purity := 1#2; w_cores := 2 |}.
Example C115_met : consistent ex_table 3 /\ CloisterSpec.hull_correct (fun l => Some (seq 0 (length l))) /\
  exists out : whole_out nat nat unit,
    build_all (build (map Some) None [] (fun _ => (None, None)) (fun _ _ => []) (fun _ => []) (fun _ => []) (fun _ => [])
      (fun g => (g, Some 0%Q)) (fun _ => Ok (Some 1%Q)) (fun v => v) (fun _ _ => [])
      (fun _ _ _ col _ => Ok {| PythiaModel.r_ysub := col; PythiaModel.r_psub := []; PythiaModel.r_yhat := col;
                                PythiaModel.r_phat := []; PythiaModel.r_c := None; PythiaModel.r_g := None |})
      (fun v => v) (fun v => v))
      (fun _ _ => Ok (Some 0%Q, Some 1%Q)) (fun l => Some (seq 0 (length l)))
      (fun _ => true) (fun _ => 0%Q) (fun _ _ => false) (fun _ _ => false) (fun a _ => a) (fun a _ => a) (fun a _ => a) tt
      (fun a => a) (fun _ => []) (fun a => a) (fun _ => []) (fun _ => None) (fun _ _ => 1%Z)
      (fun _ => (0, 0)%Z) [1; 0] ex_table ex_wopts = Ok out /\
  Permutation [1; 0] (seq 0 (length (e_algo (w_out out)))) /\
  (forall r, In r (d_x (e_data (w_out out))) -> ~ In None r) /\
  (forall r, In r (PilotModel.po_a (e_pilot (w_out out))) -> ~ In None r) /\
  length (w_edge out) = 4 /\ d_bin (e_data (w_out out)) = [[false; true]; [true; false]] /\
  length (TraceModel.t_good (w_trace out)) = 2.
Proof.
  split; [exact (proj1 C112_met)|]. split.
  - intros pts vs E. injection E as <-. split; [intros i Hi; apply in_seq in Hi; lia|]. intros p Hp.
    assert (X : map (fun i => nth i pts []) (seq 0 (length pts)) = pts).
    { clear. induction pts as [|a l IH]; simpl; auto. f_equal. rewrite <- seq_shift, map_map. auto. }
    rewrite X. apply CloisterSpec.conv_point with (p := p); auto. apply CloisterProofs.same_refl.
  - eexists. split; [vm_compute; reflexivity|]. split; [apply perm_swap|].
    split; [|split; [|repeat split]]; intros r Hr; vm_compute in Hr; intuition (subst; vm_compute in *; intuition discriminate).
Qed.

Print Assumptions C115_instances_lie_within_the_boundary.
Print Assumptions C115_footprints_in_terms_of_the_metadata.
Print Assumptions C115_best_footprint_of_its_algorithm_refuted.
Print Assumptions C115_footprints_from_predictions.
