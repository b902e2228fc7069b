(** Property C116: what the plots show. *)
From Coq Require Import Lqa.
From Verif Require Import BaseLemmas Mat PreprocSpec SerialModel SerialSpec SerialProps PlotProps DrawModel DrawSpec DrawProofs.
Set Implicit Arguments.
Open Scope nat_scope.
Open Scope list_scope.

(** [p] is one of the polygons a footprint consists of. *)
Inductive polygon_of : option shape -> polygon -> Prop :=
| single_polygon p : polygon_of (Some (Single p)) p
| multi_polygon l p : In p l -> polygon_of (Some (Multi l)) p.

Lemma rings_of_in g r : In r (rings_of g) <-> exists p, polygon_of g p /\ r = exterior p.
Proof.
  split.
  - destruct g as [[p|l|]|]; simpl; try tauto.
    + intros [<-|[]]. exists p. split; auto. constructor.
    + intros H. apply in_map_iff in H. destruct H as (p & <- & H). exists p. split; auto. constructor. auto.
  - intros (p & H & ->). destruct H; simpl; auto. apply in_map. auto.
Qed.
Lemma rings_at_in best which r : rings_at best which = Ok r ->
  forall x, In x r <-> exists i, In i which /\ exists p, polygon_of (nth i best None) p /\ x = exterior p.
Proof.
  revert r. induction which as [|i t IH]; simpl; intros r H x.
  - injection H as <-. split; [intros []|intros (i & [] & _)].
  - destruct (nth_error best i) as [f|] eqn:E; [|discriminate]. destruct (rings_at best t) as [r'|]; [|discriminate]. injection H as <-.
    rewrite in_app_iff, (IH r' eq_refl), rings_of_in. split.
    + intros [X|(j & J & X)]; [exists i; rewrite (nth_error_nth _ _ _ E); auto|exists j; auto].
    + intros (j & [<-|J] & X); [left; rewrite (nth_error_nth _ _ _ E) in X; auto|right; eauto].
Qed.
Lemma groups_drawn p labels t v r k a :
  drawn_under {| d_title := t; d_groups := map (fun g => (Some (fst (snd g)), snd (snd g))) (drawn_groups p labels); d_values := v; d_rings := r |} k a <->
  k < length p /\ nth k p 0 < length labels /\ a = shown_label labels (nth k p 0).
Proof.
  unfold drawn_under. cbn [d_groups]. split.
  - intros (l & H & I). apply in_map_iff in H. destruct H as ([i [leg l']] & E & H). simpl in E. injection E as -> ->.
    apply C99_groups in H. destruct H as (Hi & -> & -> & _). apply filter_In in I. destruct I as [I1 I2]. apply in_seq in I1. apply Nat.eqb_eq in I2.
    subst i. split; [lia|auto].
  - intros (Hk & Hi & ->). exists (filter (fun q => Nat.eqb (nth q p 0) (nth k p 0)) (seq 0 (length p))). split.
    + apply in_map_iff. exists (nth k p 0, (shown_label labels (nth k p 0), filter (fun q => Nat.eqb (nth q p 0) (nth k p 0)) (seq 0 (length p)))). split; auto.
      apply C99_groups. eauto 10.
    + apply filter_In. split; [apply in_seq; lia|apply Nat.eqb_refl].
Qed.

(** For a model whose arrays fit, save_graphs returns and writes exactly the files of [graph_names]; if
    these names differ (C100), each holds its plot. *)
Theorem C116_what_each_plot_shows :
  forall log10p1 use_sim m n w d, fits m n w ->
    exists d', save_graphs log10p1 use_sim m w true d = (d', None) /\
      (forall f, ~ In f (graph_names m) -> d' f = d f) /\
      (NoDup (graph_names m) ->
       let shown f P := exists pl, d' f = Some pl /\ P pl in
       let foot := if use_sim then m_y_hat m else m_y_bin m in
       (forall j l, nth_error (m_feat_labels m) j = Some l ->
          shown (png "distribution_feature_" l) (fun pl => d_title pl = spaces l /\ coloured n (fun i => x_aux (m_x m) i j) pl)) /\
       (forall j l, nth_error (m_algo_labels m) j = Some l ->
          shown (png "distribution_performance_global_normalized_" l)
            (fun pl => d_title pl = spaces l /\ coloured n (fun i => y_glb log10p1 (m_y_raw m) i j) pl) /\
          shown (png "distribution_performance_individual_normalized_" l)
            (fun pl => d_title pl = spaces l /\ coloured n (fun i => y_ind (m_y_raw m) i j) pl) /\
          shown (png "binary_performance_" l) (fun pl => d_title pl = spaces l /\ by_legend n (good_or_bad (flags_of (m_y_bin m) j)) pl) /\
          shown (png "binary_svm_" l) (fun pl => d_title pl = spaces l /\ by_legend n (good_or_bad (flags_of (m_y_hat m) j)) pl) /\
          shown (png "footprint_" l) (fun pl => d_title pl = append (spaces l) " Footprint" /\ by_legend n (good_or_bad (flags_of foot j)) pl /\
            forall r, In r (d_rings pl) <-> In true (flags_of foot j) /\ exists p, polygon_of (nth j (m_good m) None) p /\ r = exterior p)) /\
       shown "distribution_number_good_algos.png"%string (fun pl => d_title pl = "Percentage of good algorithms"%string /\
         coloured n (fun i => ndiv0 (nth i (m_num_good_algos m) None) (Some (inject_Z (Z.of_nat (m_nalgos m))))) pl) /\
       shown "distribution_portfolio.png"%string (fun pl => d_title pl = "Best algorithm"%string /\ forall k a, drawn_under pl k a <->
         k < n /\ nth k (m_p m) 0 < m_nalgos m /\ a = shown_label (m_algo_labels m) (nth k (m_p m) 0)) /\
       shown "distribution_svm_portfolio.png"%string (fun pl => d_title pl = "Predicted best algorithm"%string /\ forall k a, drawn_under pl k a <->
         k < n /\ nth k (m_selection0 m) 0 < m_nalgos m /\ a = shown_label (m_algo_labels m) (nth k (m_selection0 m) 0)) /\
       shown "distribution_beta_score.png"%string (fun pl => d_title pl = "Beta score"%string /\ by_legend n (good_or_bad (m_beta m)) pl) /\
       (forall s, m_s m = Some s -> shown "distribution_sources.png"%string (fun pl => d_title pl = "Sources"%string /\ by_legend n (fun k => nth k s ""%string) pl)) /\
       shown "footprint_portfolio.png"%string (fun pl =>
         let p := if use_sim then m_selection0 m else m_p m in
         d_title pl = "Portfolio footprints"%string /\
         (forall k a, drawn_under pl k a <-> k < n /\ nth k p 0 < m_nalgos m /\ a = shown_label (m_algo_labels m) (nth k p 0)) /\
         forall r, In r (d_rings pl) <->
           exists k q, k < n /\ nth k p 0 < m_nalgos m /\ polygon_of (nth (nth k p 0) (m_best m) None) q /\ r = exterior q)).
Proof.
  intros lg use_sim m n w d F. pose proof F as (H & Hz & Hx & Hy & Hb & Hh & Hp & Hs & Hbe & Hn & Hso & Hf & Ha & Hg & Hbs).
  destruct (@draw_ok (graph_calls lg use_sim m w) d (calls_succeed lg use_sim F)) as (d' & E & A & B).
  exists d'. split.
  { unfold save_graphs. destruct (Nat.eqb_spec (length (m_x m)) 0); [lia|]. destruct (Nat.eqb_spec (length (m_y_raw m)) 0); [lia|]. exact E. }
  rewrite (calls_names lg use_sim F) in A, B. split; auto. intros N shown foot. specialize (A N).
  split; [|split; [|split; [|split; [|split; [|split; [|split]]]]]].
  - intros j l Ej. destruct (feature_call_ok F _ Ej) as (pl & Ec & P). exists pl. split; auto. apply A. unfold graph_calls. rewrite in_app_iff. left.
    apply in_map_iff. exists j. split; auto. apply in_seq. assert (j < length (m_feat_labels m)) by (apply nth_error_Some; congruence). lia.
  - intros j l Ej. destruct (algorithm_calls_ok lg use_sim F _ Ej) as (p1 & p2 & p3 & p4 & p5 & Ec & P1 & P2 & P3 & P4 & P5).
    assert (I : forall c, In c (algorithm_calls lg use_sim m j) -> In c (graph_calls lg use_sim m w)).
    { intros c Hc. unfold graph_calls. rewrite in_app_iff. right. rewrite in_app_iff. left. apply in_flat_map. exists j. split; auto.
      apply in_seq. assert (j < length (m_algo_labels m)) by (apply nth_error_Some; congruence). lia. }
    rewrite Ec in I. split; [|split; [|split; [|split]]].
    + exists p1. split; auto. apply A, I. simpl. auto.
    + exists p2. split; auto. apply A, I. simpl. auto.
    + exists p3. split; auto. apply A, I. simpl. auto.
    + exists p4. split; auto. apply A, I. simpl. auto.
    + exists p5. split; [apply A, I; simpl; auto 10|]. destruct P5 as (T & L & R). split; auto. split; auto. intros r. rewrite R. fold foot.
      rewrite <- rings_of_in. destruct (existsb (fun b => b) (flags_of foot j)) eqn:X.
      * apply existsb_exists in X. destruct X as (b & Hb' & ->). tauto.
      * split; [intros []|]. intros [It _]. exfalso. assert (Y : existsb (fun b => b) (flags_of foot j) = true); [|congruence].
        apply existsb_exists. eauto.
  - destruct (good_share_ok F "Percentage of good algorithms") as (pl & Ec & T & C). exists pl. split; [|auto]. apply A. unfold graph_calls.
    rewrite !in_app_iff. right. right. left. left. unfold DrawModel.n. rewrite Hz, Ec. reflexivity.
  - eexists. split.
    + apply A. unfold graph_calls. rewrite !in_app_iff. right. right. left. right. left. unfold DrawModel.n. rewrite Hz, portfolio_total by auto. reflexivity.
    + split; [reflexivity|]. intros k a. rewrite groups_drawn, Hp, Ha. tauto.
  - eexists. split.
    + apply A. unfold graph_calls. rewrite !in_app_iff. right. right. left. right. right. left. unfold DrawModel.n. rewrite Hz, portfolio_total by auto. reflexivity.
    + split; [reflexivity|]. intros k a. rewrite groups_drawn, Hs, Ha. tauto.
  - exists (draw_binary n (m_beta m) "Beta score"). split.
    + apply A. unfold graph_calls. rewrite !in_app_iff. right. right. left. right. right. right. left. unfold DrawModel.n. rewrite Hz. reflexivity.
    + split; [reflexivity|]. apply binary_by_legend. auto.
  - intros s Es. destruct (sources_by_legend s H (Hso s Es)) as (pl & Ec & L). exists pl.
    split; [|split; [revert Ec; unfold draw_sources; destruct (Nat.eqb n 0); [discriminate|]; destruct (mask_fits n s); [|discriminate]; intros [= <-]; reflexivity|auto]].
    apply A. unfold graph_calls. rewrite !in_app_iff. right. right. right. left. rewrite Es. left. unfold DrawModel.n. rewrite Hz, Ec. reflexivity.
  - assert (Lp : length (p_foot use_sim m) = n) by (unfold p_foot; destruct use_sim; auto).
    destruct (@footprint_total n (m_best m) (p_foot use_sim m) (m_algo_labels m) H Lp) as (r & Er & Ec); [congruence|].
    eexists. split.
    + apply A. unfold graph_calls. rewrite !in_app_iff. right. right. right. right. left. unfold DrawModel.n. rewrite Hz, Ec. reflexivity.
    + cbv zeta. split; [reflexivity|]. split; [intros k a; rewrite groups_drawn, Lp, Ha; unfold p_foot; tauto|].
      intros q. cbn [d_rings]. rewrite (rings_at_in _ _ Er). change (if use_sim then m_selection0 m else m_p m) with (p_foot use_sim m). split.
      * intros (i & I & p & P & ->). apply in_map_iff in I. destruct I as ([i' [leg l]] & <- & I). apply C99_groups in I.
        destruct I as (Hi & _ & _ & k & Hk & <-). simpl in P. exists k, p. rewrite <- Ha. split; [lia|auto].
      * intros (k & p & Hk & Hi & P & ->). exists (nth k (p_foot use_sim m) 0). split; [|eauto]. apply in_map_iff. eexists (_, (_, _)). split; [|apply C99_groups; split; [rewrite Ha; exact Hi|split; [reflexivity|split; [reflexivity|exists k; split; [lia|reflexivity]]]]]. reflexivity.
Qed.

(** The footprint plot leaves out holes: what is filled does not depend on them, so a point that lies in a
    hole of a footprint, and not in the footprint, is shown inside it. *)
Theorem C116_footprint_with_its_holes_refuted :
  (forall n flags t p q, exterior p = exterior q ->
     draw_good_bad_footprint n (Some (Single p)) flags t = draw_good_bad_footprint n (Some (Single q)) flags t) /\
  exists p q, interiors p = [] /\ interiors q <> [] /\
    draw_good_bad_footprint 2 (Some (Single p)) [true; false] "A" = draw_good_bad_footprint 2 (Some (Single q)) [true; false] "A" /\
    exists pl, draw_good_bad_footprint 2 (Some (Single q)) [true; false] "A" = Ok pl /\ d_rings pl <> [].
Proof.
  split.
  - intros n flags t p q E. unfold draw_good_bad_footprint, rings_of. rewrite E. auto.
  - set (c := fun a : Z => (Some (inject_Z a), Some (inject_Z a))).
    exists {| exterior := [c 0; c 3; c 1; c 0]%Z; interiors := [] |}, {| exterior := [c 0; c 3; c 1; c 0]%Z; interiors := [[c 1; c 2; c 1]%Z] |}.
    split; auto. split; [discriminate|]. split; auto. eexists. split; [reflexivity|]. discriminate.
Qed.

(** Every plot shows the square from -5 to 5: an instance beyond it, or with a missing coordinate, appears on none. *)
Theorem C116_where_instances_appear :
  forall m k, (forall a b, nth k (m_z m) (None, None) = (Some a, Some b) -> (5 < a \/ a < -5 \/ 5 < b \/ b < -5)%Q) <->
    forall pl, ~ appears m pl k.
Proof.
  intros m k. unfold appears. split.
  - intros H pl (g & _ & _ & S). unfold seen in S. destruct (nth k (m_z m) (None, None)) as [[a|] [b|]]; try discriminate.
    specialize (H a b eq_refl). rewrite !andb_true_iff in S. destruct S as [[[S1 S2] S3] S4].
    apply Qle_bool_iff in S1. apply Qle_bool_iff in S2. apply Qle_bool_iff in S3. apply Qle_bool_iff in S4. lra.
  - intros H a b E. destruct (seen (nth k (m_z m) (None, None))) eqn:S.
    + exfalso. apply (H {| d_title := ""%string; d_groups := [(None, [k])]; d_values := None; d_rings := [] |}).
      exists (None, [k]). simpl. auto.
    + rewrite E in S. unfold seen in S.
      destruct (Qlt_le_dec 5 a) as [|L1]; [auto|]. destruct (Qlt_le_dec a (-5)) as [|L2]; [auto|].
      destruct (Qlt_le_dec 5 b) as [|L3]; [auto|]. destruct (Qlt_le_dec b (-5)) as [|L4]; [auto|].
      apply Qle_bool_iff in L1. apply Qle_bool_iff in L2. apply Qle_bool_iff in L3. apply Qle_bool_iff in L4.
      rewrite L1, L2, L3, L4 in S. discriminate.
Qed.

(** Two instances, the second at (7, 0), with sources. *)
Definition far_model : model :=
  let m := ex_model ["A"; "B"]%string [0; 1] in
  {| m_inst_labels := m_inst_labels m; m_feat_labels := m_feat_labels m; m_algo_labels := m_algo_labels m;
     m_x := m_x m; m_y := m_y m; m_x_raw := m_x_raw m; m_y_raw := m_y_raw m; m_nalgos := m_nalgos m;
     m_y_bin := m_y_bin m; m_p := m_p m; m_num_good_algos := m_num_good_algos m; m_beta := m_beta m;
     m_s := Some ["s2"; "s1"]%string; m_idx := m_idx m; m_z := [at_ 0 0; at_ 7 0]; m_z_edge := m_z_edge m; m_z_ecorr := m_z_ecorr m;
     m_y_hat := m_y_hat m; m_selection0 := m_selection0 m; m_good := m_good m; m_best := m_best m;
     m_trace_summary := m_trace_summary m; m_pilot_summary := m_pilot_summary m; m_pythia_summary := m_pythia_summary m |}.
Example C116_met : fits far_model 2 2 /\ NoDup (graph_names far_model) /\
  (exists d', save_graphs (fun v => v) false far_model 2 true (fun _ => None) = (d', None) /\
    (exists pl, d' "distribution_sources.png"%string = Some pl /\ d_groups pl = [(Some "s2", [0]); (Some "s1", [1])]%string) /\
    (exists pl, d' "binary_performance_A.png"%string = Some pl /\ d_groups pl = [(Some "BAD", [1]); (Some "GOOD", [0])]%string) /\
    (exists pl, d' "footprint_A.png"%string = Some pl /\ length (d_rings pl) = 1)).
Proof.
  split; [|split].
  - repeat split; simpl; auto. intros s E. injection E as <-. auto.
  - apply C100_different_files. split; [|split]; simpl; [repeat constructor; simpl; intuition discriminate|repeat constructor; simpl; intuition discriminate|intuition discriminate].
  - eexists. split; [reflexivity|]. split; [|split]; eexists; (split; [reflexivity|reflexivity]).
Qed.
Lemma draw_none l : forall d d', draw l d = (d', None) ->
  Forall succeeds l /\ (forall f p, In (Ok (f, p)) l -> exists p', d' f = Some p') /\ (forall f p, d f = Some p -> exists p', d' f = Some p').
Proof.
  induction l as [|c l IH]; intros d d' H; simpl in H.
  - injection H as <-. split; [constructor|]. split; [intros f p []|eauto].
  - destruct c as [[f p]|e]; [|discriminate]. destruct (IH _ _ H) as (F & A & B). split; [constructor; auto; red; eauto|].
    assert (K : exists p', d' f = Some p') by (apply (B f p); rewrite String.eqb_refl; auto).
    split.
    + intros g q [E|I]; [injection E as -> ->; exact K|eauto].
    + intros g q E. destruct (String.eqb_spec g f) as [->|N]; [exact K|]. apply (B g q). destruct (String.eqb_spec g f); [contradiction|exact E].
Qed.
(** If save_graphs returns, the folder exists, every feature and algorithm has a label and its plots, every
    algorithm a footprint, and there is a source per instance; otherwise it raises.  Without the folder
    nothing is written. *)
Theorem C116_if_it_returns :
  forall log10p1 use_sim m w is_dir d d' o, save_graphs log10p1 use_sim m w is_dir d = (d', o) ->
    (is_dir = false -> d' = d /\ o = Some ENotDirectory) /\
    (o = None ->
      let there f := exists pl, d' f = Some pl in
      is_dir = true /\
      (forall j, j < w -> exists l, nth_error (m_feat_labels m) j = Some l /\ there (png "distribution_feature_" l)) /\
      (forall j, j < m_nalgos m -> exists l g, nth_error (m_algo_labels m) j = Some l /\ nth_error (m_good m) j = Some g /\
         there (png "distribution_performance_global_normalized_" l) /\ there (png "distribution_performance_individual_normalized_" l) /\
         there (png "binary_performance_" l) /\ there (png "binary_svm_" l) /\ there (png "footprint_" l)) /\
      (forall s, m_s m = Some s -> s <> [] -> length s = length (m_z m) /\ there "distribution_sources.png"%string) /\
      there "distribution_portfolio.png"%string /\ there "distribution_svm_portfolio.png"%string /\ there "footprint_portfolio.png"%string /\
      there "distribution_number_good_algos.png"%string /\ there "distribution_beta_score.png"%string).
Proof.
  intros lg us m w is_dir d d' o H. split.
  - intros ->. simpl in H. injection H as <- <-. auto.
  - intros -> there. unfold save_graphs in H. destruct is_dir; [|discriminate]. split; auto.
    destruct (Nat.eqb (length (m_x m)) 0 || Nat.eqb (length (m_y_raw m)) 0); [discriminate|].
    destruct (draw_none _ _ H) as (F & A & _). rewrite Forall_forall in F.
    assert (N : forall f r, In (named f r) (graph_calls lg us m w) -> there f /\ exists pl, r = Ok pl).
    { intros f r I. destruct (F _ I) as (g & pl & E). destruct r as [q|e]; [|discriminate]. simpl in I. split; [apply (A f q I)|eauto]. }
    assert (N' : forall f pl, In (Ok (f, pl)) (graph_calls lg us m w) -> there f) by (intros f pl I; apply (A f pl I)).
    unfold graph_calls in F, N, N'. split; [|split; [|split; [|split; [|split; [|split; [|split]]]]]].
    + intros j Hj. assert (I : In (feature_call m j) (map (feature_call m) (seq 0 w))) by (apply in_map, in_seq; lia).
      assert (I2 := in_or_app _ (flat_map (algorithm_calls lg us m) (seq 0 (m_nalgos m)) ++
        [named "distribution_number_good_algos.png" (draw_scatter (n m) (share_good m) "Percentage of good algorithms");
         named "distribution_portfolio.png" (draw_portfolio (n m) (m_p m) (m_algo_labels m) "Best algorithm");
         named "distribution_svm_portfolio.png" (draw_portfolio (n m) (m_selection0 m) (m_algo_labels m) "Predicted best algorithm");
         Ok ("distribution_beta_score.png"%string, draw_binary (n m) (m_beta m) "Beta score")] ++
        match m_s m with Some s => [named "distribution_sources.png" (draw_sources (n m) s)] | None => [] end ++
        [named "footprint_portfolio.png" (draw_portfolio_footprint (n m) (m_best m) (p_foot us m) (m_algo_labels m))]) _ (or_introl I)).
      pose proof I2 as I3. apply F in I3. destruct I3 as (f & pl & E). unfold feature_call in *.
      destruct (nth_error (m_feat_labels m) j) as [l|] eqn:El; [|discriminate]. exists l. split; auto. exact (proj1 (N _ _ I2)).
    + intros j Hj.
      assert (I : forall c, In c (algorithm_calls lg us m j) -> In c (graph_calls lg us m w)).
      { intros c Hc. unfold graph_calls. rewrite !in_app_iff. right. left. apply in_flat_map. exists j. split; auto. apply in_seq. lia. }
      unfold algorithm_calls in I. destruct (nth_error (m_algo_labels m) j) as [l|] eqn:El.
      2:{ destruct (F _ (I _ (or_introl eq_refl))) as (f & pl & E). discriminate. }
      exists l. destruct (nth_error (m_good m) j) as [g|] eqn:Eg.
      2:{ assert (X : succeeds (Err EIndexing)) by (apply F; apply I; simpl; auto 10). destruct X as (f & pl & E). discriminate. }
      exists g. split; auto. split; auto. split; [|split; [|split; [|split]]].
      * eapply N. apply I. simpl. eauto.
      * eapply N. apply I. simpl. eauto.
      * eapply N'. apply I. simpl. eauto.
      * eapply N'. apply I. simpl. eauto.
      * eapply N. apply I. simpl. eauto 10.
    + intros s Es Ns. destruct (N "distribution_sources.png"%string (draw_sources (n m) s)) as [T (pl & E)].
      { rewrite !in_app_iff. do 3 right. left. rewrite Es. simpl. auto. }
      split; auto. unfold draw_sources in E. destruct (Nat.eqb (n m) 0); [discriminate|]. destruct s as [|a s]; [congruence|].
      unfold mask_fits in E. destruct (Nat.eqb (length (a :: s)) (n m)) eqn:X; [apply Nat.eqb_eq in X; exact X|discriminate].
    + eapply N. rewrite !in_app_iff. right. right. left. simpl. eauto.
    + eapply N. rewrite !in_app_iff. right. right. left. simpl. eauto.
    + eapply N. rewrite !in_app_iff. do 4 right. simpl. eauto.
    + eapply N. rewrite !in_app_iff. right. right. left. simpl. eauto.
    + eapply N'. rewrite !in_app_iff. right. right. left. simpl. eauto 10.
Qed.

(** So an instance of a saved model can be missing from every plot. *)
Theorem C116_every_instance_appears_refuted :
  exists m n w d' k, fits m n w /\ save_graphs (fun v => v) false m w true (fun _ => None) = (d', None) /\ k < n /\
    forall f pl, d' f = Some pl -> ~ appears m pl k.
Proof.
  destruct C116_met as (F & _ & d' & E & _). exists far_model, 2, 2, d', 1. split; auto. split; auto. split; auto.
  intros f pl _. apply C116_where_instances_appear. intros a b X. injection X as <- <-. left. reflexivity.
Qed.

Print Assumptions C116_what_each_plot_shows.
Print Assumptions C116_if_it_returns.
Print Assumptions C116_footprint_with_its_holes_refuted.
Print Assumptions C116_where_instances_appear.
Print Assumptions C116_every_instance_appears_refuted.
