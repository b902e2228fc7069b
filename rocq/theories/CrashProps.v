(** C114: saving, cut off at any moment and repeated. *)
From Verif Require Import BaseLemmas Mat PreprocSpec SerialModel SerialSpec SerialProofs WebProofs SerialProps CrashModel CrashProofs.
Set Implicit Arguments.
Open Scope nat_scope.
Open Scope list_scope.

(** Repeating a save_to_csv that was cut off anywhere gives the directory of one that was not,
    whichever summaries had been renamed by then. *)
Theorem C114_saving_again_repairs :
  forall can_write m d d_cut d_full pilot pythia,
    save_to_csv can_write true m d = (d_full, None) ->
    cut_off can_write (csv_calls m) d d_cut ->
    exists d_again, save_to_csv can_write true (maybe_renamed pilot pythia m) d_cut = (d_again, None) /\
      forall f, d_again f = d_full f.
Proof.
  intros cw m d d1 d2 a b H C. unfold save_to_csv in *. fold (csv_calls m) in H.
  fold (csv_calls (maybe_renamed a b m)). rewrite calls_renamed. eapply rerun; eauto.
Qed.
(** If the algorithms have different labels, a cut damages at most one file; every other one is as
    it was or as the complete call would leave it. *)
Theorem C114_one_file_is_damaged :
  forall can_write m d d_cut d_full, NoDup (m_algo_labels m) ->
    save_to_csv can_write true m d = (d_full, None) ->
    cut_off can_write (csv_calls m) d d_cut ->
    exists damaged, forall f, f <> damaged -> d_cut f = d f \/ d_cut f = d_full f.
Proof.
  intros cw m d d1 d2 N H C. unfold save_to_csv in H. fold (csv_calls m) in H.
  eapply one_damaged; eauto. intros f t u. apply csv_unique; auto.
Qed.
(** The same for save_for_web. *)
Theorem C114_web :
  forall can_write colours m d d_cut d_full,
    save_for_web can_write colours true m d = (d_full, None) ->
    cut_off can_write (web_calls colours m) d d_cut ->
    (exists d_again, save_for_web can_write colours true m d_cut = (d_again, None) /\
      forall f, d_again f = d_full f) /\
    exists damaged, forall f, f <> damaged -> d_cut f = d f \/ d_cut f = d_full f.
Proof.
  intros cw col m d d1 d2 H C. unfold save_for_web in *. fold (web_calls col m) in *. split; [eapply rerun; eauto|].
  eapply one_damaged; eauto. intros f t u [A|A] [B|B].
  - congruence.
  - exfalso. injection A as <- <-. apply web_writes_names in B. simpl in B. intuition discriminate.
  - exfalso. injection B as <- <-. apply web_writes_names in A. simpl in A. intuition discriminate.
  - eapply web_writes_unique; eauto.
Qed.

(** A directory can show two models at once: a footprint file of an earlier model stays when the
    model saved later has no such footprint. *)
Definition without_best (m : model) : model :=
  {| m_inst_labels := m_inst_labels m; m_feat_labels := m_feat_labels m; m_algo_labels := m_algo_labels m;
     m_x := m_x m; m_y := m_y m; m_x_raw := m_x_raw m; m_y_raw := m_y_raw m; m_nalgos := m_nalgos m;
     m_y_bin := m_y_bin m; m_p := m_p m; m_num_good_algos := m_num_good_algos m; m_beta := m_beta m; m_s := m_s m;
     m_idx := m_idx m; m_z := m_z m; m_z_edge := m_z_edge m; m_z_ecorr := m_z_ecorr m;
     m_y_hat := m_y_hat m; m_selection0 := m_selection0 m; m_good := m_good m; m_best := [None; None];
     m_trace_summary := m_trace_summary m; m_pilot_summary := m_pilot_summary m; m_pythia_summary := m_pythia_summary m |}.
Theorem C114_directory_shows_the_last_model_refuted :
  exists first second d d1 d2 label s,
    NoDup (m_algo_labels first) /\ m_algo_labels first = m_algo_labels second /\
    save_to_csv (fun _ => true) true first d = (d1, None) /\
    save_to_csv (fun _ => true) true second d1 = (d2, None) /\
    nth_error (m_algo_labels second) 0 = Some label /\ nth_error (m_best second) 0 = Some None /\
    nth_error (m_best first) 0 = Some (Some s) /\
    exists t, d2 (best_file label) = Some t /\ footprint_table s t.
Proof.
  exists (ex_model ["A"; "B"]%string [0; 1]), (without_best (ex_model ["A"; "B"]%string [0; 1])), (fun _ => None).
  eexists. eexists. exists "A"%string. eexists.
  split; [repeat constructor; simpl; intuition discriminate|]. split; [reflexivity|]. split; [reflexivity|].
  split; [reflexivity|]. split; [reflexivity|]. split; [reflexivity|]. split; [reflexivity|].
  eexists. split; [vm_compute; reflexivity|].
  destruct (frame_points (boundary (Single {| exterior := square 0 0 1; interiors := [] |})) (best_file "A")) as (t & E & S).
  vm_compute in E. injection E as <-. exact S.
Qed.

(** A call cut off inside its third file, and repeated. *)
Example C114_met :
  let m := ex_model ["A"; "B"]%string [0; 1] in
  exists d_full d_cut,
    save_to_csv (fun _ => true) true m (fun _ => None) = (d_full, None) /\
    cut_off (fun _ => true) (csv_calls m) (fun _ => None) d_cut /\
    d_cut "footprint_B_best.csv"%string = Some (tab [] 0) /\ d_cut "coordinates.csv"%string = None.
Proof.
  cbv zeta. eexists. eexists. split; [reflexivity|]. split.
  - do 2 (apply cut_later; [reflexivity|]). apply cut_inside with (junk := Some (tab [] 0)). reflexivity.
  - split; vm_compute; reflexivity.
Qed.

Print Assumptions C114_saving_again_repairs.
Print Assumptions C114_one_file_is_damaged.
Print Assumptions C114_web.
Print Assumptions C114_directory_shows_the_last_model_refuted.
