(** Properties C97 and C107: what can be saved at the end of the default pipeline. *)
From Verif Require Import BaseLemmas Mat PreprocSpec CloisterModel PilotProofs CloisterProofs
  SerialModel SerialSpec SerialProofs SerialProps WebSpec WebProofs WebProps.
From Verif Require SiftedModel SiftedProofs SiftedProps PrelimModel PrelimSpec PrelimProps Ext.
From Verif Require Import HandOnModel.
Set Implicit Arguments.
Open Scope nat_scope.
Open Scope list_scope.

(** [sifted] is the SIFTED stage *)
Notation sifted := SiftedModel.sifted.

(* ========================================================== C97 *)
Lemma increasing_nth l : increasing l -> forall i j, i < j -> j < length l -> nth i l 0 < nth j l 0.
Proof.
  induction 1 as [|a l S IH F]; intros i j Hij Hj; [simpl in Hj; lia|]. destruct j as [|j]; [lia|]. simpl in Hj. destruct i as [|i].
  - simpl. rewrite Forall_forall in F. apply F. apply nth_In. lia.
  - simpl. apply IH; lia.
Qed.
Section Sifted.
  Variables (pearson : list (Q * Q) -> num * num) (order : list (list Q) -> nat -> list nat) (sil : list nat -> list Q)
    (km_labels : list nat -> list nat) (best : list nat -> list Z).
  Variables (x y : list (list num)) (labels : list string) (nalgos : nat) (threshold : Q) (k : nat)
    (dense : option (list (list num) * list (list num) * list (list bool))) (stype : string) (min_distance : Q).
  Variable out : SiftedModel.sift_out.
  Hypothesis run : sifted pearson order sil km_labels best x y labels nalgos threshold k dense stype min_distance = Ok out.
  Lemma all_selected : length (SiftedModel.so_idx out) = length (SiftedModel.so_labels out) -> SiftedModel.so_selvars out = seq 0 (length labels).
  Proof.
    destruct (SiftedProps.C64_columns_labels_and_indices_agree _ _ _ _ _ _ _ _ _ _ _ _ _ _ run) as (I & B & _ & L & _ & E & _).
    rewrite E, seq_length, L. intro H. revert B I H. generalize (SiftedModel.so_selvars out) (length labels). clear.
    intros l n B I0 H. pose proof (increasing_nth I0) as I. assert (G : forall i, i < length l -> i <= nth i l 0).
    { induction i as [|i IH]; intro Hi; [lia|]. specialize (IH ltac:(lia)). specialize (I i (S i) ltac:(lia) Hi). lia. }
    assert (U : forall d, d < length l -> nth (length l - 1 - d) l 0 <= n - 1 - d).
    { induction d as [|d IH]; intro Hd.
      - assert (nth (length l - 1 - 0) l 0 < n) by (apply B; apply nth_In; lia). lia.
      - specialize (IH ltac:(lia)). specialize (I (length l - 1 - S d) (length l - 1 - d) ltac:(lia) ltac:(lia)). lia. }
    apply (@list_eq_nth _ 0); [rewrite seq_length; auto|]. intros i Hi. rewrite seq_nth by lia.
    specialize (G i Hi). specialize (U (length l - 1 - i) ltac:(lia)). replace (length l - 1 - (length l - 1 - i)) with i in U by lia. lia.
  Qed.
  (** A model with SIFTED's idx and feature labels can be saved, as CSV or for the web, only if SIFTED has
      kept every feature. *)
  Theorem C97_saving_needs_all_features :
    forall m can_write d d', m_idx m = SiftedModel.so_idx out -> m_feat_labels m = SiftedModel.so_labels out -> m_inst_labels m <> [] ->
      save_to_csv can_write true m d = (d', None) ->
      SiftedModel.so_selvars out = seq 0 (length labels).
  Proof.
    intros m cw d d' Ei El N H. apply all_selected. rewrite <- Ei, <- El.
    destruct (proj1 (C94_when_it_returns cw m d)) as [C _]; [eauto|]. destruct C as (_ & _ & _ & L & W & _). apply W.
    intro X. rewrite X in L. destruct (m_inst_labels m); [congruence|discriminate].
  Qed.
  Theorem C97_saving_for_the_web_needs_all_features :
    forall m can_write colours d d', m_idx m = SiftedModel.so_idx out -> m_feat_labels m = SiftedModel.so_labels out -> array_shaped m ->
      save_for_web can_write colours true m d = (d', None) ->
      SiftedModel.so_selvars out = seq 0 (length labels).
  Proof.
    intros m cw t d d' Ei El A H. apply all_selected. rewrite <- Ei, <- El.
    destruct (proj1 (C96_when_it_returns cw t d A)) as [C _]; [eauto|]. destruct C as (_ & _ & _ & _ & L & _). auto.
  Qed.
End Sifted.

(** A run of SIFTED that keeps the second, fifth and sixth of six features. *)
Definition kept_out : SiftedModel.sift_out :=
  match SiftedProps.ex_sift None with Ok o => o | Err _ => SiftedModel.Build_sift_out [] [] [] [] false end.
Definition sifted_model (idx : list nat) : model :=
  let e := ex_model ["A"; "B"]%string [] in
  {| m_inst_labels := m_inst_labels e; m_feat_labels := SiftedModel.so_labels kept_out; m_algo_labels := m_algo_labels e;
     m_x := SiftedModel.so_x kept_out; m_y := m_y e; m_x_raw := SiftedProps.ex_x; m_y_raw := m_y_raw e; m_nalgos := m_nalgos e;
     m_y_bin := m_y_bin e; m_p := m_p e; m_num_good_algos := m_num_good_algos e; m_beta := m_beta e; m_s := m_s e; m_idx := idx;
     m_z := m_z e; m_z_edge := m_z_edge e; m_z_ecorr := m_z_ecorr e; m_y_hat := m_y_hat e; m_selection0 := m_selection0 e;
     m_good := m_good e; m_best := m_best e; m_trace_summary := m_trace_summary e; m_pilot_summary := m_pilot_summary e;
     m_pythia_summary := m_pythia_summary e |}.
(** With the indices of the selected features the model could be saved; with SIFTED's idx both calls
    raise. *)
Theorem C97_selected_features_can_be_saved_refuted :
  SiftedProps.ex_sift None = Ok kept_out /\
  (exists d', save_to_csv (fun _ => true) true (sifted_model (SiftedModel.so_selvars kept_out)) (fun _ => None) = (d', None)) /\
  (exists d', save_for_web (fun _ => true) (tab [] 0) true (sifted_model (SiftedModel.so_selvars kept_out)) (fun _ => None) = (d', None)) /\
  (exists d', save_to_csv (fun _ => true) true (sifted_model (SiftedModel.so_idx kept_out)) (fun _ => None) = (d', Some EShape)) /\
  (exists d', save_for_web (fun _ => true) (tab [] 0) true (sifted_model (SiftedModel.so_idx kept_out)) (fun _ => None) = (d', Some EShape)).
Proof.
  split; [vm_compute; reflexivity|]. repeat split; eexists; reflexivity.
Qed.
Example C97_applies : exists out, sifted (fun _ => (Some 0%Q, Some 0%Q)) (fun _ _ => []) (fun _ => []) (fun _ => []) (fun _ => [])
    [[Some 1; Some 2]; [Some 3; Some 5]]%Q [] ["f"; "g"]%string 2 (1 # 2)%Q 3 None "Ftr" 1%Q = Ok out /\
  m_idx (ex_model ["A"; "B"]%string [0; 1]) = SiftedModel.so_idx out /\ m_feat_labels (ex_model ["A"; "B"]%string [0; 1]) = SiftedModel.so_labels out.
Proof. eexists. split; [reflexivity|]. split; reflexivity. Qed.

(* ========================================================== C107 *)
Section Instances.
  Variables (o : PrelimModel.selopts) (split : option (list nat)) (file : list Z) (n n_feats n_algos : nat).
  Variable S : Type.
  Variables d d' : PrelimModel.inst_data string S.
  Variables (mask : list bool) (kept_dense : option (PrelimModel.inst_data string S)).
  Hypothesis size : PrelimSpec.of_size n d.
  (** PRELIM has selected the instances of [mask] ... *)
  Hypothesis selection : PrelimModel.filter_insts o split file n_feats n_algos d = Ok (mask, d', kept_dense).
  Variables (pearson : list (Q * Q) -> num * num) (order : list (list Q) -> nat -> list nat) (sil : list nat -> list Q)
    (km_labels : list nat -> list nat) (best : list nat -> list Z).
  Variables (labels : list string) (nalgos : nat) (threshold : Q) (k : nat)
    (dense : option (list (list num) * list (list num) * list (list bool))) (stype : string) (min_distance : Q).
  Variables (out : SiftedModel.sift_out) (d'' : PrelimModel.inst_data string S).
  (** ... and SIFTED has run on what it handed on. *)
  Hypothesis run : sifted_run pearson order sil km_labels best labels nalgos threshold k dense stype min_distance
                     (sifted_inputs (PrelimModel.d_labels d) d') = Ok (out, d'').

  Lemma kept_size : length (PrelimModel.d_x_raw d'') = length (PrelimModel.d_labels d'') -> forall i, i < n -> nth i mask false = true.
  Proof.
    unfold sifted_run in run. destruct (SiftedModel.sifted _ _ _ _ _ _ _ _ _ _ _ _ _ _) as [out'|e]; [|discriminate]. injection run as -> <-. simpl.
    destruct (PrelimProps.C40_one_mask_for_everything o split file n_feats n_algos size selection) as (Lm & idx & Inc & M & (_ & _ & R & _) & _).
    assert (E : length (PrelimModel.d_x_raw d') = length idx) by (apply (f_equal (@length _)) in R; rewrite !map_length in R; auto).
    assert (N : length (PrelimModel.d_labels d) = n) by (destruct size; tauto). rewrite E, N. intros H i Hi.
    apply M. assert (ND : NoDup idx) by (apply SiftedProofs.increasing_nodup; auto).
    assert (I : incl (seq 0 n) idx).
    { apply NoDup_length_incl; [auto|rewrite seq_length; lia|]. intros j Hj. apply M in Hj. apply in_seq. lia. }
    apply I, in_seq. lia.
  Qed.
  (** The model can be saved only if PRELIM has kept every instance: the labels are those of all
      instances, the arrays have the rows of the selected ones. *)
  Theorem C107_saving_needs_all_instances :
    forall m can_write dir dir', holds m d'' -> save_to_csv can_write true m dir = (dir', None) ->
      forall i, i < n -> nth i mask false = true.
  Proof.
    intros m cw dir dir' (El & _ & _ & Ex & _) H. apply kept_size. rewrite <- El, <- Ex.
    destruct (proj1 (C94_when_it_returns cw m dir)) as [C _]; [eauto|]. unfold consistent in C. tauto.
  Qed.
  Theorem C107_saving_for_the_web_needs_all_instances :
    forall m can_write colours dir dir', holds m d'' -> array_shaped m -> save_for_web can_write colours true m dir = (dir', None) ->
      forall i, i < n -> nth i mask false = true.
  Proof.
    intros m cw t dir dir' (El & _ & _ & Ex & _) A H. apply kept_size. rewrite <- El, <- Ex.
    destruct (proj1 (C96_when_it_returns cw t dir A)) as [C _]; [eauto|]. unfold web_consistent in C. tauto.
  Qed.
  (** The labels in the model are those of all instances. *)
  Theorem C107_labels_of_all_instances :
    forall m, holds m d'' -> m_inst_labels m = PrelimModel.d_labels d.
  Proof.
    intros m (El & _). rewrite El. unfold sifted_run in run.
    destruct (SiftedModel.sifted _ _ _ _ _ _ _ _ _ _ _ _ _ _) as [out'|e]; [|discriminate]. injection run as -> <-. reflexivity.
  Qed.
End Instances.
(** Three instances of which a file selects the first two.  With the labels of the two the model could
    be saved; as it is, both calls raise. *)
Definition three : PrelimModel.inst_data string nat :=
  let a := [[Some 1; Some 2]; [Some 3; Some 5]; [Some 7; Some 8]]%Q in
  {| PrelimModel.d_x := a; PrelimModel.d_y := a; PrelimModel.d_x_raw := a; PrelimModel.d_y_raw := a;
     PrelimModel.d_bin := [[true; false]; [false; true]; [true; true]]; PrelimModel.d_beta := [true; false; true];
     PrelimModel.d_good := [1; 1; 2]; PrelimModel.d_best := [Ext.Fin 1; Ext.Fin 3; Ext.Fin 7]; PrelimModel.d_p := [1; 2; 1];
     PrelimModel.d_labels := ["i1"; "i2"; "i3"]%string; PrelimModel.d_s := None |}.
Definition by_file : PrelimModel.selopts :=
  {| PrelimModel.small_scale_flag := false; PrelimModel.small_scale_float := true; PrelimModel.file_idx_flag := true;
     PrelimModel.file_exists := true; PrelimModel.density_flag := false; PrelimModel.min_distance_float := true;
     PrelimModel.type_str := true; PrelimModel.selvars_type := "Ftr"; PrelimModel.min_distance := 1 |}.
Definition two_of_three (labels : list string) : model :=
  let e := ex_model ["A"; "B"]%string [0; 1] in
  {| m_inst_labels := labels; m_feat_labels := m_feat_labels e; m_algo_labels := m_algo_labels e;
     m_x := m_x e; m_y := m_y e; m_x_raw := m_x_raw e; m_y_raw := m_y_raw e; m_nalgos := m_nalgos e;
     m_y_bin := m_y_bin e; m_p := m_p e; m_num_good_algos := m_num_good_algos e; m_beta := m_beta e; m_s := m_s e; m_idx := m_idx e;
     m_z := m_z e; m_z_edge := m_z_edge e; m_z_ecorr := m_z_ecorr e; m_y_hat := m_y_hat e; m_selection0 := m_selection0 e;
     m_good := m_good e; m_best := m_best e; m_trace_summary := m_trace_summary e; m_pilot_summary := m_pilot_summary e;
     m_pythia_summary := m_pythia_summary e |}.
Theorem C107_selected_instances_can_be_saved_refuted :
  exists mask d' out d'',
    PrelimSpec.of_size 3 three /\
    PrelimModel.filter_insts by_file None [1; 2]%Z 2 2 three = Ok (mask, d', None) /\
    sifted_run (fun _ => (Some 0%Q, Some 0%Q)) (fun _ _ => []) (fun _ => []) (fun _ => []) (fun _ => []) ["f"; "g"]%string 2 (1 # 2)%Q 3 None
      "Ftr"%string 1%Q (sifted_inputs (PrelimModel.d_labels three) d') = Ok (out, d'') /\
    holds (two_of_three (PrelimModel.d_labels three)) d'' /\
    (exists dir, save_to_csv (fun _ => true) true (two_of_three (PrelimModel.d_labels d')) (fun _ => None) = (dir, None)) /\
    (exists dir, save_for_web (fun _ => true) (tab [] 0) true (two_of_three (PrelimModel.d_labels d')) (fun _ => None) = (dir, None)) /\
    (exists dir, save_to_csv (fun _ => true) true (two_of_three (PrelimModel.d_labels three)) (fun _ => None) = (dir, Some EShape)) /\
    (exists dir, save_for_web (fun _ => true) (tab [] 0) true (two_of_three (PrelimModel.d_labels three)) (fun _ => None) = (dir, Some EShape)).
Proof.
  do 4 eexists. split; [repeat split|]. split; [vm_compute; reflexivity|]. split; [vm_compute; reflexivity|]. split; [repeat split|].
  repeat split; eexists; reflexivity.
Qed.

Print Assumptions C97_saving_needs_all_features.
Print Assumptions C97_saving_for_the_web_needs_all_features.
Print Assumptions C97_selected_features_can_be_saved_refuted.
Print Assumptions C107_saving_needs_all_instances.
Print Assumptions C107_saving_for_the_web_needs_all_instances.
Print Assumptions C107_labels_of_all_instances.
Print Assumptions C107_selected_instances_can_be_saved_refuted.
