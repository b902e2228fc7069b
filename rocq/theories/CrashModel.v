(** The calls of the serialisers (/repo/instancespace/_serialisers.py:29-263) cut off at any moment:
    by an exception, a full disk, a killed process.  Definitions only.
    to_csv opens the file, which empties it, and then writes it, so a call cut off inside leaves
    that file with any content whatever. *)
From Verif Require Export SerialModel.
Set Implicit Arguments.
Open Scope nat_scope.
Open Scope list_scope.

Definition replace (n : string) (c : option table) (d : directory) : directory :=
  fun f => if String.eqb f n then c else d f.

Section Cut.
  Variable can_write : string -> bool.
  (** [cut_off l d d']: the calls [l] made in directory [d] can be cut off leaving [d'] *)
  Inductive cut_off : list write -> directory -> directory -> Prop :=
  | cut_before l d : cut_off l d d
  | cut_inside n t rest d junk : can_write n = true -> cut_off (Ok (n, t) :: rest) d (replace n junk d)
  | cut_later n t rest d d' : can_write n = true -> cut_off rest (put n t d) d' ->
      cut_off (Ok (n, t) :: rest) d d'.
End Cut.

(** _serialisers.py:41-189: the calls save_to_csv makes *)
Definition csv_calls (m : model) : list write := footprint_writes m ++ data_writes m.
(** _serialisers.py:212-263: the calls save_for_web makes *)
Definition web_calls (colour_table : table) (m : model) : list write :=
  Ok ("color_table.csv"%string, colour_table) :: web_writes m.

(** the model in memory after a cut: the columns of the summaries of PILOT and PYTHIA may have been
    renamed in place or not (_serialisers.py:176-189) *)
Definition maybe_renamed (pilot pythia : bool) (m : model) : model :=
  {| m_inst_labels := m_inst_labels m; m_feat_labels := m_feat_labels m; m_algo_labels := m_algo_labels m;
     m_x := m_x m; m_y := m_y m; m_x_raw := m_x_raw m; m_y_raw := m_y_raw m; m_nalgos := m_nalgos m;
     m_y_bin := m_y_bin m; m_p := m_p m; m_num_good_algos := m_num_good_algos m; m_beta := m_beta m; m_s := m_s m;
     m_idx := m_idx m; m_z := m_z m; m_z_edge := m_z_edge m; m_z_ecorr := m_z_ecorr m;
     m_y_hat := m_y_hat m; m_selection0 := m_selection0 m; m_good := m_good m; m_best := m_best m;
     m_trace_summary := m_trace_summary m;
     m_pilot_summary := if pilot then rename (Number 0) (Name "Row") (m_pilot_summary m) else m_pilot_summary m;
     m_pythia_summary := if pythia then rename (Name "Algorithms") (Name "Row") (m_pythia_summary m) else m_pythia_summary m |}.
