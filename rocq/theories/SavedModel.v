(** Model of the Model object that a completed run of the default pipeline leaves: what the savers
    (SerialModel, DrawModel) are given after WholeModel.  Definitions only. *)
From Verif Require Import Mat PrelimModel EndModel WholeModel SerialModel.
From Verif Require PilotModel PythiaModel TraceModel.
Set Implicit Arguments.
Open Scope nat_scope.
Open Scope list_scope.

(** a row of an array with two columns *)
Definition pair_of (r : list num) : num * num := (nth 0 r None, nth 1 r None).

(** trace.py:465-505: the column Algorithm and ten measures *)
Definition summary_labels : list string :=
  ["Area_Good"; "Area_Good_Normalised"; "Density_Good"; "Density_Good_Normalised"; "Purity_Good";
   "Area_Best"; "Area_Best_Normalised"; "Density_Best"; "Density_Best_Normalised"; "Purity_Best"]%string.
Definition summary_frame (rows : list (string * list Q)) : table :=
  {| header := map Name ("Algorithm"%string :: summary_labels);
     SerialModel.rows := map (fun r => CStr (fst r) :: map (fun q => CNum (Some q)) (snd r)) rows |}.

(** pilot.py:273-287: the projection matrix beside a column of its own, which has no name *)
Definition pilot_frame (s : list string * list (string * list num)) : table :=
  {| header := Number 0 :: map Name (fst s);
     SerialModel.rows := map (fun r => CStr (fst r) :: map CNum (snd r)) (snd s) |}.

(** pythia.py:836-881: eleven columns, a text for each value that is missing *)
Definition svm_labels : list string :=
  ["Algorithms"; "Avg_Perf_all_instances"; "Std_Perf_all_instances"; "Probability_of_good";
   "Avg_Perf_selected_instances"; "Std_Perf_selected_instances"; "CV_model_accuracy"; "CV_model_precision";
   "CV_model_recall"; "BoxConstraint"; "KernelScale"]%string.
Definition or_blank (v : num) : entry := match v with Some q => CNum (Some q) | None => CStr ""%string end.
Definition svm_columns (s : PythiaModel.summary_table) : list (list num) :=
  [PythiaModel.s_avg_perf_all s; PythiaModel.s_std_perf_all s; PythiaModel.s_probability_of_good s;
   PythiaModel.s_avg_perf_selected s; PythiaModel.s_std_perf_selected s; PythiaModel.s_cv_model_accuracy s;
   PythiaModel.s_cv_model_precision s; PythiaModel.s_cv_model_recall s; PythiaModel.s_box_constraint s;
   PythiaModel.s_kernel_scale s].
Definition pythia_frame (s : PythiaModel.summary_table) : table :=
  {| header := map Name svm_labels;
     SerialModel.rows := map (fun ja => CStr (snd ja) :: map (fun c => or_blank (nth (fst ja) c None)) (svm_columns s))
                             (combine (seq 0 (length (PythiaModel.s_algorithms s))) (PythiaModel.s_algorithms s)) |}.

(** model.py:44-77 with data/model.py:39-71 [Data], 175-199 [SiftedOut], 220-249 [PilotOut], 265-285 [CloisterOut],
    312-347 [PythiaOut], 440-463 [TraceOut], 474-493 [FeatSel]: every field is the runner's output of the same
    name; where each comes from is C104.  inst_labels are those of PREPROCESSING.  [shape_of] reads a
    polygon of shapely's. *)
Definition saved_model {G} (shape_of : G -> shape) (out : whole_out string string G) : model :=
  let e := w_out out in
  let d := e_data e in
  let shapes := map (fun f => option_map shape_of (TraceModel.f_polygon f)) in
  {| m_inst_labels := d_labels d; m_feat_labels := e_feat e; m_algo_labels := e_algo e;
     m_x := d_x d; m_y := d_y d; m_x_raw := d_x_raw d; m_y_raw := d_y_raw d; m_nalgos := length (e_algo e);
     m_y_bin := d_bin d; m_p := d_p d; m_num_good_algos := map (fun k => Some (inject_Z (Z.of_nat k))) (d_good d);
     m_beta := d_beta d; m_s := d_s d; m_idx := e_idx e;
     m_z := map pair_of (PilotModel.po_z (e_pilot e));
     m_z_edge := map pair_of (w_edge out); m_z_ecorr := map pair_of (w_ecorr out);
     m_y_hat := PythiaModel.o_y_hat (e_pythia e); m_selection0 := PythiaModel.o_selection0 (e_pythia e);
     m_good := shapes (TraceModel.t_good (w_trace out)); m_best := shapes (TraceModel.t_best (w_trace out));
     m_trace_summary := summary_frame (TraceModel.t_summary (w_trace out));
     m_pilot_summary := pilot_frame (PilotModel.po_summary (e_pilot e));
     m_pythia_summary := pythia_frame (PythiaModel.o_summary (e_pythia e)) |}.
