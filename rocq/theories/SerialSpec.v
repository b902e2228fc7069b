(** Vocabulary for the properties of the saved files. *)
From Verif Require Import Mat PreprocSpec SerialModel.
Set Implicit Arguments.
Open Scope nat_scope.
Open Scope list_scope.

(** The table has a first column "Row" holding the labels, then the named columns, and holds
    [f i j] in row i under the j-th of these. *)
Definition shows (t : table) (cols labels : list string) (f : nat -> nat -> entry) : Prop :=
  header t = Name "Row" :: map Name cols /\ length (rows t) = length labels /\
  forall i l, nth_error labels i = Some l -> nth_error (rows t) i = Some (CStr l :: map (f i) (seq 0 (length cols))).

(** entry (i, j) of an array of coordinates, of booleans *)
Definition coord (z : list (num * num)) (i j : nat) : num :=
  let p := nth i z (None, None) in match j with O => fst p | _ => snd p end.
Definition bit (m : list (list bool)) (i j : nat) : bool := nth j (nth i m []) false.

(** The thirteen files of arrays save_to_csv writes: name, column labels, row labels, entries. *)
Definition array_files (m : model) : list (string * (list string * list string * (nat -> nat -> entry))) :=
  let inst := m_inst_labels m in
  let z12 := ["z_1"; "z_2"]%string in
  [ ("coordinates.csv"%string, (z12, inst, fun i j => CNum (coord (m_z m) i j)));
    ("bounds.csv"%string, (z12, make_bind_labels (length (m_z_edge m)), fun i j => CNum (coord (m_z_edge m) i j)));
    ("bounds_prunned.csv"%string, (z12, make_bind_labels (length (m_z_ecorr m)), fun i j => CNum (coord (m_z_ecorr m) i j)));
    ("feature_raw.csv"%string, (m_feat_labels m, inst, fun i j => CNum (cell (m_x_raw m) i (nth j (m_idx m) 0))));
    ("feature_process.csv"%string, (m_feat_labels m, inst, fun i j => CNum (cell (m_x m) i j)));
    ("algorithm_raw.csv"%string, (m_algo_labels m, inst, fun i j => CNum (cell (m_y_raw m) i j)));
    ("algorithm_process.csv"%string, (m_algo_labels m, inst, fun i j => CNum (cell (m_y m) i j)));
    ("algorithm_bin.csv"%string, (m_algo_labels m, inst, fun i j => CBool (bit (m_y_bin m) i j)));
    ("good_algos.csv"%string, (["NumGoodAlgos"%string], inst, fun i _ => CNum (nth i (m_num_good_algos m) None)));
    ("beta_easy.csv"%string, (["IsBetaEasy"%string], inst, fun i _ => CBool (nth i (m_beta m) false)));
    ("portfolio.csv"%string, (["Best_Algorithm"%string], inst, fun i _ => CNat (nth i (m_p m) 0)));
    ("algorithm_svm.csv"%string, (m_algo_labels m, inst, fun i j => CBool (bit (m_y_hat m) i j)));
    ("portfolio_svm.csv"%string, (["Best_Algorithm"%string], inst, fun i _ => CNat (nth i (m_selection0 m) 0))) ].
(** The file of the footprint of an algorithm. *)
Definition best_file (label : string) : string := append "footprint_" (append label "_best.csv").
Definition good_file (label : string) : string := append "footprint_" (append label "_good.csv").
Definition has_polygon (fps : list (option shape)) (i : nat) : Prop := exists s, nth_error fps i = Some (Some s).
(** the points listed for a polygon *)
Definition footprint_table (s : shape) (t : table) : Prop :=
  shows t ["z_1"; "z_2"]%string (make_bind_labels (length (boundary s))) (fun i j => CNum (coord (boundary s) i j)).
(** every file save_to_csv may write *)
Definition csv_file (m : model) (f : string) : Prop :=
  (exists e, In (f, e) (array_files m)) \/
  In f ["footprint_performance.csv"; "projection_matrix.csv"; "svm_table.csv"]%string \/
  exists i l, i < m_nalgos m /\ nth_error (m_algo_labels m) i = Some l /\
    ((f = best_file l /\ has_polygon (m_best m) i) \/ (f = good_file l /\ has_polygon (m_good m) i)).

(** an array with one row per label and one column per column label *)
Definition fits {A} (a : list (list A)) (labels cols : list string) : Prop :=
  length a = length labels /\ forall r, In r a -> length r = length cols.
(** what the arrays of a model have to satisfy *)
Definition consistent (m : model) : Prop :=
  let inst := m_inst_labels m in
  (forall i, i < m_nalgos m -> (exists s, nth_error (m_best m) i = Some s) /\ (exists s, nth_error (m_good m) i = Some s) /\
     (has_polygon (m_best m) i \/ has_polygon (m_good m) i -> i < length (m_algo_labels m))) /\
  length (m_z m) = length inst /\
  (forall j, In j (m_idx m) -> j < width (m_x_raw m)) /\
  length (m_x_raw m) = length inst /\ (m_x_raw m <> [] -> length (m_idx m) = length (m_feat_labels m)) /\
  fits (m_x m) inst (m_feat_labels m) /\
  fits (m_y_raw m) inst (m_algo_labels m) /\ fits (m_y m) inst (m_algo_labels m) /\
  fits (m_y_bin m) inst (m_algo_labels m) /\
  length (m_num_good_algos m) = length inst /\ length (m_beta m) = length inst /\ length (m_p m) = length inst /\
  fits (m_y_hat m) inst (m_algo_labels m) /\ length (m_selection0 m) = length inst /\
  11 <= length (header (m_trace_summary m)) /\
  m_z_edge m <> [] /\ m_z_ecorr m <> [].

(** the files in the order in which they are written *)
Definition polygon_files (fps : list (option shape)) (file : string) (i : nat) : list string :=
  match nth_error fps i with Some (Some _) => [file] | _ => [] end.
Definition csv_order (m : model) : list string :=
  flat_map (fun i => let l := nth i (m_algo_labels m) ""%string in
              polygon_files (m_best m) (best_file l) i ++ polygon_files (m_good m) (good_file l) i) (seq 0 (m_nalgos m)) ++
  map fst (array_files m) ++ ["footprint_performance.csv"; "projection_matrix.csv"; "svm_table.csv"]%string.
