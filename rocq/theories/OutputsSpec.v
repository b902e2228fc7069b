(** Vocabulary for the properties of the output methods called one after the other. *)
From Verif Require Import Mat PreprocSpec SerialModel DrawModel OutputsModel.
Set Implicit Arguments.
Open Scope nat_scope.
Open Scope list_scope.

Section Alone.
  Variable can_write : string -> bool.
  Variable colours : SerialModel.table.
  Variable log10p1 : num -> num.
  Variable use_sim : bool.
  Variable w : nat.
  Definition no_tables : directory := fun _ => None.
  Definition no_plots : string -> option plot := fun _ => None.
  (** What the method, called alone on an empty directory, leaves in file f. *)
  Definition produced (s : method) (m : model) (f : string) : option content :=
    match s with
    | SaveToCsv => option_map CTable (fst (save_to_csv can_write true m no_tables) f)
    | SaveForWeb => option_map CTable (fst (save_for_web can_write colours true m no_tables) f)
    | SaveGraphs => option_map CPlot (fst (save_graphs log10p1 use_sim m w true no_plots) f)
    | SaveToMat => if String.eqb f "model.mat" && can_write f then Some (CLabels (m_algo_labels m)) else None
    end.
  (** The method, called alone on an empty directory, returns. *)
  Definition returns (s : method) (m : model) : Prop :=
    match s with
    | SaveToCsv => snd (save_to_csv can_write true m no_tables) = None
    | SaveForWeb => snd (save_for_web can_write colours true m no_tables) = None
    | SaveGraphs => snd (save_graphs log10p1 use_sim m w true no_plots) = None /\
                    forall f, produced SaveGraphs m f <> None -> can_write f = true
    | SaveToMat => True
    end.
End Alone.

(** The names of the files that a method may write, whatever the model. *)
Definition csv_file_names : list string :=
  ["coordinates.csv"; "bounds.csv"; "bounds_prunned.csv"; "feature_raw.csv"; "feature_process.csv"; "algorithm_raw.csv";
   "algorithm_process.csv"; "algorithm_bin.csv"; "good_algos.csv"; "beta_easy.csv"; "portfolio.csv"; "algorithm_svm.csv";
   "portfolio_svm.csv"; "footprint_performance.csv"; "projection_matrix.csv"; "svm_table.csv"]%string.
Definition web_file_names : list string :=
  ["color_table.csv"; "feature_raw_color.csv"; "algorithm_raw_single_color.csv"; "feature_process_color.csv";
   "algorithm_process_single_color.csv"; "algorithm_raw_color.csv"; "algorithm_process_color.csv"; "good_algos_color.csv"]%string.
Definition kind (s : method) (f : string) : Prop :=
  match s with
  | SaveToCsv => In f csv_file_names \/ exists a, f = append "footprint_" (append a ".csv")
  | SaveForWeb => In f web_file_names
  | SaveGraphs => exists a, f = append a ".png"
  | SaveToMat => f = "model.mat"%string
  end.
