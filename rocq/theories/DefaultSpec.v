(** Vocabulary for the properties of the default pipeline. *)
From Verif Require Import Base BuilderModel RunnerModel RunnerSpec DefaultModel.
Set Implicit Arguments.
Open Scope string_scope.

(** the two schedules the default stages may get *)
Definition default_schedule : list (list sid) := [[PREPROCESSING]; [PRELIM]; [SIFTED]; [PILOT]; [PYTHIA; CLOISTER]; [TRACE]].
Definition default_schedule' : list (list sid) := [[PREPROCESSING]; [PRELIM]; [SIFTED]; [PILOT]; [CLOISTER; PYTHIA]; [TRACE]].

(** the stages a stage cannot do without *)
Definition needs (s : sid) : list sid :=
  match s with
  | 0 => []                       (* PREPROCESSING *)
  | 1 => [PREPROCESSING]          (* PRELIM *)
  | 2 => [PREPROCESSING; PRELIM]  (* SIFTED *)
  | 3 => [PREPROCESSING]          (* PILOT *)
  | 4 => [PRELIM; PILOT]          (* PYTHIA *)
  | 5 => [PREPROCESSING; PILOT]   (* CLOISTER *)
  | _ => [PILOT; PYTHIA]          (* TRACE *)
  end.
(** the position of a stage in the default schedule *)
Definition rank (s : sid) : nat := match s with 5 => 4 | 6 => 5 | _ => s end.

(** Where the default stages get their inputs from; what is not listed comes from the metadata
    and the options. *)
Definition input_table : list (sid * list (sid * list string)) := [
  (PRELIM, [(PREPROCESSING, ["x"; "y"; "x_raw"; "y_raw"; "s"; "inst_labels"])]);
  (SIFTED, [(PREPROCESSING, ["inst_labels"; "feat_labels"]);
            (PRELIM, ["x"; "y"; "y_bin"; "x_raw"; "y_raw"; "beta"; "num_good_algos"; "y_best"; "p"; "s"; "data_dense"])]);
  (PILOT, [(SIFTED, ["x"; "y"; "feat_labels"])]);
  (PYTHIA, [(PREPROCESSING, ["algo_labels"]); (SIFTED, ["y_raw"; "y_bin"; "y_best"]); (PILOT, ["z"])]);
  (CLOISTER, [(SIFTED, ["x"]); (PILOT, ["a"])]);
  (TRACE, [(PREPROCESSING, ["algo_labels"]); (SIFTED, ["p"; "beta"; "y_bin"]); (PILOT, ["z"]); (PYTHIA, ["selection0"; "y_hat"])])].
(** ... and what they get from the metadata and the options *)
Definition caller_table : list (sid * list string) := [
  (PREPROCESSING, ["feature_names"; "algorithm_names"; "instance_labels"; "instance_sources"; "features"; "algorithms"; "selvars_options"]);
  (PRELIM, ["prelim_options"; "selvars_options"]);
  (SIFTED, ["sifted_options"; "selvars_options"; "parallel_options"]);
  (PILOT, ["pilot_options"]);
  (PYTHIA, ["pythia_options"; "parallel_options"]);
  (CLOISTER, ["cloister_options"]);
  (TRACE, ["trace_options"; "parallel_options"])].
(** all that a stage is given *)
Definition inputs_of (s : sid) : list string :=
  List.app (flat_map (fun r => if Nat.eqb (fst r) s then flat_map snd (snd r) else []) input_table)
  (  flat_map (fun r => if Nat.eqb (fst r) s then snd r else []) caller_table).
Definition input_source (s : sid) (n : string) : option sid :=
  match find (fun r => Nat.eqb (fst r) s) input_table with
  | None => None
  | Some (_, row) => match find (fun c => existsb (String.eqb n) (snd c)) row with
                     | None => None
                     | Some (t, _) => Some t
                     end
  end.
(** What the stages' further inputs are: attributes of the metadata under their own name, the options
    of that name, and the options PRELIM collects from several others. *)
Definition metadata_names : list string := ["feature_names"; "algorithm_names"; "instance_labels"; "instance_sources"; "features"; "algorithms"].
Definition options_names : list string :=
  ["parallel"; "perf"; "auto"; "bound"; "norm"; "selvars"; "sifted"; "pilot"; "cloister"; "pythia"; "trace"; "outputs"].
(** the fields of the dataclasses Data, FeatSel, PrelimOut, ... that a Model consists of *)
Definition data_fields : list string :=
  ["inst_labels"; "feat_labels"; "algo_labels"; "x"; "y"; "x_raw"; "y_raw"; "y_bin"; "y_best"; "p"; "num_good_algos"; "beta"; "s"].
Definition model_fields : list (string * list string) := [
  ("data", data_fields); ("data_dense", data_fields); ("feat_sel", ["idx"]);
  ("prelim", ["med_val"; "iq_range"; "hi_bound"; "lo_bound"; "min_x"; "lambda_x"; "mu_x"; "sigma_x"; "min_y"; "lambda_y"; "sigma_y"; "mu_y"]);
  ("sifted", ["selvars"; "idx"; "rho"; "pval"; "silhouette_scores"; "clust"]);
  ("pilot", ["X0"; "alpha"; "eoptim"; "perf"; "a"; "z"; "c"; "b"; "error"; "r2"; "summary"]);
  ("cloister", ["z_edge"; "z_ecorr"]);
  ("pythia", ["mu"; "sigma"; "cp"; "svm"; "cvcmat"; "y_sub"; "y_hat"; "pr0_sub"; "pr0_hat"; "box_consnt"; "k_scale"; "precision"; "recall";
              "accuracy"; "selection0"; "selection1"; "summary"]);
  ("trace", ["space"; "good"; "best"; "hard"; "summary"])].
(** the stage whose output the attributes of a part of the Model are *)
Definition model_source (part attribute : string) : sid :=
  if (String.eqb part "data" || String.eqb part "data_dense")%bool then if String.eqb attribute "algo_labels" then PREPROCESSING else SIFTED
  else if String.eqb part "prelim" then PRELIM
  else if String.eqb part "pilot" then PILOT
  else if String.eqb part "cloister" then CLOISTER
  else if String.eqb part "pythia" then PYTHIA
  else if String.eqb part "trace" then TRACE
  else SIFTED.
(** the name of the output: attributes are called like outputs, except for the summaries *)
Definition output_name (part attribute : string) : string :=
  if String.eqb attribute "summary" then part ++ "_summary" else attribute.

Section Values.
  Variable V : Type.
  Variable behave : list (event V) -> sid -> dict V -> option (dict V).

  (** stages that return, return a tuple with the declared fields *)
  Definition returns_declared (D : decls) : Prop :=
    forall h s i o, behave h s i = Some o -> forall n, given o n <> None <-> In n (map fst (d_out D s)).

  (** what an execution returned under a name *)
  Definition returned (ev : event V) (n : string) : option V :=
    match ev_out ev with Some o => given o n | None => None end.
  (** the value called n: what the execution of a stage returned, or what the caller gave *)
  Definition value_from (ev : sid -> event V) (args : dict V) (src : option sid) (n : string) : option V :=
    match src with Some t => returned (ev t) n | None => given args n end.
  (** attribute of a part of the Model *)
  Definition attribute_of (m : model_parts V) (part attribute : string) : option V :=
    match find (fun p => String.eqb (fst p) part) m with
    | None => None
    | Some (_, l) => given l attribute
    end.
End Values.
