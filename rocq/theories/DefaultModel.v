(** Model of the default pipeline: what the seven stage classes declare, the inputs InstanceSpace
    prepares for them, and the Model object made of the runner's output.  Definitions only.
    The tables below are transcribed from the annotations in the source. *)
From Verif Require Import Base BuilderModel RunnerModel.
Set Implicit Arguments.
Open Scope string_scope.

(** the stage classes, in the order of instance_space.py:138-146 *)
Definition PREPROCESSING : sid := 0.
Definition PRELIM : sid := 1.
Definition SIFTED : sid := 2.
Definition PILOT : sid := 3.
Definition PYTHIA : sid := 4.
Definition CLOISTER : sid := 5.
Definition TRACE : sid := 6.
(** instance_space.py:138-146 *)
Definition default_stages : list sid := [PREPROCESSING; PRELIM; SIFTED; PILOT; PYTHIA; CLOISTER; TRACE].

(** The annotations that occur.  None is a marker; equal annotations compare equal
    ([NDArray[np.double]] and [X | None] by their arguments, classes by identity). *)
Definition TStrings := TPlain 0.  (* list[str] *)
Definition TSeries := TPlain 1.  (* pd.Series *)
Definition TSeriesOpt := TPlain 2.  (* pd.Series | None *)
Definition TDoubles := TPlain 3.  (* NDArray[np.double] *)
Definition TSelvarsOptions := TPlain 4.  (* SelvarsOptions *)
Definition TPrelimOptions := TPlain 5.  (* PrelimOptions *)
Definition TFloat := TPlain 6.  (* float *)
Definition TBools := TPlain 7.  (* NDArray[np.bool_] *)
Definition TInts := TPlain 8.  (* NDArray[np.int_] *)
Definition TDenseOpt := TPlain 9.  (* DataDense | None *)
Definition TSiftedOptions := TPlain 10.  (* SiftedOptions *)
Definition TParallelOptions := TPlain 11.  (* ParallelOptions *)
Definition TCInts := TPlain 12.  (* NDArray[np.intc] *)
Definition TDoublesOpt := TPlain 13.  (* NDArray[np.double] | None *)
Definition TFloatsOpt := TPlain 14.  (* list[float] | None *)
Definition TBoolsOpt := TPlain 15.  (* NDArray[np.bool_] | None *)
Definition TPilotOptions := TPlain 16.  (* PilotOptions *)
Definition TFrame := TPlain 17.  (* pd.DataFrame *)
Definition TPythiaOptions := TPlain 18.  (* PythiaOptions *)
Definition TFloats := TPlain 19.  (* list[float] *)
Definition TKFold := TPlain 20.  (* StratifiedKFold *)
Definition TSVCs := TPlain 21.  (* list[SVC] *)
Definition TCloisterOptions := TPlain 22.  (* CloisterOptions *)
Definition TTraceOptions := TPlain 23.  (* TraceOptions *)
Definition TFootprint := TPlain 24.  (* Footprint *)
Definition TFootprints := TPlain 25.  (* list[Footprint] *)
Definition TPerformanceOptions := TPlain 26.  (* PerformanceOptions *)
Definition TAutoOptions := TPlain 27.  (* AutoOptions *)
Definition TBoundOptions := TPlain 28.  (* BoundOptions *)
Definition TNormOptions := TPlain 29.  (* NormOptions *)
Definition TOutputOptions := TPlain 30.  (* OutputOptions *)

(** stages/preprocessing.py:33-60, 131-132 [_inputs] *)
Definition preprocessing_in : list arg := [
  ("feature_names", TStrings); ("algorithm_names", TStrings); ("instance_labels", TSeries);
  ("instance_sources", TSeriesOpt); ("features", TDoubles); ("algorithms", TDoubles);
  ("selvars_options", TSelvarsOptions)].
(** stages/preprocessing.py:63-94, 135-136 [_outputs] *)
Definition preprocessing_out : list arg := [
  ("inst_labels", TSeries); ("feat_labels", TStrings); ("algo_labels", TStrings); ("x", TDoubles); ("y", TDoubles);
  ("s", TSeriesOpt); ("x_raw", TDoubles); ("y_raw", TDoubles)].
(** stages/prelim.py:28-62, 206-207 [_inputs] *)
Definition prelim_in : list arg := [
  ("x", TDoubles); ("y", TDoubles); ("x_raw", TDoubles); ("y_raw", TDoubles); ("s", TSeriesOpt);
  ("inst_labels", TSeries); ("prelim_options", TPrelimOptions); ("selvars_options", TSelvarsOptions)].
(** stages/prelim.py:66-154, 210-211 [_outputs] *)
Definition prelim_out : list arg := [
  ("med_val", TDoubles); ("iq_range", TDoubles); ("hi_bound", TDoubles); ("lo_bound", TDoubles); ("min_x", TDoubles);
  ("lambda_x", TDoubles); ("mu_x", TDoubles); ("sigma_x", TDoubles); ("min_y", TFloat); ("lambda_y", TDoubles);
  ("sigma_y", TDoubles); ("mu_y", TDoubles); ("x", TDoubles); ("y", TDoubles); ("x_raw", TDoubles);
  ("y_raw", TDoubles); ("y_bin", TBools); ("y_best", TDoubles); ("p", TInts); ("num_good_algos", TDoubles);
  ("beta", TBools); ("instlabels", TSeriesOpt); ("data_dense", TDenseOpt); ("s", TSeriesOpt)].
(** stages/sifted.py:80-135, 348-349 [_inputs] *)
Definition sifted_in : list arg := [
  ("x", TDoubles); ("y", TDoubles); ("y_bin", TBools); ("x_raw", TDoubles); ("y_raw", TDoubles); ("beta", TBools);
  ("num_good_algos", TDoubles); ("y_best", TDoubles); ("p", TInts); ("inst_labels", TSeries);
  ("feat_labels", TStrings); ("s", TSeriesOpt); ("sifted_options", TSiftedOptions);
  ("selvars_options", TSelvarsOptions); ("data_dense", TDenseOpt); ("parallel_options", TParallelOptions)].
(** stages/sifted.py:138-199, 352-353 [_outputs] *)
Definition sifted_out : list arg := [
  ("x", TDoubles); ("y", TDoubles); ("y_bin", TBools); ("x_raw", TDoubles); ("y_raw", TDoubles); ("beta", TBools);
  ("num_good_algos", TDoubles); ("y_best", TDoubles); ("p", TInts); ("inst_labels", TSeries); ("s", TSeriesOpt);
  ("feat_labels", TStrings); ("selvars", TCInts); ("idx", TCInts); ("rho", TDoublesOpt); ("pval", TDoublesOpt);
  ("silhouette_scores", TFloatsOpt); ("clust", TBoolsOpt)].
(** stages/pilot.py:25-43, 117-118 [_inputs] *)
Definition pilot_in : list arg := [
  ("x", TDoubles); ("y", TDoubles); ("feat_labels", TStrings); ("pilot_options", TPilotOptions)].
(** stages/pilot.py:46-85, 121-122 [_outputs] *)
Definition pilot_out : list arg := [
  ("X0", TDoublesOpt); ("alpha", TDoublesOpt); ("eoptim", TDoublesOpt); ("perf", TDoublesOpt); ("a", TDoubles);
  ("z", TDoubles); ("c", TDoubles); ("b", TDoubles); ("error", TDoubles); ("r2", TDoubles); ("pilot_summary", TFrame)].
(** stages/pythia.py:81-108, 264-265 [_inputs] *)
Definition pythia_in : list arg := [
  ("z", TDoubles); ("y_raw", TDoubles); ("y_bin", TBools); ("y_best", TDoubles); ("algo_labels", TStrings);
  ("pythia_options", TPythiaOptions); ("parallel_options", TParallelOptions)].
(** stages/pythia.py:111-171, 268-269 [_outputs] *)
Definition pythia_out : list arg := [
  ("mu", TFloats); ("sigma", TFloats); ("w", TDoubles); ("cp", TKFold); ("svm", TSVCs); ("cvcmat", TDoubles);
  ("y_sub", TBools); ("y_hat", TBools); ("pr0_sub", TDoubles); ("pr0_hat", TDoubles); ("box_consnt", TFloats);
  ("k_scale", TFloats); ("accuracy", TFloats); ("precision", TFloats); ("recall", TFloats); ("selection0", TInts);
  ("selection1", TInts); ("pythia_summary", TFrame)].
(** stages/cloister.py:50-65, 135-136 [_inputs] *)
Definition cloister_in : list arg := [
  ("x", TDoubles); ("a", TDoubles); ("cloister_options", TCloisterOptions)].
(** stages/cloister.py:68-80, 139-140 [_outputs] *)
Definition cloister_out : list arg := [
  ("z_edge", TDoubles); ("z_ecorr", TDoubles)].
(** stages/trace.py:66-100, 242-253 [_inputs] *)
Definition trace_in : list arg := [
  ("z", TDoubles); ("selection0", TInts); ("p", TInts); ("beta", TBools); ("algo_labels", TStrings);
  ("y_hat", TBools); ("y_bin", TBools); ("trace_options", TTraceOptions); ("parallel_options", TParallelOptions)].
(** stages/trace.py:103-126, 256-267 [_outputs] *)
Definition trace_out : list arg := [
  ("space", TFootprint); ("good", TFootprints); ("best", TFootprints); ("hard", TFootprint); ("trace_summary", TFrame)].
(** instance_space.py:55-73 [_InstanceSpaceInputs] *)
Definition default_inputs : list arg := [
  ("feature_names", TStrings); ("algorithm_names", TStrings); ("instance_labels", TSeries);
  ("instance_sources", TSeriesOpt); ("features", TDoubles); ("algorithms", TDoubles);
  ("parallel_options", TParallelOptions); ("perf_options", TPerformanceOptions); ("auto_options", TAutoOptions);
  ("bound_options", TBoundOptions); ("norm_options", TNormOptions); ("selvars_options", TSelvarsOptions);
  ("sifted_options", TSiftedOptions); ("pilot_options", TPilotOptions); ("cloister_options", TCloisterOptions);
  ("pythia_options", TPythiaOptions); ("trace_options", TTraceOptions); ("outputs_options", TOutputOptions);
  ("prelim_options", TPrelimOptions)].
(** instance_space.py:75-101: each input and the attribute it is set from *)
Definition input_attributes : list (string * string) := [
  ("feature_names", "metadata.feature_names"); ("algorithm_names", "metadata.algorithm_names");
  ("instance_labels", "metadata.instance_labels"); ("instance_sources", "metadata.instance_sources");
  ("features", "metadata.features"); ("algorithms", "metadata.algorithms"); ("parallel_options", "options.parallel");
  ("perf_options", "options.perf"); ("auto_options", "options.auto"); ("bound_options", "options.bound");
  ("norm_options", "options.norm"); ("selvars_options", "options.selvars"); ("sifted_options", "options.sifted");
  ("pilot_options", "options.pilot"); ("cloister_options", "options.cloister"); ("pythia_options", "options.pythia");
  ("trace_options", "options.trace"); ("outputs_options", "options.outputs");
  ("prelim_options", "PrelimOptions.from_options(options)")].
(** data/model.py:39-71: attributes of Data and the keys they are read from *)
Definition data_keys : list (string * string) := [
  ("inst_labels", "inst_labels"); ("feat_labels", "feat_labels"); ("algo_labels", "algo_labels"); ("x", "x");
  ("y", "y"); ("x_raw", "x_raw"); ("y_raw", "y_raw"); ("y_bin", "y_bin"); ("y_best", "y_best"); ("p", "p");
  ("num_good_algos", "num_good_algos"); ("beta", "beta"); ("s", "s")].
(** data/model.py:474-493: attributes of FeatSel and the keys they are read from *)
Definition feat_sel_keys : list (string * string) := [
  ("idx", "idx")].
(** data/model.py:129-159: attributes of PrelimOut and the keys they are read from *)
Definition prelim_keys : list (string * string) := [
  ("med_val", "med_val"); ("iq_range", "iq_range"); ("hi_bound", "hi_bound"); ("lo_bound", "lo_bound");
  ("min_x", "min_x"); ("lambda_x", "lambda_x"); ("mu_x", "mu_x"); ("sigma_x", "sigma_x"); ("min_y", "min_y");
  ("lambda_y", "lambda_y"); ("sigma_y", "sigma_y"); ("mu_y", "mu_y")].
(** data/model.py:175-199: attributes of SiftedOut and the keys they are read from *)
Definition sifted_keys : list (string * string) := [
  ("selvars", "selvars"); ("idx", "idx"); ("rho", "rho"); ("pval", "pval");
  ("silhouette_scores", "silhouette_scores"); ("clust", "clust")].
(** data/model.py:220-249: attributes of PilotOut and the keys they are read from *)
Definition pilot_keys : list (string * string) := [
  ("X0", "X0"); ("alpha", "alpha"); ("eoptim", "eoptim"); ("perf", "perf"); ("a", "a"); ("z", "z"); ("c", "c");
  ("b", "b"); ("error", "error"); ("r2", "r2"); ("summary", "pilot_summary")].
(** data/model.py:265-285: attributes of CloisterOut and the keys they are read from *)
Definition cloister_keys : list (string * string) := [
  ("z_edge", "z_edge"); ("z_ecorr", "z_ecorr")].
(** data/model.py:312-347: attributes of PythiaOut and the keys they are read from *)
Definition pythia_keys : list (string * string) := [
  ("mu", "mu"); ("sigma", "sigma"); ("cp", "cp"); ("svm", "svm"); ("cvcmat", "cvcmat"); ("y_sub", "y_sub");
  ("y_hat", "y_hat"); ("pr0_sub", "pr0_sub"); ("pr0_hat", "pr0_hat"); ("box_consnt", "box_consnt");
  ("k_scale", "k_scale"); ("precision", "precision"); ("recall", "recall"); ("accuracy", "accuracy");
  ("selection0", "selection0"); ("selection1", "selection1"); ("summary", "pythia_summary")].
(** data/model.py:440-463: attributes of TraceOut and the keys they are read from *)
Definition trace_keys : list (string * string) := [
  ("space", "space"); ("good", "good"); ("best", "best"); ("hard", "hard"); ("summary", "trace_summary")].

(** What the seven classes declare; no other class declares anything here. *)
Definition default_decls : decls := {|
  d_in s := nth s [preprocessing_in; prelim_in; sifted_in; pilot_in; pythia_in; cloister_in; trace_in] [];
  d_out s := nth s [preprocessing_out; prelim_out; sifted_out; pilot_out; pythia_out; cloister_out; trace_out] [] |}.

(** model.py:62-79: the attributes of Model (except opts, which is the options object given);
    data_dense is the same object as data *)
Definition model_attributes : list (string * list (string * string)) := [
  ("data", data_keys); ("data_dense", data_keys); ("feat_sel", feat_sel_keys); ("prelim", prelim_keys);
  ("sifted", sifted_keys); ("pilot", pilot_keys); ("cloister", cloister_keys); ("pythia", pythia_keys);
  ("trace", trace_keys)].

Section Values.
  Variable V : Type.
  (** instance_space.py:75-101, [attr] gives the values of the attributes of metadata and options *)
  Definition space_inputs (attr : string -> V) : dict V := map (fun na => (fst na, attr (snd na))) input_attributes.

  (** [cls(a=output["k"], ...)]: None = KeyError *)
  Fixpoint read_keys (d : dict V) (keys : list (string * string)) : option (list (string * V)) :=
    match keys with
    | [] => Some []
    | (a, k) :: t => match dget d k, read_keys d t with
                     | Some v, Some r => Some ((a, v) :: r)
                     | _, _ => None
                     end
    end.
  (** model.py:46-79 [Model.from_stage_runner_output]: the attributes of each part *)
  Definition model_parts := list (string * list (string * V)).
  Fixpoint read_parts (d : dict V) (parts : list (string * list (string * string))) : option model_parts :=
    match parts with
    | [] => Some []
    | (p, keys) :: t => match read_keys d keys, read_parts d t with
                        | Some l, Some r => Some ((p, l) :: r)
                        | _, _ => None
                        end
    end.
  Definition from_stage_runner_output (d : dict V) : option model_parts := read_parts d model_attributes.
End Values.
