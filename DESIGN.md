# Formal model of pyInstanceSpace in Rocq/Coq 8.16

Source: `/repo` (read as text only; never executed). Properties: `properties.jsonl`.
Development: `rocq/theories`, logical name `Verif`. The tables of this file are written by
`tools/design.py` from the development.

## 1. Layout

For each part `X` of the program there are up to four files:

* `XModel.v`  – executable Gallina definitions, one per Python function, each with a
  comment citing file and lines and every simplification. No proofs.
* `XSpec.v`   – small, independent vocabulary for the English property (no use of the
  model's helper functions).
* `XProofs.v` – lemmas.
* `XProps.v`  – the property theorems, an `Example` next to each that meets its
  hypotheses, and `Print Assumptions`.

Exceptions are values (`res E A = Ok a | Err e`); a method that mutates its object returns
`(new state, res)`. External libraries (SVM, KMeans, BFGS, Qhull, shapely, random numbers,
file systems) are function arguments, universally quantified in the theorems; where a
theorem needs something of a library it is a hypothesis of the theorem, in plain words
beside it. Loops are structural recursion or fuel; running out of fuel is a separate value
that a theorem excludes.

Where the documentation of the code claims something the code does not do, the property
states what the code does, the positive part is proved, and the claim is refuted by a
theorem with suffix `_refuted` that gives a witness (section 4).

`seeded/LOG.jsonl` records edits of the model (as a realistic bug would change the
program) and the theorems that stop proving; `tools/mutate.py` makes them in a scratch copy.

## 2. Number model

`float64` data is modelled by exact rationals (`Q`), where needed extended by NaN
(`num = option Q`) and infinities (`Ext.v`). Rounding is not modelled. Distances are
compared through their squares. Where roots, logarithms or powers matter (z-scores, Box-Cox,
grids of hyper-parameters) Coq's reals are used. PILOT's analytic solution is over an
arbitrary real field (mathcomp). TRACE's cluster distances use integer coordinates.

## 3. Plan per property

Every property is modelled in the file(s) named by the `*Props.v` file that states it (`XProps.v` imports `XModel.v`). None is left out as not expressible.

* **BuilderProps.v** (C01, C02, C03, C04, C05, C06, C07, C08, C09, C10, C11, C12, C13, C56). *Modelled:* StageBuilder and the StageRunner constructor. A stage is a class with (name, type) inputs and outputs; sets are lists with set semantics, and the iteration order of every Python set is an oracle that may return any permutation. *Proved by:* Induction over the resolution rounds with a schedule invariant; simulation between two iteration orders (C03); refutations by evaluated witnesses.
* **RunnerProps.v** (C14, C15, C16, C17, C18, C19, C20, C21, C22, C23, C24, C25, C26, C27). *Modelled:* StageRunner as a state machine over a heap of dictionaries, so that aliasing is visible: run_all, run_until_stage, run_stage and any number of interleaved run_iter generators; stages are arbitrary functions that may raise; InstanceSpace on top. *Proved by:* Invariants over all sequences of operations; refinement to a fold over the schedule.
* **SavedProps.v** (C119, C140). *Modelled:* The Model object that a completed run of the default pipeline leaves, given to the savers. *Proved by:* The shapes of all its arrays from C112 and C89, then C93, C94, C96 and C116 for the files.
* **RadiusProps.v** (C121). *Modelled:* TRACE's estimate of the neighbourhood radius and the clustering with it, over the reals. *Proved by:* The radius in closed form; the clustering asks only which rows are near; witnesses with bounds on pi.
* **MonoProps.v** (C122). *Modelled:* No new definitions: PRELIM's marks, the purifier, SIFTED's selection, CLOISTER and TRACE's footprints. *Proved by:* Each mark or inclusion is a comparison with the option; for footprints, induction over the triangles removed and the clusters; witnesses for the exceptions.
* **PythiaSepProps.v** (C83, C123). *Modelled:* No new definitions: PYTHIA as in PythiaProps.v. *Proved by:* Inversion of a completed run: which training each column of the output comes from; the selections are determined by the candidates.
* **SiftedOutProps.v** (C124). *Modelled:* The run of SIFTED with everything it reports: correlations, p-values, silhouette scores and the clusters, and the random numbers drawn for each library call (SiftedOutModel.v). *Proved by:* Inversion of a completed run; counting the features a chromosome decodes to; a witness for the score that is not of the reported clusters.
* **InstOrderProps.v** (C125). *Modelled:* No new definitions of code: PREPROCESSING, PRELIM and SIFTED on a list of instances. *Proved by:* Sorting, minimum and counting respect permutations; each result is a function of the instance and of such aggregates.
* **OutputsProps.v** (C126). *Modelled:* The four output methods called one after the other on one directory, and the archive of it (OutputsModel.v); the calls each makes are those of SerialModel.v and DrawModel.v. *Proved by:* Induction over the sequence of calls; the names of the files of two methods differ by their endings or by inspection.
* **UnitsProps.v** (C127). *Modelled:* No new definitions of code: PRELIM on an instance whose performances are multiplied, negated or inverted. *Proved by:* The search for the best commutes with maps that respect the order; quotients cancel the factor; witnesses for 0 and for negative costs.
* **AlgOrderProps.v** (C128). *Modelled:* No new definitions of code: PRELIM on an instance whose algorithms are listed in another order, and with one more algorithm. *Proved by:* The best value of a row depends only on which values it has; marks and relative performances are maps over the row given the best value; witnesses for ties and for a best cost of 0.
* **InvarProps.v** (C129). *Modelled:* No new definitions of code: the purifier on tables whose columns are permuted, shifted, rescaled or extended. *Proved by:* Squared distances are sums over the columns, so permuting, shifting and rescaling act on them in a known way; the loops depend on the tables through the comparisons only.
* **ScaleProps.v** (C130). *Modelled:* No new definitions of code: PRELIM's bounding and normalisation of a feature on another scale. *Proved by:* Sorting commutes with monotone maps and reverses under antitone ones; the order statistics of a column lie within its bounds.
* **ScaleRProps.v** (C130). *Modelled:* No new definitions of code: PRELIM's Box-Cox transformation over the reals (PrelimZModel.v) on another scale. *Proved by:* The minimum shifts with the data; a witness with the parameter 2 for the unit.
* **CloInvProps.v** (C131). *Modelled:* No new definitions of code: CLOISTER on data in another order, unit or zero point. *Proved by:* The corners of the two boxes correspond, their projections are equal points and they contradict the correlations alike; a convex hull depends on the set of points only.
* **PilotInvProps.v** (C132). *Modelled:* No new definitions of code: the analytic solution of PilotMxModel.v for data whose rows and columns are moved by orthogonal matrices (or a multiple of one). *Proved by:* The scatter matrix of the moved data is conjugate to that of the original, so its decompositions correspond. For two decompositions of one matrix the product of their bases is orthogonal and has no entry between different eigenvalues; with the gap, counting rows shows that the two chosen columns stay in the plane, so the bases differ by an orthogonal 2 by 2 matrix.
* **SiftInvProps.v** (C133). *Modelled:* No new definitions of code: SIFTED of SiftedModel.v on tables with reordered, dropped, rescaled or reversed columns; the ranking is a function of a column of correlations. *Proved by:* Membership in the selection is characterised column by column; an increasing list is determined by its members. The refutations run the model with the sign of the covariance as coefficient and a stable sort as ranking, both proved to meet the hypotheses.
* **SelectProps.v** (C134). *Modelled:* No new definitions of code: two runs of PYTHIA (PythiaModel.v) whose labels and predictions correspond under a permutation of the algorithms. *Proved by:* Precision is a ratio of counts (C78), so it moves with the columns; candidates correspond, and a strict maximum is found in either order by C48 and C49.
* **TraceAlgProps.v** (C135). *Modelled:* No new definitions of code: two runs of TRACE (TraceModel.v) on one map. *Proved by:* By C89 each footprint is built from its own flags; the test for contradictions is symmetric if intersection is. The refutation runs the stage with measured best algorithms on the pixel geometry of TraceProps.v.
* **TraceMoveProps.v** (C136). *Modelled:* No new definitions of code: the functions of TraceModel.v.  That shapely's operations commute with a translation is a hypothesis (TraceMoveSpec.moves_along), met by the pixel geometry. *Proved by:* every loop of the model is shown to commute with the translation, by induction on its list or on the rounds left
* **RepeatProps.v** (C137). *Modelled:* No new definitions of code: the functions of PreprocModel.v, applied to their own results. *Proved by:* the table a first pass hands on is shown to have no column with too many gaps; what a second pass removes is then read off C36
* **PluginProps.v** (C138). *Modelled:* A stage of the user's own beside the seven default ones (README, example_plugin.py): its declarations are arguments, builder, runner and default tables are those of BuilderModel.v, RunnerModel.v and DefaultModel.v. *Proved by:* a simulation between resolving with and without the plugin, composition of runs with the plugin's names ignored, and the order of the default stages found by evaluation
* **ColumnsProps.v** (C139). *Modelled:* No new definitions of code: the stage of PreprocModel.v, its tables seen as lists of named columns (ColumnsSpec.v). *Proved by:* selection and removal are rewritten as operations on lists of named columns; these commute with permutations and ignore columns that are filtered out
* **EdgeProps.v** (C140). *Modelled:* No new definitions of code: CLOISTER with a hull routine that fails exactly on points of one line. *Proved by:* The turn of three projected corners is a double sum over pairs of features; it vanishes for all corners iff no two varying features have independent loadings.
* **TablesProps.v** (C141). *Modelled:* The summary tables of PILOT and PYTHIA as data frames, and the files made of them. *Proved by:* C93 gives the rows of the files; C70, C78, C79 and C92 for a run with the arrays the pipeline hands over give their values.
* **FilesProps.v** (C142, C143). *Modelled:* instance_space_from_files, the reading of the options by the stages, the pipeline and save_to_csv in one function from files to files. *Proved by:* C108 and C109 for the file that is read, C119 for the files that are written; the options are looked up field by field.
* **WiringProps.v** (C120). *Modelled:* The passing of values by position and keyword from a stage's inputs to its computation and from there to its outputs; the computations are arguments. *Proved by:* Evaluation of the calls for arbitrary values, inputs and computations.
* **SpaceProps.v** (C118). *Modelled:* The calls of InstanceSpace, in any order, on the runner of RunnerProps.v. *Proved by:* An invariant on where the values in every dictionary come from.
* **OptionsProps.v** (C28, C29, C30, C31, C57, C58, C68, C69, C117). *Modelled:* InstanceSpaceOptions.from_dict, _load_dataclass, _validate_fields, the default() methods and from_json_file on insertion-ordered dictionaries; the tables of sections, fields, types and aliases are transcribed. *Proved by:* Case analysis over key lists, permutation lemmas; str.lower is a parameter.
* **FilterProps.v** (C32, C33, C34). *Modelled:* filter_instance, the double loop over exact rationals; distances by their squares. *Proved by:* Loop invariants; strong induction on the index. C32_squares_are_distances links squares to real square roots.
* **UniProps.v** (C113). *Modelled:* compute_uniformity and do_filter over Coq's reals, NaN included. *Proved by:* Sums of deviations; minima of lists; C33 for the purified set.
* **PreprocProps.v** (C35, C36). *Modelled:* PreprocessingStage: selection of columns, removal of instances and features. *Proved by:* List induction; a specification by index lists.
* **PrelimProps.v** (C37, C38, C39, C40, C41, C59, C60, C61, C110). *Modelled:* PrelimStage: one instance's verdicts (extended rationals), bounding and normalisation of one column, instance selection, the performances returned. *Proved by:* List induction, rational arithmetic; median and quartiles by an insertion sort proved sorted and a permutation.
* **PrelimZProps.v** (C111). *Modelled:* Box-Cox and z-score over Coq's reals, the fitted lambda an oracle. *Proved by:* Monotonicity of ln, exp and powers; sums of deviations.
* **SiftedProps.v** (C42, C43, C62, C63, C64, C65, C66, C67). *Modelled:* SiftedStage: correlations, selection by performance, decoding of chromosomes, the fitness, the choice of the number of clusters, the branches of the stage. *Proved by:* Fold invariants; mixed-radix arithmetic for the decoder.
* **PilotProps.v** (C44, C70, C72, C73). *Modelled:* PilotStage's numerical solution: restarts, choice of the best, unpacking of parameters, what is reported. BFGS and pearsonr are oracles. *Proved by:* List induction; algebra of sums of squares.
* **PilotMxProps.v** (C71, C74). *Modelled:* PilotStage's analytic solution over a mathcomp field (matrices), the eigenvectors an oracle with their defining equations. *Proved by:* Matrix algebra: normal equations, completion of the square, change of basis.
* **CloisterProps.v** (C45, C46, C47, C75). *Modelled:* CloisterStage: corners as binary numbers, the correlations, removal of corners; the convex hull is an oracle with the properties of hull vertices. *Proved by:* Bit arithmetic, list induction, convex combinations over Q.
* **PythiaProps.v** (C48, C49, C77, C78, C79, C80, C81, C82, C83). *Modelled:* PythiaStage: weights, training loop, scores, selections; scikit-learn is the oracle fit. *Proved by:* Argmax lemmas, counting lemmas.
* **PythiaSummaryProps.v** (C92). *Modelled:* PythiaStage._generate_summary and the array it overwrites. *Proved by:* Reading off columns of the table; nanmean over selected positions.
* **PythiaZProps.v** (C76, C83). *Modelled:* z-score and the grid of hyper-parameters over Coq's reals. *Proved by:* Sums of deviations; monotonicity of Rpower.
* **TraceProps.v** (C50, C51, C53, C84, C85, C86, C87, C88, C89). *Modelled:* TraceStage: futures loop, dbscan, footprint statistics; shapely's polygons and Qhull are oracles; coordinates are integers. *Proved by:* Permutation invariance; graph reachability invariant for dbscan.
* **TracePipelineProps.v** (C52, C90). *Modelled:* TraceStage._trace and _run: which instances and algorithms the footprints are made of, failures, number of workers. *Proved by:* Case analysis over the futures; permutation of instances.
* **TraceBuildProps.v** (C91). *Modelled:* TraceStage.build, fit_poly, tight, contra. *Proved by:* Case analysis over oracle results; counting of enclosed points.
* **SerialProps.v** (C93, C94, C95). *Modelled:* save_instance_space_to_csv, the zip archive, colour scales. A file system is a list of (path, content) writes. *Proved by:* List induction; rational arithmetic.
* **WebProps.v** (C54, C55, C96). *Modelled:* save_instance_space_for_web. *Proved by:* As SerialProps.v.
* **CrashProps.v** (C114). *Modelled:* The calls of save_to_csv and save_for_web cut off at any point, the file being written left with arbitrary content. *Proved by:* Induction over the inductive definition of a cut; last write per file.
* **PlotProps.v** (C99, C100, C101). *Modelled:* save_instance_space_graphs and the two portfolio plots: file names, data and legend of each plot. *Proved by:* Injectivity of file names, list induction.
* **ObjectProps.v** (C98). *Modelled:* Arrays as objects on a heap: which stage changes which array in place, and the deep copies made by the runner. *Proved by:* A heap invariant: what a stage writes is fresh.
* **DefaultProps.v** (C102, C103, C104, C105, C106). *Modelled:* The seven stage classes, the Model and its parts: names and types of all inputs, outputs, constructor keywords; the builder run on them. *Proved by:* Evaluation of the builder, for every iteration order by C03; the runner's theorems instantiated.
* **MetaProps.v** (C108, C109). *Modelled:* Metadata.from_data_frame, from_csv_file, instance_space_from_files and _from_directory. *Proved by:* Case analysis; filter lemmas over columns.
* **PipelineProps.v** (C97, C107). *Modelled:* PRELIM, SIFTED and the serialisers composed. *Proved by:* Composition of the theorems of the parts.
* **DrawProps.v** (C116). *Modelled:* Every call of the plotting functions: title, groups of instances with legends, colour values, filled rings, visible square; the files written. *Proved by:* Induction over the calls; groups as a partition of the instances by legend.
* **WholeProps.v** (C115). *Modelled:* The stage models composed from metadata to CLOISTER and TRACE. *Proved by:* Composition of C112 with C75, C38, C89, C52 and C90.
* **EndProps.v** (C112). *Modelled:* The stage models composed from metadata to PYTHIA. *Proved by:* Composition of C36, C40, C64 and the definitions of PILOT and PYTHIA.

| id | property | status | theorems |
|----|----------|--------|----------|
| C01 | A built schedule contains every added stage exactly once | proved | `C01_every_stage_once` |
| C02 | A built schedule is runnable | proved | `C02_built_schedule_runnable` |
| C03 | Adding stages in any order builds the same schedule | proved | `C03_order_of_adding_irrelevant` |
| C04 | Stages of one group never write the same argument nor mutate what another of the group reads | proved | `C04_no_race_in_a_group` |
| C05 | build fails only when it must | proved | `C05_build_fails_only_when_it_must` |
| C06 | Stage resolution terminates | proved | `C06_resolution_terminates`, `C06_only_documented_exceptions` |
| C07 | A mutating stage runs before the readers that become ready with it | proved | `C07_mutating_stage_before_ready_readers`, `C07_readers_after_mutation_refuted` |
| C08 | RunBefore / RunAfter markers are not honoured | proved | `C08_markers_are_ordinary_inputs`, `C08_marker_must_be_supplied`, `C08_markers_honoured_refuted`, `C08_marker_class_index_error` |
| C09 | add_stage rejects duplicates and misplaced markers and otherwise only adds | proved | `C09_add_stage`, `C09_builder_holds_accepted_stages_once` |
| C10 | A stage without outputs makes every build fail | proved | `C10_stage_without_outputs_never_builds` |
| C11 | build changes the set of initial inputs it is given | proved | `C11_build_grows_the_given_set`, `C11_second_build_same_set_refuted` |
| C12 | The missing-inputs error names exactly what is missing | proved | `C12_missing_inputs_report` |
| C13 | The runner's constructor accepts exactly the runnable schedules | proved | `C13_constructor_accepts_exactly_runnable` |
| C14 | A built pipeline never misses an argument | proved | `C14_built_pipeline_never_misses_argument` |
| C15 | run_all depends only on its arguments, not on the runner's history | proved | `C15_run_all_is_composition`, `C15_run_all_forgets_history` |
| C16 | A stage runs only after its prerequisite groups | proved | `C16_runs_only_after_prerequisites`, `C16_refusal_has_no_effect` |
| C17 | The prerequisite check can be satisfied by an earlier run | proved | `C17_prerequisites_of_this_run_refuted` |
| C18 | run_stage passes overrides first, then the newest values, and stores exactly the outputs | proved | `C18_run_stage_inputs_and_outputs`, `C18_missing_field` |
| C19 | Rerunning an earlier stage undoes nothing | proved | `C19_rerunning_undoes_nothing`, `C19_rollback_refuted` |
| C20 | Rerunning is idempotent for single-assignment pipelines | proved | `C20_rerun_is_idempotent` |
| C21 | A stage that raises changes no available value and can be retried | proved | `C21_failed_stage_changes_no_value` |
| C22 | run_until_stage stops before the named stage's group | proved | `C22_run_until_stops_before_the_group`, `C22_named_stage_never_runs` |
| C23 | run_iter yields one item per stage and ends like run_all | proved | `C23_creating_iterator_does_nothing`, `C23_items_are_the_stages_in_order`, `C23_failure_ends_the_iterator` |
| C24 | The dictionary returned by run_all is live until the next full run | proved | `C24_returned_dictionary_is_live`, `C24_frozen_after_next_run` |
| C25 | Results do not depend on set iteration order when groups do not interfere | proved | `C25_group_order_irrelevant`, `C25_order_dependence_refuted` |
| C26 | InstanceSpace.model: availability, caching and staleness | proved | `C26_model_unavailable_until_a_build_completes`, `C26_model_cached_for_ever`, `C26_first_build_reports_its_run`, `C26_build_reports_its_run_refuted` |
| C27 | Argument types are checked at build time only by annotation equality | proved | `C27_types_respected_if_names_have_one_type`, `C27_types_respected_refuted` |
| C28 | Accepted option files give every field the user's value or the default | proved | `C28_given_value_or_default` |
| C29 | Unknown options are never silently ignored | proved | `C29_unknown_options_are_errors`, `C29_known_options_are_accepted` |
| C30 | Two spellings of one option are rejected | proved | `C30_two_spellings_refused` |
| C31 | Key order and the other sections do not matter | proved | `C31_order_irrelevant`, `C31_sections_independent` |
| C32 | Purifier: who is excluded and why | proved | `C32_who_is_excluded`, `C32_filter_runs`, `C32_squares_are_distances` |
| C33 | Purifier (Ftr): the retained instances are a maximal min_distance-separated cover | proved | `C33_separated_cover`, `C33_filtering_again_excludes_nothing` |
| C34 | Purifier: dissimilar and VISA flags | proved | `C34_flags`, `C34_no_visa_for_Ftr` |
| C35 | Feature/algorithm selection keeps data and labels aligned | proved | `C35_selection_aligned`, `C35_distinct_labels_own_column`, `C35_duplicate_labels_refuted` |
| C36 | Removing instances with missing values keeps rows aligned and removes exactly the empty ones | proved | `C36_exactly_the_empty_are_removed`, `C36_stage_output_aligned`, `C36_documented_criterion_refuted` |
| C37 | PRELIM: best algorithm index | proved | `C37_best_performance_and_algorithm`, `C37_best_algorithm_refuted` |
| C38 | PRELIM: good performance and beta | proved | `C38_absolute_test`, `C38_relative_test`, `C38_counts`, `C38_best_is_good`, `C38_best_is_good_refuted_for_zero`, `C38_relative_test_refuted_for_negative` |
| C39 | PRELIM: bounding clips into the reported interval and nothing else | proved | `C39_bounding_clips`, `C39_bounding_monotone_idempotent` |
| C40 | PRELIM filter: all per-instance outputs are subset by one mask | proved | `C40_one_mask_for_everything`, `C40_which_instances` |
| C41 | PRELIM file-index selection drops the last instance and misreads index 0 | proved | `C41_file_selection`, `C41_index_selects_its_instance`, `C41_last_index_ignored_refuted`, `C41_when_it_fails` |
| C42 | SIFTED: one feature per cluster | proved | `C42_one_feature_per_cluster`, `C42_every_choice_reachable`, `C42_empty_cluster_fails` |
| C43 | SIFTED: performance selection | proved | `C43_what_is_selected`, `C43_strongest_feature_kept`, `C43_as_many_as_pass`, `C43_documented_rule_refuted`, `C43_insignificant_correlations_are_ignored` |
| C44 | PILOT: error is non-negative, best restart is chosen | proved | `C44_best_restart`, `C44_objective`, `C44_quality_of_the_returned_projection_refuted` |
| C45 | CLOISTER: the vertices enumerate every corner of the bounding box once | proved | `C45_vertices_enumerate_corners`, `C45_coordinates_are_extremes` |
| C46 | CLOISTER: exactly the vertices contradicting a strong correlation are removed | proved | `C46_removed_iff_contradicts`, `C46_boundary_of_kept_corners`, `C46_extremes_when_features_straddle_zero`, `C46_positive_features_ignore_correlation`, `C46_opposite_extremes_removed_refuted` |
| C47 | CLOISTER: the correlated boundary is contained in the plain boundary | proved | `C47_boundary_points_are_projected_corners`, `C47_correlated_boundary_inside_plain`, `C47_fallback_to_plain`, `C47_exactly_these_points`, `C47_when_it_succeeds` |
| C48 | PYTHIA: the selector picks an algorithm predicted good, of best precision among those | proved | `C48_selection_is_the_best_candidate`, `C48_right_prediction_is_followed`, `C48_zero_means_none_refuted` |
| C49 | PYTHIA: fallback selection | proved | `C49_fallback_selection` |
| C50 | TRACE: results do not depend on the completion order of the workers | proved | `C50_completion_order_is_irrelevant` |
| C51 | TRACE: clustering labels | proved | `C51_clustering`, `C51_partition_is_determined` |
| C52 | TRACE: best-performance footprints use the wrong algorithm when actual data is used | proved | `C52_best_footprints_are_shifted` |
| C53 | Footprint statistics are consistent | proved | `C53_statistics`, `C53_no_polygon` |
| C54 | Web colour scale | proved | `C54_scale_by_column`, `C54_scale_over_all`, `C54_range_and_order` |
| C55 | save_zip can lose files of equal base name | proved | `C55_members`, `C55_when_nothing_is_lost`, `C55_nothing_is_lost_refuted`, `C55_archive_is_left_out_refuted` |
| C56 | Stages are scheduled as early as possible | proved | `C56_stages_run_as_early_as_possible` |
| C57 | Reading an options file returns options, None, or raises AttributeError | proved | `C57_options_file_outcomes`, `C57_never_raises_refuted` |
| C58 | Loading options is stable | proved | `C58_loading_is_stable` |
| C59 | PRELIM: one missing value wipes out its feature, or all performances | proved | `C59_missing_value_wipes_feature`, `C59_untouched_without_options`, `C59_missing_value_wipes_performance` |
| C60 | PRELIM: Box-Cox sees only positive data | proved | `C60_feature_transform_input`, `C60_performance_transform_input` |
| C61 | PRELIM changes the performance matrix it is given | proved | `C61_input_after_the_run`, `C61_no_zero_no_change`, `C61_running_twice_refuted` |
| C62 | SIFTED: the genetic algorithm is given the error as fitness | proved | `C62_fitness_is_the_largest_error`, `C62_fittest_is_the_worst` |
| C63 | SIFTED: candidates are scored on other features than are returned | proved | `C63_scored_and_returned_features`, `C63_scored_is_returned_refuted` |
| C64 | SIFTED: indices, labels and columns agree | proved | `C64_columns_labels_and_indices_agree`, `C64_which_outcome`, `C64_too_few_features` |
| C65 | SIFTED: the suggested number of clusters can crash the stage | proved | `C65_clustering_needs_the_silhouettes`, `C65_when_the_silhouettes_crash`, `C65_four_features_survive_only_with_best_k` |
| C66 | SIFTED: density selection never survives clustering | proved | `C66_density_with_clustering_always_fails` |
| C67 | SIFTED: correlations use exactly the instances with both values | proved | `C67_single_common_instance_fails`, `C67_correlation_of_common_instances` |
| C68 | Which spellings set an option | proved | `C68_accepted_spellings` |
| C69 | PRELIM receives the loaded options | proved | `C69_prelim_gets_the_loaded_options` |
| C70 | PILOT: one point per instance, one loading per feature, one too few for algorithms | proved | `C70_shape_of_the_result`, `C70_loading_for_every_algorithm_refuted` |
| C71 | PILOT: the analytic solution is optimal for its loadings, not overall | proved | `C71_best_projection_for_its_loadings`, `C71_loadings`, `C71_fails_iff_dependent`, `C71_globally_optimal_refuted` |
| C72 | PILOT: reported r2 and error of the numerical solution | proved | `C72_r2_says_nothing`, `C72_when_r2_is_present`, `C72_missing_performance_hides_the_error` |
| C73 | PILOT: when the numerical solution succeeds | proved | `C73_precalculated_solution_always_fails`, `C73_when_it_succeeds`, `C73_which_error`, `C73_more_restarts_never_worse` |
| C74 | PILOT: the analytic solution is determined up to rotation | proved | `C74_determined_up_to_rotation`, `C74_distances_unchanged` |
| C75 | CLOISTER: the plain boundary encloses every instance | proved | `C75_plain_boundary_encloses_instances`, `C75_correlated_boundary_encloses_instances_refuted` |
| C76 | PYTHIA: the reported mu and sigma are 0 and 1 | proved | `C76_mu_and_sigma_are_0_and_1`, `C76_original_scale_is_reported_refuted` |
| C77 | PYTHIA: cost-sensitive weights | proved | `C77_unit_weights`, `C77_weights_are_deviations`, `C77_constant_performance_fails` |
| C78 | PYTHIA: what the scores measure | proved | `C78_scores_of_the_final_models`, `C78_confusion_matrix_is_cross_validated`, `C78_accuracy_is_cross_validated_refuted` |
| C79 | PYTHIA: the summary's accuracy and precision columns are swapped | proved | `C79_summary_swaps_accuracy_and_precision`, `C79_summary_lists_accuracy_refuted` |
| C80 | PYTHIA: the selector's performance in the summary is off by one | proved | `C80_selector_row_is_off_by_one`, `C80_selector_average_refuted` |
| C81 | PYTHIA overwrites the performance matrix it is given | proved | `C81_performance_is_overwritten` |
| C82 | PYTHIA: when the stage can complete | proved | `C82_needs_two_algorithms`, `C82_when_it_completes` |
| C83 | PYTHIA: hyper-parameters | proved | `C83_given_parameters`, `C83_each_model_has_its_own_training`, `C83_generated_parameters_range`, `C83_generated_parameters_are_log_uniform` |
| C84 | TRACE: clusters are connected components, not DBSCAN clusters | proved | `C84_cluster_size`, `C84_textbook_dbscan_refuted` |
| C85 | TRACE: a footprint needs three different points | proved | `C85_three_points_needed`, `C85_otherwise_a_polygon`, `C85_building_terminates` |
| C86 | TRACE: contradicting best-performance footprints are never reduced | proved | `C86_tightening_gives_no_polygon`, `C86_footprints_are_never_reduced`, `C86_contradiction_raises`, `C86_best_footprints_are_disjoint_refuted` |
| C87 | TRACE: purity of a fitted polygon | proved | `C87_impure_triangles_are_removed`, `C87_purity`, `C87_purity_refuted` |
| C88 | TRACE: instance order is irrelevant | proved | `C88_instance_order_is_irrelevant` |
| C89 | TRACE: when it completes and what it returns | proved | `C89_result`, `C89_when_it_succeeds`, `C89_summary_row`, `C89_all_cores_refuted` |
| C90 | TRACE: instances without a predicted algorithm count for the first | proved | `C90_unselected_instances_go_to_the_first` |
| C91 | TRACE: what a footprint is made of | proved | `C91_union_of_the_clusters`, `C91_fit` |
| C92 | PYTHIA: the numbers of the summary | proved | `C92_algorithm_rows`, `C92_oracle_and_selector_rows`, `C92_selector_precision_and_recall` |
| C93 | save_to_csv: what the files hold | proved | `C93_arrays`, `C93_summaries`, `C93_footprints`, `C93_saving_again`, `C93_footprints_of_equal_names_refuted` |
| C94 | save_to_csv: when it returns and what a failure leaves | proved | `C94_no_directory`, `C94_when_it_returns`, `C94_failure_leaves_a_prefix` |
| C95 | save_to_csv: the points of a footprint | proved | `C95_vertices_of_a_polygon`, `C95_vertices_of_several_polygons`, `C95_points_are_numbered`, `C95_polygon_can_be_recovered_refuted`, `C95_each_vertex_once_refuted` |
| C96 | save_for_web: what the files hold and when it returns | proved | `C96_web_files`, `C96_when_it_returns`, `C96_no_directory` |
| C97 | A built model can be saved only if SIFTED keeps every feature | proved | `C97_saving_needs_all_features`, `C97_saving_for_the_web_needs_all_features`, `C97_selected_features_can_be_saved_refuted` |
| C98 | Stages work on copies of the data | proved | `C98_existing_objects_never_change`, `C98_only_outputs_change`, `C98_through_any_history`, `C98_what_the_stage_sees`, `C98_raw_zeros_become_epsilon`, `C98_pythia_leaves_the_raw_performances` |
| C99 | Portfolio plots name the wrong algorithm or leave one out | proved | `C99_groups`, `C99_best_algorithm_plot`, `C99_predicted_algorithm_plot`, `C99_footprints_of_the_next_algorithm`, `C99_plots_name_the_algorithm_refuted` |
| C100 | Plots do not overwrite each other | proved | `C100_different_files` |
| C101 | Scales of the plots | proved | `C101_features`, `C101_individual_performance`, `C101_individual_scale_is_normalised_refuted`, `C101_global_performance`, `C101_missing_performance`, `C101_global_scale_is_normalised_refuted` |
| C102 | The default pipeline has one schedule | proved | `C102_default_schedule`, `C102_both_orders_occur` |
| C103 | Which selections of the default stages can be used | proved | `C103_which_selections_build`, `C103_order_is_kept`, `C103_model_needs_every_stage` |
| C104 | Where the inputs of the default stages and the attributes of the Model come from | proved | `C104_what_the_caller_gives`, `C104_where_values_come_from` |
| C105 | build() of the default pipeline fails only if a stage fails | proved | `C105_build_returns_or_a_stage_raises` |
| C106 | Additional initial inputs never arrive | proved | `C106_additional_inputs_never_arrive` |
| C107 | A built model can be saved only if PRELIM keeps every instance | proved | `C107_saving_needs_all_instances`, `C107_saving_for_the_web_needs_all_instances`, `C107_labels_of_all_instances`, `C107_selected_instances_can_be_saved_refuted` |
| C108 | What metadata is read from a table | proved | `C108_features_and_algorithms`, `C108_instance_labels`, `C108_sources`, `C108_nothing_else_matters`, `C108_shape_of_the_labels`, `C108_raises_only_for_one_row`, `C108_labels_of_one_instance_refuted`, `C108_labels_are_required_refuted` |
| C109 | Reading an instance space from files | proved | `C109_metadata_file_outcomes`, `C109_from_files`, `C109_from_directory` |
| C110 | PRELIM: the performances handed on | proved | `C110_absolute_performance`, `C110_relative_performance`, `C110_normalised_performance_is_absolute`, `C110_relative_performance_is_normalised_refuted` |
| C111 | PRELIM: normalisation keeps order and can be undone | proved | `C111_features`, `C111_constant_feature`, `C111_performances`, `C111_no_algorithm_dominates` |
| C112 | Every row of the results belongs to one instance of the metadata | proved | `C112_no_infinite_performance`, `C112_rows_and_columns`, `C112_good_in_terms_of_the_metadata`, `C112_data_without_normalisation`, `C112_raw_performances`, `C112_raw_performances_kept_refuted` |
| C113 | The uniformity reported for the retained instances | proved | `C113_value_and_range`, `C113_when_undefined`, `C113_missing_value`, `C113_scale_free`, `C113_after_purifying` |
| C114 | Saving survives being cut off, but not a second model | proved | `C114_saving_again_repairs`, `C114_one_file_is_damaged`, `C114_web`, `C114_directory_shows_the_last_model_refuted` |
| C115 | Boundary and footprints of the whole pipeline come from the metadata's own instances | proved | `C115_instances_lie_within_the_boundary`, `C115_footprints_in_terms_of_the_metadata`, `C115_best_footprint_of_its_algorithm_refuted`, `C115_footprints_from_predictions` |
| C116 | What the plots show | proved | `C116_what_each_plot_shows`, `C116_footprint_with_its_holes_refuted`, `C116_where_instances_appear`, `C116_if_it_returns`, `C116_every_instance_appears_refuted` |
| C117 | Options made in the program and options read from a file agree | proved | `C117_options_in_code_and_in_a_file_agree`, `C117_what_default_accepts`, `C117_default_without_arguments_refuted` |
| C118 | Using an InstanceSpace step by step | proved | `C118_where_the_inputs_come_from`, `C118_single_stages_never_see_the_metadata`, `C118_run_until_arguments_ignored`, `C118_overriding_inputs_refuted` |
| C119 | Which completed runs can be saved, and what the files then show | proved | `C119_csv_files_of_a_built_model`, `C119_result_files_of_a_built_model`, `C119_footprint_table_of_a_built_model`, `C119_web_files_of_a_built_model`, `C119_plots_of_a_built_model`, `C119_every_built_model_can_be_saved_refuted` |
| C120 | Values keep their names through the stages | proved | `C120_prelim_names`, `C120_sifted_names`, `C120_pilot_names`, `C120_cloister_names`, `C120_pythia_names`, `C120_trace_names` |
| C121 | TRACE's clusters depend on position and scale of the instance space in no way, but on its orientation | proved | `C121_radius`, `C121_position_and_scale`, `C121_rows_on_an_upright_line`, `C121_orientation_is_irrelevant_refuted`, `C121_few_points_make_no_footprint` |
| C122 | Loosening an option acts in one direction, with known exceptions | proved | `C122_goodness_threshold`, `C122_beta_threshold`, `C122_min_distance_refuted`, `C122_rho_threshold`, `C122_rho_threshold_refuted`, `C122_correlation_threshold`, `C122_correlation_threshold_refuted`, `C122_purity` |
| C123 | PYTHIA: what the model of an algorithm depends on | proved | `C123_own_labels_only`, `C123_position_is_irrelevant_for_given_parameters`, `C123_adding_an_algorithm`, `C123_order_of_algorithms_is_irrelevant_refuted`, `C123_own_data_only_refuted` |
| C124 | What SIFTED reports beside the selection belongs to the features before the selection | proved | `C124_reported_correlations`, `C124_reported_scores_and_clusters`, `C124_clusters_are_of_more_features_than_returned`, `C124_score_of_the_reported_clusters_refuted` |
| C125 | The order of the instances in the metadata | proved | `C125_preprocessing`, `C125_prelim`, `C125_sifted`, `C125_selection_by_density_refuted` |
| C126 | Saving: the output methods called one after the other | proved | `C126_any_order`, `C126_same_methods_same_files`, `C126_when_none_raises`, `C126_if_one_raises`, `C126_archive`, `C126_no_directory`, `C126_save_to_mat_returns`, `C126_returning_means_saved_refuted` |
| C127 | PRELIM: unit and direction of the performance measure | proved | `C127_unit_of_relative_performance`, `C127_unit_is_irrelevant_refuted`, `C127_unit_of_absolute_performance`, `C127_order_of_absolute_performance`, `C127_order_of_relative_performance_refuted`, `C127_negated_absolute_performance`, `C127_reciprocal_of_relative_performance`, `C127_negated_relative_performance_refuted` |
| C128 | PRELIM treats the algorithms alike whatever order they are listed in | proved | `C128_order_of_algorithms`, `C128_best_algorithm`, `C128_best_algorithm_refuted`, `C128_added_algorithm`, `C128_added_algorithm_and_difficulty_refuted`, `C128_added_algorithm_and_best_refuted` |
| C129 | Purifier: order, zero points and units of the columns | proved | `C129_order_of_columns`, `C129_zero_points`, `C129_unit`, `C129_constant_feature`, `C129_constant_feature_refuted`, `C129_performances_not_compared` |
| C130 | PRELIM: the scale of a feature | proved | `C130_bounding_on_another_scale`, `C130_statistics_on_another_scale`, `C130_bounding_twice`, `C130_two_instances`, `C130_mostly_one_value`, `C130_zero_point`, `C130_zero_point_and_the_fitted_parameters`, `C130_zero_point_of_the_performances`, `C130_unit_refuted` |
| C131 | What CLOISTER's boundaries depend on | proved | `C131_more_instances`, `C131_order_of_instances`, `C131_order_of_features`, `C131_unit`, `C131_zero_point`, `C131_zero_point_and_correlations_refuted` |
| C132 | What the map of the analytic projection depends on | proved | `C132_decomposition_is_irrelevant`, `C132_order_is_irrelevant`, `C132_unit`, `C132_every_instance_twice`, `C132_without_a_gap_refuted`, `C132_unit_of_the_performances_refuted` |
| C133 | What SIFTED's selection depends on | proved | `C133_order_of_algorithms`, `C133_more_algorithms`, `C133_units_and_zero_points`, `C133_direction_of_a_feature_refuted`, `C133_order_of_features_refuted` |
| C134 | PYTHIA: what the selection of algorithms depends on | proved | `C134_order_of_algorithms`, `C134_only_labels_and_predictions`, `C134_ties_refuted`, `C134_nothing_predicted_refuted` |
| C135 | TRACE: what the footprints of an algorithm depend on | proved | `C135_own_instances_only`, `C135_order_of_algorithms`, `C135_measured_best_refuted` |
| C136 | TRACE: moving and stretching the map | proved | `C136_position_of_the_map`, `C136_stretched_polygons` |
| C137 | PREPROCESSING: preparing data that are prepared | proved | `C137_selecting_twice`, `C137_every_instance_has_a_performance`, `C137_every_instance_has_a_feature_refuted`, `C137_removing_twice`, `C137_no_feature_removed`, `C137_set_of_names` |
| C138 | A stage of the user's own beside the default stages | proved | `C138_plugin_is_scheduled`, `C138_results_do_not_change`, `C138_default_schedule`, `C138_same_model`, `C138_reads_final_values`, `C138_when_it_runs`, `C138_reads_final_values_refuted` |
| C139 | PREPROCESSING: which columns of the metadata matter | proved | `C139_order_of_columns`, `C139_columns_not_requested`, `C139_order_of_columns_of_one_name_refuted`, `C139_more_columns`, `C139_more_columns_keep_features_refuted` |
| C140 | CLOISTER: when there is a boundary | proved | `C140_when_there_is_a_boundary`, `C140_both_or_neither`, `C140_flat_correlated_boundary`, `C140_one_feature`, `C140_always_a_boundary_refuted`, `C140_saving_needs_a_boundary` |
| C141 | Files: the tables of PILOT and PYTHIA after a run | proved | `C141_projection_matrix`, `C141_svm_table` |
| C142 | From the metadata file to the files written | proved | `C142_from_files_to_files`, `C142_options_without_effect`, `C142_options_reach_the_stages` |
| C143 | Which options act on which results | proved | `C143_what_the_options_act_on`, `C143_errors`, `C143_beta_threshold`, `C143_number_of_processes`, `C143_idle_options` |

## 4. Findings

Claims of the documentation, or expectations a user would have, that the code violates, each
refuted by a theorem with a witness:

* `C07_readers_after_mutation_refuted`: "Stages that read an argument run after the stage that changes it" – false when the changing stage was not ready.
* `C08_markers_honoured_refuted`: RunBefore/RunAfter do not order stages; they are required as inputs.
* `C11_second_build_same_set_refuted`: Building twice with the same set of annotations can fail the second time: build adds outputs to the caller's set.
* `C17_prerequisites_of_this_run_refuted`: The check of prerequisites uses executions of an earlier run.
* `C19_rollback_refuted`: Outputs of later stages are not discarded when an earlier stage is run again.
* `C25_order_dependence_refuted`: Results can depend on the order inside a group.
* `C26_build_reports_its_run_refuted`: A second build() returns the model of the first.
* `C27_types_respected_refuted`: Values are looked up by name only; the type of the annotation is ignored at run time.
* `C35_duplicate_labels_refuted`: With repeated labels the later column's data are replaced by the first one's.
* `C36_documented_criterion_refuted`: Instances are dropped if features or performances are all missing, not (as documented) both.
* `C37_best_algorithm_refuted`: The reported best algorithm can be wrong if the best value is 0 and others are exactly machine epsilon.
* `C38_best_is_good_refuted_for_zero`: With best performance 0 no algorithm is good, not even the best.
* `C38_relative_test_refuted_for_negative`: With negative best performance all algorithms are good, including missing ones.
* `C41_last_index_ignored_refuted`: Selecting the last instance by its index is ignored; index 0 selects it.
* `C43_documented_rule_refuted`: Selection by correlation compares the wrong feature and ignores negative correlations.
* `C44_quality_of_the_returned_projection_refuted`: The projection is returned in half precision; the reported quality is that of the unrounded one.
* `C46_opposite_extremes_removed_refuted`: If all values of the features are positive, correlations remove no corner.
* `C48_zero_means_none_refuted`: selection0 = 0 means both "none" and the first algorithm.
* `C55_archive_is_left_out_refuted`: An archive given by a path below the directory contains itself.
* `C55_nothing_is_lost_refuted`: Files of equal base names overwrite each other in the archive.
* `C57_never_raises_refuted`: from_json_file raises AttributeError for a section that is not an object.
* `C61_running_twice_refuted`: PRELIM changes the caller's performances, so a second run differs.
* `C63_scored_is_returned_refuted`: SIFTED scores one set of features and returns another when features were preselected.
* `C70_loading_for_every_algorithm_refuted`: PILOT's numerical solution drops the loadings of the first algorithm.
* `C71_globally_optimal_refuted`: The analytic solution does not minimise the reconstruction error.
* `C75_correlated_boundary_encloses_instances_refuted`: Instances can lie outside the correlated boundary.
* `C76_original_scale_is_reported_refuted`: PYTHIA reports mean 0 and deviation 1 instead of those of the original coordinates.
* `C78_accuracy_is_cross_validated_refuted`: Accuracy, precision and recall are those on the training data.
* `C79_summary_lists_accuracy_refuted`: The columns for accuracy and precision are exchanged in PYTHIA's summary.
* `C80_selector_average_refuted`: The selector's average performance is that of other algorithms.
* `C84_textbook_dbscan_refuted`: Clusters are extended through points that are not dense.
* `C86_best_footprints_are_disjoint_refuted`: Best footprints may overlap: contested areas are never removed, or TRACE raises.
* `C87_purity_refuted`: A fitted polygon can have any purity if triangles reach outside the alpha shape.
* `C89_all_cores_refuted`: n_cores = -1 raises.
* `C93_footprints_of_equal_names_refuted`: Footprints of algorithms with equal labels overwrite each other.
* `C95_each_vertex_once_refuted`: In a footprint of several polygons vertices are repeated.
* `C95_polygon_can_be_recovered_refuted`: Holes are not written.
* `C97_selected_features_can_be_saved_refuted`: Saving raises if SIFTED has dropped a feature.
* `C99_plots_name_the_algorithm_refuted`: The portfolio plots name the wrong algorithm (off by one).
* `C101_global_scale_is_normalised_refuted`: Globally normalised performances are not in [0,1].
* `C101_individual_scale_is_normalised_refuted`: Individually normalised performances are not in [0,1].
* `C107_selected_instances_can_be_saved_refuted`: Saving raises if PRELIM has selected instances.
* `C108_labels_are_required_refuted`: A table without labels of the instances is accepted.
* `C108_labels_of_one_instance_refuted`: Reading a table with one row may raise.
* `C110_relative_performance_is_normalised_refuted`: With normalisation the relative performance is discarded.
* `C112_raw_performances_kept_refuted`: With relative performance PRELIM puts machine epsilon for every zero among the raw performances, so the raw performances in the model (and in algorithm_raw.csv) are not those of the metadata.
* `C114_directory_shows_the_last_model_refuted`: Footprint files of a model saved earlier stay in the directory.
* `C115_best_footprint_of_its_algorithm_refuted`: End to end, the best footprint reported for an algorithm is built from the instances for which the algorithm before it is best.
* `C116_every_instance_appears_refuted`: Every plot shows only the square from -5 to 5; instances beyond it appear on none.
* `C116_footprint_with_its_holes_refuted`: Footprints are plotted with their holes filled.
* `C117_default_without_arguments_refuted`: InstanceSpaceOptions.default(), as in the documentation of InstanceSpace, raises TypeError.
* `C118_overriding_inputs_refuted`: InstanceSpace.run_until_stage ignores the overriding inputs it documents.
* `C119_every_built_model_can_be_saved_refuted`: save_to_csv and save_for_web raise for a model whose run selected instances in PRELIM or dropped features in SIFTED.
* `C121_orientation_is_irrelevant_refuted`: TRACE's radius comes from the upright rectangle around the instances: turning the instance space, which changes no distance, can remove a cluster and its footprint.
* `C122_correlation_threshold_refuted`: A lower correlation threshold can give CLOISTER a larger correlated boundary: with too few corners left it returns the plain one.
* `C122_min_distance_refuted`: A larger min_distance can retain more instances: a row that removed others may itself be removed.
* `C122_rho_threshold_refuted`: A lower correlation threshold can leave SIFTED with fewer features, because more than three features start the clustering.
* `C123_order_of_algorithms_is_irrelevant_refuted`: The hyper-parameters to try belong to the position of an algorithm: exchanging two algorithms does not exchange their models.
* `C123_own_data_only_refuted`: With use_weights the performances of every algorithm enter the weights, so the model of one algorithm depends on the others.
* `C124_score_of_the_reported_clusters_refuted`: The score SIFTED reports for the number of clusters asked for is of another clustering than the one it reports and uses.
* `C125_selection_by_density_refuted`: Which instances the density selection keeps depends on their order in the metadata.
* `C126_returning_means_saved_refuted`: save_to_mat returns although its file was not written: what the writer raises is only printed.
* `C127_negated_relative_performance_refuted`: With relative performance, negating the performances and switching between maximising and minimising changes which algorithms are good.
* `C127_order_of_relative_performance_refuted`: With relative performance two algorithms can both be good by their costs and only one by the squares of the costs.
* `C127_unit_is_irrelevant_refuted`: With a performance of 0, which machine epsilon replaces, the number of good algorithms depends on the unit of measure.
* `C128_added_algorithm_and_best_refuted`: With a best relative cost of 0, adding a worse algorithm can change which algorithm is reported as best.
* `C128_added_algorithm_and_difficulty_refuted`: Adding an algorithm that is not better can turn an easy instance into a hard one.
* `C128_best_algorithm_refuted`: With a tie, the algorithm reported as best is the one listed first, so it depends on the order of the algorithms.
* `C129_constant_feature_refuted`: With the types that compare performances, adding a feature that is the same for all instances can change which instances the purifier excludes.
* `C130_unit_refuted`: The normalised values of a feature depend on its unit.
* `C131_zero_point_and_correlations_refuted`: The correlated boundary depends on the zero points of the features: measured from another zero point it encloses an instance it excluded before.
* `C132_unit_of_the_performances_refuted`: Scaling all performances by ten (and no feature) moves two instances nine square units apart onto one point.
* `C132_without_a_gap_refuted`: When the second and third largest eigenvalues are equal, two admissible decompositions give maps with different distances.
* `C133_direction_of_a_feature_refuted`: A feature selected as measured upwards is not selected when measured downwards.
* `C133_order_of_features_refuted`: With features a, b, c, d listed as a, c, b, d, SIFTED selects a and c instead of a and b.
* `C134_nothing_predicted_refuted`: Where nothing is predicted good, selection0 names a or b depending on which is listed first.
* `C134_ties_refuted`: Exchanging two equally precise algorithms changes which one is selected.
* `C135_measured_best_refuted`: With measured performances, exchanging two algorithms turns the empty best footprint of one into a region of four instances.
* `C137_every_instance_has_a_feature_refuted`: Features are removed after the instances, so an instance can be handed on whose only feature value was in a removed feature; preparing the prepared data removes it.
* `C138_reads_final_values_refuted`: A plugin that reads only the labels of the features (or instances) runs beside PRELIM and is given the labels from before SIFTED's selection, not those in the final result.
* `C139_more_columns_keep_features_refuted`: A further feature can bring back an instance that had no feature value, whose gaps then make another feature miss too many values: adding a feature can remove another.
* `C139_order_of_columns_of_one_name_refuted`: Of two features with one name, requested by that name, the data of the one listed first are used twice, so their order matters.
* `C140_always_a_boundary_refuted`: CLOISTER completes without a boundary if there is a single feature, or if the projection moves all varying features along one line; save_to_csv then raises.

## 5. Trusted base

### 5.1 What has to be believed

* Coq's kernel (8.16.1), including its virtual machine (`vm_compute` evaluates some witnesses). No
  kernel check is switched off, no axiom is added, there is no `Admitted`.
* The reading of the Python source recorded in the comments of the `*Model.v` files: each
  definition cites the lines it models and says what it leaves out. The Python was not run.
* The number model of section 2.
* The hypotheses on external libraries stated in the theorems.

### 5.2 Print Assumptions

*Closed under the global context* (422 theorems): every theorem of the table in section 3 that is not listed below.

Axioms of the standard library's real numbers: `ClassicalDedekindReals.sig_not_dec`, `ClassicalDedekindReals.sig_forall_dec`, `FunctionalExtensionality.functional_extensionality_dep` are used by `C32_squares_are_distances`, `C76_mu_and_sigma_are_0_and_1`, `C76_original_scale_is_reported_refuted`, `C113_after_purifying`, `C113_missing_value`, `C113_scale_free`, `C113_value_and_range`, `C113_when_undefined`, `C121_position_and_scale`, `C121_radius`, `C121_rows_on_an_upright_line`.

Axioms of the standard library's real numbers: `ClassicalDedekindReals.sig_not_dec`, `ClassicalDedekindReals.sig_forall_dec`, `FunctionalExtensionality.functional_extensionality_dep`, `Classical_Prop.classic` are used by `C83_generated_parameters_are_log_uniform`, `C83_generated_parameters_range`, `C111_constant_feature`, `C111_features`, `C111_no_algorithm_dominates`, `C111_performances`, `C121_orientation_is_irrelevant_refuted`, `C130_unit_refuted`, `C130_zero_point_and_the_fitted_parameters`, `C130_zero_point_of_the_performances`.

### 5.3 What is simplified

* Floating point: no rounding, overflow or signed zero. NaN and infinities are modelled where the code tests for them.
* Time, memory, threads: the executor of TRACE is modelled by the order in which futures complete (any order); PYTHIA's and SIFTED's
  `n_jobs` do not influence results.
* Printing and logging are not modelled. Warnings are not modelled.
* Random numbers are arguments (a list or a function), so theorems hold for every outcome.
* External libraries (numpy's and scipy's distributions, scikit-learn, pygad, shapely, alphashape, Qhull, matplotlib, pandas' reader) are
  oracles. Only numpy's and pandas' simple operations (indexing, masks, reductions, sorting) are modelled by their definitions.
* Array shapes are those the callers establish; where a shape mismatch makes numpy raise and a property speaks about it, it is modelled.

### 5.4 Coverage of the code

Functions and methods of `/repo/instancespace`, with the files whose definitions cite lines of them.

| function | lines | modelled in |
|---|---|---|
| `_serialisers.py` `save_instance_space_to_csv` | 29–199 | CrashModel.v, OutputsModel.v, SerialModel.v |
| `_serialisers.py` `save_instance_space_for_web` | 202–263 | CrashModel.v, OutputsModel.v, SerialModel.v |
| `_serialisers.py` `save_instance_space_graphs` | 266–394 | DrawModel.v, OutputsModel.v, SerialModel.v |
| `_serialisers.py` `_write_array_to_csv` | 397–406 | SerialModel.v |
| `_serialisers.py` `_write_cell_to_csv` | 409–418 | not modelled: never called |
| `_serialisers.py` `_make_bind_labels` | 421–424 | SerialModel.v |
| `_serialisers.py` `_colour_scale` | 427–435 | SerialModel.v |
| `_serialisers.py` `_colour_scale_g` | 438–446 | SerialModel.v |
| `_serialisers.py` `_draw_sources` | 449–483 | DrawModel.v |
| `_serialisers.py` `_draw_scatter` | 486–519 | DrawModel.v |
| `_serialisers.py` `_draw_portfolio_selections` | 522–570 | DrawModel.v, SerialModel.v |
| `_serialisers.py` `_draw_portfolio_footprint` | 573–622 | DrawModel.v, SerialModel.v |
| `_serialisers.py` `_draw_good_bad_footprint` | 625–659 | DrawModel.v |
| `_serialisers.py` `_draw_footprint` | 662–677 | DrawModel.v |
| `_serialisers.py` `_draw_binary_performance` | 680–718 | DrawModel.v |
| `_serialisers.py` `save_instance_space_output_mat` | 721–733 | OutputsModel.v |
| `data/metadata.py` `Metadata.from_data_frame` | 30–71 | MetaModel.v |
| `data/metadata.py` `Metadata.to_file` | 73–80 | not modelled: raises NotImplementedError |
| `data/metadata.py` `from_csv_file` | 83–119 | MetaModel.v |
| `data/model.py` `Data.from_stage_runner_output` | 40–71 | DefaultModel.v, HandOnModel.v, RunnerModel.v, SavedModel.v |
| `data/model.py` `PrelimOut.from_stage_runner_output` | 130–159 | DefaultModel.v, OutputsModel.v, SerialModel.v |
| `data/model.py` `SiftedOut.from_stage_runner_output` | 176–199 | DefaultModel.v, SavedModel.v |
| `data/model.py` `PilotOut.from_stage_runner_output` | 221–249 | DefaultModel.v, SavedModel.v |
| `data/model.py` `CloisterOut.__iter__` | 259–261 | not modelled: never called |
| `data/model.py` `CloisterOut.from_stage_runner_output` | 266–285 | DefaultModel.v, SavedModel.v |
| `data/model.py` `PythiaOut.from_stage_runner_output` | 313–347 | DefaultModel.v |
| `data/model.py` `Footprint.from_polygon` | 378–425 | TraceModel.v |
| `data/model.py` `TraceOut.from_stage_runner_output` | 441–463 | DefaultModel.v, SavedModel.v |
| `data/model.py` `FeatSel.from_stage_runner_output` | 475–493 | DefaultModel.v, SavedModel.v |
| `data/options.py` `ParallelOptions.default` | 85–93 | OptionsModel.v |
| `data/options.py` `PerformanceOptions.default` | 106–118 | OptionsModel.v |
| `data/options.py` `AutoOptions.default` | 128–134 | OptionsModel.v |
| `data/options.py` `BoundOptions.default` | 144–150 | OptionsModel.v |
| `data/options.py` `NormOptions.default` | 160–166 | OptionsModel.v |
| `data/options.py` `SelvarsOptions.default` | 184–206 | OptionsModel.v |
| `data/options.py` `SiftedOptions.default` | 232–270 | OptionsModel.v |
| `data/options.py` `PilotOptions.default` | 283–290 | OptionsModel.v, PilotModel.v |
| `data/options.py` `CloisterOptions.default` | 301–309 | OptionsModel.v, PilotModel.v |
| `data/options.py` `PythiaOptions.default` | 323–336 | OptionsModel.v |
| `data/options.py` `TraceOptions.default` | 347–355 | OptionsModel.v |
| `data/options.py` `OutputOptions.default` | 367–377 | OptionsModel.v |
| `data/options.py` `InstanceSpaceOptions.from_dict` | 398–524 | OptionsModel.v |
| `data/options.py` `InstanceSpaceOptions.to_file` | 526–534 | not modelled: raises NotImplementedError |
| `data/options.py` `InstanceSpaceOptions.default` | 537–565 | OptionsModel.v |
| `data/options.py` `InstanceSpaceOptions._validate_fields` | 584–643 | OptionsModel.v |
| `data/options.py` `InstanceSpaceOptions._load_dataclass` | 646–714 | OptionsModel.v |
| `data/options.py` `PrelimOptions.from_options` | 732–741 | FilesModel.v, OptionsModel.v |
| `data/options.py` `from_json_file` | 744–785 | OptionsModel.v |
| `instance_space.py` `_InstanceSpaceInputs.from_metadata_and_options` | 76–101 | DefaultModel.v, FilesModel.v, RunnerModel.v |
| `instance_space.py` `InstanceSpace.__init__` | 134–185 | DefaultModel.v, RunnerModel.v |
| `instance_space.py` `InstanceSpace.metadata` | 188–190 | not modelled: returns a field |
| `instance_space.py` `InstanceSpace.options` | 193–195 | not modelled: returns a field |
| `instance_space.py` `InstanceSpace.model` | 198–219 | RunnerModel.v |
| `instance_space.py` `InstanceSpace.build` | 221–240 | EndModel.v, FilesModel.v, RunnerModel.v, WholeModel.v |
| `instance_space.py` `InstanceSpace.run_iter` | 242–257 | RunnerModel.v |
| `instance_space.py` `InstanceSpace.run_stage` | 259–283 | RunnerModel.v |
| `instance_space.py` `InstanceSpace.run_until_stage` | 285–311 | RunnerModel.v |
| `instance_space.py` `instance_space_from_files` | 314–358 | FilesModel.v, MetaModel.v |
| `instance_space.py` `instance_space_from_directory` | 361–380 | MetaModel.v |
| `model.py` `Model.from_stage_runner_output` | 48–78 | DefaultModel.v, HandOnModel.v, RunnerModel.v, SavedModel.v |
| `model.py` `Model.save_to_csv` | 80–98 | OutputsModel.v |
| `model.py` `Model.save_for_web` | 100–114 | OutputsModel.v |
| `model.py` `Model.save_graphs` | 116–133 | DefaultModel.v, OutputsModel.v |
| `model.py` `Model.save_to_mat` | 135–148 | DefaultModel.v, OutputsModel.v |
| `model.py` `Model.save_zip` | 150–171 | DefaultModel.v, SerialModel.v |
| `stage_builder.py` `StageBuilder.__init__` | 74–81 | BuilderModel.v |
| `stage_builder.py` `StageBuilder.add_stage` | 83–122 | BuilderModel.v |
| `stage_builder.py` `StageBuilder.build` | 124–151 | BuilderModel.v |
| `stage_builder.py` `StageBuilder._resolve_stages` | 153–259 | BuilderModel.v |
| `stage_builder.py` `StageBuilder._strip_run_restriction_arguments` | 262–273 | BuilderModel.v |
| `stage_builder.py` `StageBuilder._get_mutating_stages` | 275–288 | BuilderModel.v |
| `stage_builder.py` `StageBuilder._get_ordering_restrictions` | 290–312 | BuilderModel.v |
| `stage_builder.py` `StageBuilder._get_restrictions_for_stage` | 315–328 | BuilderModel.v |
| `stage_builder.py` `StageBuilder._stage_resolves` | 330–348 | BuilderModel.v |
| `stage_builder.py` `StageBuilder._mutating_stages_check` | 350–394 | BuilderModel.v |
| `stage_builder.py` `StageBuilder._named_tuple_to_stage_arguments` | 397–405 | BuilderModel.v |
| `stage_builder.py` `_format_stage_arguments` | 408–414 | not modelled: text of an error message |
| `stage_runner.py` `StageRunner._debug_print` | 52–55 | not modelled: printing |
| `stage_runner.py` `StageRunner.__init__` | 57–88 | BuilderModel.v, RunnerModel.v |
| `stage_runner.py` `StageRunner.run_iter` | 90–108 | RunnerModel.v |
| `stage_runner.py` `StageRunner.run_stage` | 110–168 | EndModel.v, ObjectModel.v, RunnerModel.v |
| `stage_runner.py` `StageRunner.run_many_stages_parallel` | 170–188 | ObjectModel.v – not modelled: raises NotImplementedError (0 % of its lines) |
| `stage_runner.py` `StageRunner.run_all` | 190–207 | RunnerModel.v |
| `stage_runner.py` `StageRunner.run_until_stage` | 209–231 | RunnerModel.v |
| `stage_runner.py` `StageRunner._check_stage_order_is_runnable` | 236–254 | BuilderModel.v |
| `stage_runner.py` `StageRunner._rollback_to_schedule_index` | 256–267 | RunnerModel.v |
| `stage_runner.py` `StageRunner._progress_schedule` | 269–284 | RunnerModel.v |
| `stages/cloister.py` `CloisterStage._inputs` | 135–136 | DefaultModel.v |
| `stages/cloister.py` `CloisterStage._outputs` | 139–140 | DefaultModel.v |
| `stages/cloister.py` `CloisterStage._run` | 143–158 | WiringModel.v |
| `stages/cloister.py` `CloisterStage.cloister` | 161–199 | CloisterModel.v, WiringModel.v |
| `stages/cloister.py` `CloisterStage._compute_correlation` | 202–241 | CloisterModel.v, FilesModel.v |
| `stages/cloister.py` `CloisterStage._decimal_to_binary_matrix` | 244–262 | CloisterModel.v |
| `stages/cloister.py` `CloisterStage._compute_convex_hull` | 265–286 | CloisterModel.v, SerialModel.v |
| `stages/cloister.py` `CloisterStage._generate_boundaries` | 289–348 | CloisterModel.v, FilesModel.v |
| `stages/pilot.py` `PilotStage.__init__` | 91–114 | not modelled itself: a wrapper of a modelled function or the declaration of a modelled signature |
| `stages/pilot.py` `PilotStage._inputs` | 117–118 | DefaultModel.v |
| `stages/pilot.py` `PilotStage._outputs` | 121–122 | DefaultModel.v |
| `stages/pilot.py` `PilotStage._run` | 125–164 | WiringModel.v |
| `stages/pilot.py` `PilotStage._pilot_print` | 167–172 | WiringModel.v – not modelled: printing |
| `stages/pilot.py` `PilotStage.pilot` | 175–330 | FilesModel.v, PilotModel.v, PilotMxModel.v, SavedModel.v, WiringModel.v |
| `stages/pilot.py` `PilotStage.analytic_solve` | 333–431 | PilotMxModel.v |
| `stages/pilot.py` `PilotStage.numerical_solve` | 434–527 | FilesModel.v, PilotModel.v |
| `stages/pilot.py` `PilotStage.error_function` | 530–565 | PilotModel.v |
| `stages/prelim.py` `PrelimStage.__init__` | 184–203 | WiringModel.v |
| `stages/prelim.py` `PrelimStage._inputs` | 206–207 | DefaultModel.v |
| `stages/prelim.py` `PrelimStage._outputs` | 210–211 | DefaultModel.v |
| `stages/prelim.py` `PrelimStage._run` | 216–314 | EndModel.v, HandOnModel.v, WiringModel.v |
| `stages/prelim.py` `PrelimStage.prelim` | 318–377 | FilesModel.v, WiringModel.v – not modelled itself: a wrapper of a modelled function or the declaration of a modelled signature |
| `stages/prelim.py` `PrelimStage._select_best_algorithms` | 379–434 | FilesModel.v, PrelimModel.v |
| `stages/prelim.py` `PrelimStage._bound` | 436–468 | PrelimModel.v |
| `stages/prelim.py` `PrelimStage._normalise` | 470–581 | FilesModel.v, PrelimModel.v, PrelimZModel.v |
| `stages/prelim.py` `PrelimStage._prelim` | 584–734 | EndModel.v, FilesModel.v, PrelimModel.v, WiringModel.v |
| `stages/prelim.py` `PrelimStage._filter` | 736–876 | FilesModel.v, PrelimModel.v, WiringModel.v |
| `stages/preprocessing.py` `PreprocessingStage.__init__` | 111–128 | not modelled itself: a wrapper of a modelled function or the declaration of a modelled signature |
| `stages/preprocessing.py` `PreprocessingStage._inputs` | 131–132 | DefaultModel.v |
| `stages/preprocessing.py` `PreprocessingStage._outputs` | 135–136 | DefaultModel.v |
| `stages/preprocessing.py` `PreprocessingStage._run` | 139–188 | EndModel.v, PreprocModel.v |
| `stages/preprocessing.py` `PreprocessingStage.select_features_and_algorithms` | 191–276 | FilesModel.v, PreprocModel.v |
| `stages/preprocessing.py` `PreprocessingStage.remove_instances_with_many_missing_values` | 279–365 | PreprocModel.v |
| `stages/pythia.py` `PythiaStage.__init__` | 233–261 | not modelled itself: a wrapper of a modelled function or the declaration of a modelled signature |
| `stages/pythia.py` `PythiaStage._inputs` | 264–265 | DefaultModel.v |
| `stages/pythia.py` `PythiaStage._outputs` | 268–269 | DefaultModel.v |
| `stages/pythia.py` `PythiaStage._run` | 272–281 | WiringModel.v |
| `stages/pythia.py` `PythiaStage.pythia` | 284–511 | FilesModel.v, PythiaModel.v, WiringModel.v |
| `stages/pythia.py` `PythiaStage._fitmatsvm` | 514–604 | FilesModel.v, PythiaModel.v |
| `stages/pythia.py` `PythiaStage._display_overall_perf` | 607–631 | not modelled: printing |
| `stages/pythia.py` `PythiaStage._compute_znorm` | 634–652 | PythiaZModel.v |
| `stages/pythia.py` `PythiaStage._check_precalcparams` | 655–683 | PythiaModel.v |
| `stages/pythia.py` `PythiaStage._determine_selections` | 686–728 | PythiaModel.v, WiringModel.v |
| `stages/pythia.py` `PythiaStage._generate_params` | 731–753 | PythiaZModel.v |
| `stages/pythia.py` `PythiaStage._generate_summary` | 756–884 | PythiaModel.v, SavedModel.v, WiringModel.v |
| `stages/sifted.py` `NotEnoughFeatureError.__init__` | 69–77 | not modelled: text of an error message |
| `stages/sifted.py` `SiftedStage.__init__` | 286–345 | WiringModel.v |
| `stages/sifted.py` `SiftedStage._inputs` | 348–349 | DefaultModel.v, FilesModel.v |
| `stages/sifted.py` `SiftedStage._outputs` | 352–353 | DefaultModel.v, FilesModel.v |
| `stages/sifted.py` `SiftedStage._run` | 356–386 | FilesModel.v, WiringModel.v |
| `stages/sifted.py` `SiftedStage.sift` | 388–394 | WiringModel.v – not modelled itself: a wrapper of a modelled function or the declaration of a modelled signature |
| `stages/sifted.py` `SiftedStage.sifted` | 397–485 | FilesModel.v, WiringModel.v – not modelled itself: a wrapper of a modelled function or the declaration of a modelled signature |
| `stages/sifted.py` `SiftedStage._sifted` | 487–711 | FilesModel.v, HandOnModel.v, SiftedModel.v, SiftedOutModel.v, WiringModel.v |
| `stages/sifted.py` `SiftedStage.select_features_by_performance` | 713–766 | FilesModel.v, SiftedModel.v |
| `stages/sifted.py` `SiftedStage.select_features_by_clustering` | 768–803 | FilesModel.v, SiftedModel.v, SiftedOutModel.v |
| `stages/sifted.py` `SiftedStage.cost_fcn` | 806–857 | SiftedModel.v |
| `stages/sifted.py` `SiftedStage._find_best_combination` | 859–950 | SiftedModel.v, SiftedOutModel.v |
| `stages/sifted.py` `SiftedStage.evaluate_cluster` | 952–1011 | SiftedModel.v, SiftedOutModel.v |
| `stages/sifted.py` `SiftedStage._compute_correlation` | 1013–1058 | SiftedModel.v |
| `stages/stage.py` `Stage._inputs` | 17–19 | not modelled itself: a wrapper of a modelled function or the declaration of a modelled signature |
| `stages/stage.py` `Stage._outputs` | 23–25 | not modelled itself: a wrapper of a modelled function or the declaration of a modelled signature |
| `stages/stage.py` `Stage._run` | 29–31 | not modelled itself: a wrapper of a modelled function or the declaration of a modelled signature |
| `stages/trace.py` `TraceStage.__init__` | 203–239 | WiringModel.v |
| `stages/trace.py` `TraceStage._inputs` | 242–253 | DefaultModel.v |
| `stages/trace.py` `TraceStage._outputs` | 256–267 | DefaultModel.v |
| `stages/trace.py` `TraceStage._run` | 270–310 | FilesModel.v, TraceModel.v, WiringModel.v |
| `stages/trace.py` `TraceStage.trace` | 313–350 | WiringModel.v – not modelled itself: a wrapper of a modelled function or the declaration of a modelled signature |
| `stages/trace.py` `TraceStage._trace` | 352–518 | SavedModel.v, TraceModel.v, WiringModel.v |
| `stages/trace.py` `TraceStage.build` | 520–562 | TraceModel.v |
| `stages/trace.py` `TraceStage.contra` | 564–655 | TraceModel.v |
| `stages/trace.py` `TraceStage.tight` | 657–705 | TraceModel.v |
| `stages/trace.py` `TraceStage.fit_poly` | 707–754 | FilesModel.v, TraceModel.v |
| `stages/trace.py` `TraceStage.summary` | 757–797 | TraceModel.v |
| `stages/trace.py` `TraceStage.throw` | 800–810 | TraceModel.v – not modelled: printing |
| `stages/trace.py` `TraceStage.run_dbscan` | 813–834 | RadiusModel.v, TraceModel.v |
| `stages/trace.py` `TraceStage.epsilon` | 837–857 | RadiusModel.v, TraceModel.v |
| `stages/trace.py` `TraceStage.dist` | 860–884 | RadiusModel.v, TraceModel.v |
| `stages/trace.py` `TraceStage.dbscan` | 887–952 | RadiusModel.v, TraceModel.v |
| `stages/trace.py` `TraceStage.process_algorithm` | 954–984 | TraceModel.v |
| `stages/trace.py` `TraceStage.compute_algorithm_qualities` | 986–1020 | FilesModel.v, TraceModel.v |
| `utils/filter.py` `filter_instance` | 30–96 | FilterModel.v |
| `utils/filter.py` `compute_uniformity` | 99–119 | FilterModel.v, UniModel.v |
| `utils/filter.py` `do_filter` | 122–157 | UniModel.v |


