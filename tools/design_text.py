HEAD = r"""# Formal model of pyInstanceSpace in Rocq/Coq 8.16

Source: `/repo` (read as text only; never executed). Properties: `properties.jsonl`.
Development: `rocq/theories`, logical name `Verif`. The tables of this file are written by
`tools/design.py` from the development.

## 1. Layout

For each part `X` of the program there are up to four files:

* `XModel.v`  – executable Gallina definitions, one per Python function, each with a
  comment citing file and lines and every simplification. No proofs.
* `XSpec.v`   – small, independent vocabulary for the English property (no use of the
  model's helper functions).
* `XProofs.v` – lemmas.
* `XProps.v`  – the property theorems, an `Example` next to each that meets its
  hypotheses, and `Print Assumptions`.

Exceptions are values (`res E A = Ok a | Err e`); a method that mutates its object returns
`(new state, res)`. External libraries (SVM, KMeans, BFGS, Qhull, shapely, random numbers,
file systems) are function arguments, universally quantified in the theorems; where a
theorem needs something of a library it is a hypothesis of the theorem, in plain words
beside it. Loops are structural recursion or fuel; running out of fuel is a separate value
that a theorem excludes.

Where the documentation of the code claims something the code does not do, the property
states what the code does, the positive part is proved, and the claim is refuted by a
theorem with suffix `_refuted` that gives a witness (section 4).

`seeded/LOG.jsonl` records edits of the model (as a realistic bug would change the
program) and the theorems that stop proving; `tools/mutate.py` makes them in a scratch copy.

## 2. Number model

`float64` data is modelled by exact rationals (`Q`), where needed extended by NaN
(`num = option Q`) and infinities (`Ext.v`). Rounding is not modelled. Distances are
compared through their squares. Where roots, logarithms or powers matter (z-scores, Box-Cox,
grids of hyper-parameters) Coq's reals are used. PILOT's analytic solution is over an
arbitrary real field (mathcomp). TRACE's cluster distances use integer coordinates.
"""

REFUTED = {
"C126_returning_means_saved": "save_to_mat returns although its file was not written: what the writer raises is only printed.",
"C127_unit_is_irrelevant": "With a performance of 0, which machine epsilon replaces, the number of good algorithms depends on the unit of measure.",
"C127_negated_relative_performance": "With relative performance, negating the performances and switching between maximising and minimising changes which algorithms are good.",
"C128_best_algorithm": "With a tie, the algorithm reported as best is the one listed first, so it depends on the order of the algorithms.",
"C128_added_algorithm_and_difficulty": "Adding an algorithm that is not better can turn an easy instance into a hard one.",
"C128_added_algorithm_and_best": "With a best relative cost of 0, adding a worse algorithm can change which algorithm is reported as best.",
"C129_constant_feature": "With the types that compare performances, adding a feature that is the same for all instances can change which instances the purifier excludes.",
"C130_unit": "The normalised values of a feature depend on its unit.",
"C131_zero_point_and_correlations": "The correlated boundary depends on the zero points of the features: measured from another zero point it encloses an instance it excluded before.",
"C132_without_a_gap": "When the second and third largest eigenvalues are equal, two admissible decompositions give maps with different distances.",
"C132_unit_of_the_performances": "Scaling all performances by ten (and no feature) moves two instances nine square units apart onto one point.",
"C133_direction_of_a_feature": "A feature selected as measured upwards is not selected when measured downwards.",
"C133_order_of_features": "With features a, b, c, d listed as a, c, b, d, SIFTED selects a and c instead of a and b.",
"C134_ties": "Exchanging two equally precise algorithms changes which one is selected.",
"C134_nothing_predicted": "Where nothing is predicted good, selection0 names a or b depending on which is listed first.",
"C135_measured_best": "With measured performances, exchanging two algorithms turns the empty best footprint of one into a region of four instances.",
"C137_every_instance_has_a_feature": "Features are removed after the instances, so an instance can be handed on whose only feature value was in a removed feature; preparing the prepared data removes it.",
"C138_reads_final_values": "A plugin that reads only the labels of the features (or instances) runs beside PRELIM and is given the labels from before SIFTED's selection, not those in the final result.",
"C139_order_of_columns_of_one_name": "Of two features with one name, requested by that name, the data of the one listed first are used twice, so their order matters.",
"C139_more_columns_keep_features": "A further feature can bring back an instance that had no feature value, whose gaps then make another feature miss too many values: adding a feature can remove another.",
"C127_order_of_relative_performance": "With relative performance two algorithms can both be good by their costs and only one by the squares of the costs.",
"C140_always_a_boundary": "CLOISTER completes without a boundary if there is a single feature, or if the projection moves all varying features along one line; save_to_csv then raises.",
"C112_raw_performances_kept": "With relative performance PRELIM puts machine epsilon for every zero among the raw performances, so the raw performances in the model (and in algorithm_raw.csv) are not those of the metadata.",
"C125_selection_by_density": "Which instances the density selection keeps depends on their order in the metadata.",
"C124_score_of_the_reported_clusters": "The score SIFTED reports for the number of clusters asked for is of another clustering than the one it reports and uses.",
"C123_order_of_algorithms_is_irrelevant": "The hyper-parameters to try belong to the position of an algorithm: exchanging two algorithms does not exchange their models.",
"C123_own_data_only": "With use_weights the performances of every algorithm enter the weights, so the model of one algorithm depends on the others.",
"C122_min_distance": "A larger min_distance can retain more instances: a row that removed others may itself be removed.",
"C122_rho_threshold": "A lower correlation threshold can leave SIFTED with fewer features, because more than three features start the clustering.",
"C122_correlation_threshold": "A lower correlation threshold can give CLOISTER a larger correlated boundary: with too few corners left it returns the plain one.",
"C121_orientation_is_irrelevant": "TRACE's radius comes from the upright rectangle around the instances: turning the instance space, which changes no distance, can remove a cluster and its footprint.",
"C117_default_without_arguments": "InstanceSpaceOptions.default(), as in the documentation of InstanceSpace, raises TypeError.",
"C119_every_built_model_can_be_saved": "save_to_csv and save_for_web raise for a model whose run selected instances in PRELIM or dropped features in SIFTED.",
"C118_overriding_inputs": "InstanceSpace.run_until_stage ignores the overriding inputs it documents.",
"C116_footprint_with_its_holes": "Footprints are plotted with their holes filled.",
"C116_every_instance_appears": "Every plot shows only the square from -5 to 5; instances beyond it appear on none.",
"C115_best_footprint_of_its_algorithm": "End to end, the best footprint reported for an algorithm is built from the instances for which the algorithm before it is best.",
"C07_readers_after_mutation": "\"Stages that read an argument run after the stage that changes it\" – false when the changing stage was not ready.",
"C08_markers_honoured": "RunBefore/RunAfter do not order stages; they are required as inputs.",
"C11_second_build_same_set": "Building twice with the same set of annotations can fail the second time: build adds outputs to the caller's set.",
"C17_prerequisites_of_this_run": "The check of prerequisites uses executions of an earlier run.",
"C19_rollback": "Outputs of later stages are not discarded when an earlier stage is run again.",
"C25_order_dependence": "Results can depend on the order inside a group.",
"C26_build_reports_its_run": "A second build() returns the model of the first.",
"C27_types_respected": "Values are looked up by name only; the type of the annotation is ignored at run time.",
"C35_duplicate_labels": "With repeated labels the later column's data are replaced by the first one's.",
"C36_documented_criterion": "Instances are dropped if features or performances are all missing, not (as documented) both.",
"C37_best_algorithm": "The reported best algorithm can be wrong if the best value is 0 and others are exactly machine epsilon.",
"C38_best_is_good_refuted_for_zero": "With best performance 0 no algorithm is good, not even the best.",
"C38_relative_test_refuted_for_negative": "With negative best performance all algorithms are good, including missing ones.",
"C41_last_index_ignored": "Selecting the last instance by its index is ignored; index 0 selects it.",
"C43_documented_rule": "Selection by correlation compares the wrong feature and ignores negative correlations.",
"C44_quality_of_the_returned_projection": "The projection is returned in half precision; the reported quality is that of the unrounded one.",
"C46_opposite_extremes_removed": "If all values of the features are positive, correlations remove no corner.",
"C48_zero_means_none": "selection0 = 0 means both \"none\" and the first algorithm.",
"C55_archive_is_left_out": "An archive given by a path below the directory contains itself.",
"C55_nothing_is_lost": "Files of equal base names overwrite each other in the archive.",
"C57_never_raises": "from_json_file raises AttributeError for a section that is not an object.",
"C61_running_twice": "PRELIM changes the caller's performances, so a second run differs.",
"C63_scored_is_returned": "SIFTED scores one set of features and returns another when features were preselected.",
"C70_loading_for_every_algorithm": "PILOT's numerical solution drops the loadings of the first algorithm.",
"C71_globally_optimal": "The analytic solution does not minimise the reconstruction error.",
"C75_correlated_boundary_encloses_instances": "Instances can lie outside the correlated boundary.",
"C76_original_scale_is_reported": "PYTHIA reports mean 0 and deviation 1 instead of those of the original coordinates.",
"C78_accuracy_is_cross_validated": "Accuracy, precision and recall are those on the training data.",
"C79_summary_lists_accuracy": "The columns for accuracy and precision are exchanged in PYTHIA's summary.",
"C80_selector_average": "The selector's average performance is that of other algorithms.",
"C84_textbook_dbscan": "Clusters are extended through points that are not dense.",
"C86_best_footprints_are_disjoint": "Best footprints may overlap: contested areas are never removed, or TRACE raises.",
"C87_purity": "A fitted polygon can have any purity if triangles reach outside the alpha shape.",
"C89_all_cores": "n_cores = -1 raises.",
"C93_footprints_of_equal_names": "Footprints of algorithms with equal labels overwrite each other.",
"C95_each_vertex_once": "In a footprint of several polygons vertices are repeated.",
"C95_polygon_can_be_recovered": "Holes are not written.",
"C97_selected_features_can_be_saved": "Saving raises if SIFTED has dropped a feature.",
"C99_plots_name_the_algorithm": "The portfolio plots name the wrong algorithm (off by one).",
"C101_global_scale_is_normalised": "Globally normalised performances are not in [0,1].",
"C101_individual_scale_is_normalised": "Individually normalised performances are not in [0,1].",
"C107_selected_instances_can_be_saved": "Saving raises if PRELIM has selected instances.",
"C108_labels_are_required": "A table without labels of the instances is accepted.",
"C108_labels_of_one_instance": "Reading a table with one row may raise.",
"C114_directory_shows_the_last_model": "Footprint files of a model saved earlier stay in the directory.",
"C110_relative_performance_is_normalised": "With normalisation the relative performance is discarded.",
}
_ref = {t[:-8]: t for t in where if t.endswith("_refuted")}
_ref.update({t: t for t in where if "_refuted_for_" in t})
assert set(_ref) == set(REFUTED), (set(_ref) ^ set(REFUTED))
FINDINGS = "## 4. Findings\n\nClaims of the documentation, or expectations a user would have, that the code violates, each\nrefuted by a theorem with a witness:\n\n" + \
  "\n".join(f"* `{_ref[k]}`: {v}" for k, v in sorted(REFUTED.items(), key=lambda kv: (int(re.match(r'C(\d+)', kv[0]).group(1)), kv[0]))) + "\n"

TRUST = r"""## 5. Trusted base

### 5.1 What has to be believed

* Coq's kernel (8.16.1), including its virtual machine (`vm_compute` evaluates some witnesses). No
  kernel check is switched off, no axiom is added, there is no `Admitted`.
* The reading of the Python source recorded in the comments of the `*Model.v` files: each
  definition cites the lines it models and says what it leaves out. The Python was not run.
* The number model of section 2.
* The hypotheses on external libraries stated in the theorems.
"""
NUMBERS = r"""### 5.3 What is simplified

* Floating point: no rounding, overflow or signed zero. NaN and infinities are modelled where the code tests for them.
* Time, memory, threads: the executor of TRACE is modelled by the order in which futures complete (any order); PYTHIA's and SIFTED's
  `n_jobs` do not influence results.
* Printing and logging are not modelled. Warnings are not modelled.
* Random numbers are arguments (a list or a function), so theorems hold for every outcome.
* External libraries (numpy's and scipy's distributions, scikit-learn, pygad, shapely, alphashape, Qhull, matplotlib, pandas' reader) are
  oracles. Only numpy's and pandas' simple operations (indexing, masks, reductions, sorting) are modelled by their definitions.
* Array shapes are those the callers establish; where a shape mismatch makes numpy raise and a property speaks about it, it is modelled.
"""
_W = "not modelled itself: a wrapper of a modelled function or the declaration of a modelled signature"
NOTES = {
"_write_cell_to_csv": "not modelled: never called",

"to_file": "not modelled: raises NotImplementedError",
"__iter__": "not modelled: never called",
"metadata": "not modelled: returns a field", "options": "not modelled: returns a field",
"_format_stage_arguments": "not modelled: text of an error message",
"_debug_print": "not modelled: printing", "_pilot_print": "not modelled: printing", "_display_overall_perf": "not modelled: printing",
"run_many_stages_parallel": "not modelled: raises NotImplementedError",
"stages/sifted.py:NotEnoughFeatureError.__init__": "not modelled: text of an error message",
"throw": "not modelled: printing",
"stages/prelim.py:PrelimStage.prelim": _W, "stages/sifted.py:SiftedStage.sifted": _W, "stages/sifted.py:SiftedStage.sift": _W, "stages/trace.py:TraceStage.trace": _W,
"_run": None, "__init__": None, "_inputs": None, "_outputs": None,
}
TAIL = ""
