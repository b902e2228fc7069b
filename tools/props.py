"""Source of properties.jsonl. Run: python3 tools/props.py (from /verif)."""
import json
P = []
def p(title, statement, quantifier, why, anchors):
    P.append(dict(id="C%02d" % (len(P) + 1), title=title, statement=statement,
                  quantifier=quantifier, why_tests_cant=why, anchors=anchors))

SB = "instancespace/stage_builder.py"
SR = "instancespace/stage_runner.py"
IS = "instancespace/instance_space.py"
OP = "instancespace/data/options.py"
FI = "instancespace/utils/filter.py"
PP = "instancespace/stages/preprocessing.py"
PR = "instancespace/stages/prelim.py"
SI = "instancespace/stages/sifted.py"
PI = "instancespace/stages/pilot.py"
CL = "instancespace/stages/cloister.py"
PY = "instancespace/stages/pythia.py"
TR = "instancespace/stages/trace.py"
MO = "instancespace/data/model.py"
ME = "instancespace/data/metadata.py"
SE = "instancespace/_serialisers.py"
MD = "instancespace/model.py"

# ---------------- builder
p("A built schedule contains every added stage exactly once",
  "Whenever StageBuilder.build succeeds, the schedule of the returned runner is a list of non-empty groups in which every stage that was added occurs exactly once and nothing else occurs.",
  "all finite sets of stages with arbitrary input/output annotations, all initial inputs, all set iteration orders",
  "the space of dependency graphs and hash orders is infinite; a test fixes one graph and sees one hash order",
  [SB+":StageBuilder.build", SB+":StageBuilder._resolve_stages"])
p("A built schedule is runnable",
  "Whenever build succeeds, every (name, type) input of every scheduled stage is either an initial input or an output of a stage in a strictly earlier group, never only of the same or a later group.",
  "all stage sets, all initial inputs, all set iteration orders",
  "needs every dependency graph, including those mixing mutating and ordinary stages",
  [SB+":StageBuilder._resolve_stages", SB+":StageBuilder._stage_resolves", SR+":StageRunner._check_stage_order_is_runnable"])
p("Adding stages in any order builds the same schedule",
  "Stages do not need to be added in running order: for any two orders of adding the same stages, and any two set iteration orders, build either fails with the same exception class in both cases or gives schedules with the same groups in the same sequence (only the order inside a group may differ).",
  "all permutations of the added stages, all set iteration orders, all initial inputs",
  "factorially many orders and hash seeds; a test sees one process's hash order",
  [SB+":StageBuilder.add_stage", SB+":StageBuilder.build", SB+":StageBuilder._resolve_stages"])
p("Stages of one group never write the same argument nor mutate what another of the group reads",
  "Whenever build succeeds, two different stages of the same group have disjoint outputs, and if one of them both reads and writes an argument no other stage of its group reads that argument.",
  "all stage sets, all initial inputs, all pairs of stages in one group",
  "a race between two plugins shows only for some graphs and some hash orders",
  [SB+":StageBuilder._mutating_stages_check", SB+":StageBuilder._resolve_stages"])
p("build fails only when it must",
  "For stage sets in which every stage has at least one output, no argument is produced by two stages or by a stage that reads it, and no ordering markers are used, build succeeds if and only if the stages can be put in some sequence in which each stage's inputs are initial inputs or outputs of stages before it.",
  "all such stage sets and all initial inputs",
  "completeness ranges over every graph and every possible sequence",
  [SB+":StageBuilder._resolve_stages"])
p("Stage resolution terminates",
  "build always terminates, after at most (number of added stages + 1) rounds, with a schedule or one of the documented exceptions.",
  "all stage sets (including cyclic ones), all initial inputs, all set iteration orders",
  "a non-terminating graph cannot be found by a finite number of runs",
  [SB+":StageBuilder._resolve_stages"])
p("A mutating stage runs before the readers that become ready with it",
  "If a stage m reads and writes argument a, and another stage r reads a but does not write it, then whenever build places r in the same group as m or in an earlier one, m was not ready when r was placed: some input of m was neither an initial input nor produced in the groups before r's. The unconditional documentation claim (readers always run after the mutating stage) is false.",
  "all stage sets, all initial inputs, all pairs (mutating stage, reader)",
  "needs all graphs in which the two stages become ready in different rounds",
  [SB+":StageBuilder._mutating_stages_check", SB+":StageBuilder (class docstring, Mutating Stage)"])
p("RunBefore / RunAfter markers are not honoured",
  "An input annotated RunBefore[X] or RunAfter[X] is treated by build as an ordinary required input: it never constrains the order, and unless an identical annotation is an initial input or a stage output the build fails. The documented claims (the marker orders the stages; it is not passed to the stage) are false. A marker given as a bare class makes build raise IndexError.",
  "all stage sets using the markers, all initial inputs",
  "a claim about every schedule produced in the presence of a marker",
  [SB+":StageBuilder._get_ordering_restrictions", SB+":StageBuilder._strip_run_restriction_arguments", "instancespace/stages/stage.py:RunBefore"])
p("add_stage rejects duplicates and misplaced markers and otherwise only adds",
  "add_stage of an already added stage raises ValueError, of a stage with a marker class among its outputs raises TypeError; in both cases the builder is unchanged. Otherwise the builder contains exactly the previous stages and the new one. Hence after any sequence of add_stage calls the builder contains each accepted stage once.",
  "all sequences of add_stage calls",
  "histories of calls are unbounded",
  [SB+":StageBuilder.add_stage"])
p("A stage without outputs makes every build fail",
  "If some added stage declares no outputs, build raises for every set of initial inputs, even when all inputs of all stages are available.",
  "all stage sets containing an output-less stage, all initial inputs",
  "negative claim over all graphs; documentation does not forbid such stages",
  [SB+":StageBuilder._resolve_stages", "example_plugin.py"])
p("build changes the set of initial inputs it is given",
  "If build is given a set of annotations and succeeds, that set afterwards holds exactly the original annotations and the outputs of all stages; consequently building again with the same set object may fail although the first build succeeded. With a NamedTuple class as argument repeated builds give the same result.",
  "all stage sets, all initial sets",
  "effect on the caller's object for every graph",
  [SB+":StageBuilder.build", SB+":StageBuilder._resolve_stages"])
p("The missing-inputs error names exactly what is missing",
  "When build fails for missing inputs, the stages listed are exactly those not placed, and the arguments listed for each are exactly its inputs that are neither initial inputs nor outputs of a placed stage. A stage can be listed with no missing argument at all only if it has no outputs or reads an argument that a ready mutating stage kept back.",
  "all failing stage sets",
  "correctness of a diagnostic over all failing graphs",
  [SB+":StageBuilder._resolve_stages"])
p("The runner's constructor accepts exactly the runnable schedules",
  "Constructing a StageRunner directly raises StageRunningError if and only if some stage has an input that is neither an initial input nor an output of a stage in a strictly earlier group.",
  "all schedules and annotations",
  "iff over all schedules",
  [SR+":StageRunner.__init__", SR+":StageRunner._check_stage_order_is_runnable"])
# ---------------- runner
p("A built pipeline never misses an argument",
  "If build succeeds and every stage returns its declared outputs, then run_all with a value for every initial input never raises KeyError or StageRunningError: it either returns, or propagates an exception raised inside a stage. On return, the result has a value for every initial input and every declared output.",
  "all buildable stage sets, all stage behaviours, all argument values, any previous use of the runner",
  "quantifies over all graphs, behaviours and histories",
  [SR+":StageRunner.run_all", SR+":StageRunner.run_stage", SB+":StageBuilder.build"])
p("run_all depends only on its arguments, not on the runner's history",
  "With deterministic stages, run_all returns (or fails) exactly as on a fresh runner, whatever sequence of run_all / run_until_stage / run_stage / run_iter calls, successful or failing, complete or abandoned, came before; its result is the left-to-right composition of the stages in schedule order on the given arguments.",
  "all call histories including failing stages and interleaved generators",
  "histories are unbounded",
  [SR+":StageRunner.run_all", SR+":StageRunner._rollback_to_schedule_index", SR+":StageRunner._progress_schedule"])
p("A stage runs only after its prerequisite groups",
  "In every history of calls on a new runner, a stage is executed only if every stage of every earlier group has already been executed successfully at some time in that history; otherwise run_stage raises StageRunningError without any effect.",
  "all call histories, including interleaved run_iter generators",
  "histories and interleavings are unbounded",
  [SR+":StageRunner.run_stage", SR+":StageRunner._progress_schedule"])
p("The prerequisite check can be satisfied by an earlier run",
  "The prerequisite executions of C16 need not belong to the current run: after a complete run, a second run (run_iter) abandoned inside the first group leaves the runner executing a stage of the second group on request, although another stage of the first group has not been executed in the second run; on a new runner the same requests are refused.",
  "existence over histories (refutation of the per-run prerequisite guarantee)",
  "needs a crash inside a second run in a group with two stages",
  [SR+":StageRunner._rollback_to_schedule_index", SR+":StageRunner._stages_ran"])
p("run_stage passes overrides first, then the newest values, and stores exactly the outputs",
  "run_stage calls the stage with, for each input field, the keyword argument of that name if given and otherwise the most recent value of that name; on success the available values change exactly at the returned output names, keyword overrides are not remembered, and the stage's output is returned. A field with neither raises KeyError.",
  "all runner states reachable by any history, all stages, all overrides",
  "all states and override combinations",
  [SR+":StageRunner.run_stage", IS+":InstanceSpace.run_stage"])
p("Rerunning an earlier stage undoes nothing",
  "The documented rollback (outputs of later stages are discarded when an earlier stage is run again) does not happen: in every reachable state, after a successful run_stage every previously available value whose name the stage does not output is still available and unchanged. In particular rerunning a stage that reads and writes the same argument starts from its own previous result.",
  "all reachable states, all stages",
  "claims about every history; the effect comes from aliased snapshots",
  [SR+":StageRunner._rollback_to_schedule_index", SR+":StageRunner.run_stage"])
p("Rerunning is idempotent for single-assignment pipelines",
  "If no argument is produced by two stages and no stage outputs an initial input or one of its own inputs, and stages are deterministic, then after a complete run_all, rerunning any stage without overrides returns the same output as in the run and leaves all available values unchanged.",
  "all such pipelines, all stages, all argument values",
  "all pipelines and values",
  [SR+":StageRunner.run_stage", SR+":StageRunner.run_all"])
p("A stage that raises changes no available value and can be retried",
  "If a stage raises during run_stage, the available values are unchanged; if the stage was the next to run, the whole runner state is unchanged, and calling run_stage again behaves like a first call.",
  "all reachable states and failing stages (crash points)",
  "crash points over all histories",
  [SR+":StageRunner.run_stage"])
p("run_until_stage stops before the named stage's group",
  "run_until_stage(S) runs exactly the stages in groups strictly before the group of S, and with S not in the schedule it runs everything. The documented claim that S itself is run is false for every S.",
  "all schedules, all stages, all histories",
  "all schedules and positions",
  [SR+":StageRunner.run_until_stage", IS+":InstanceSpace.run_until_stage"])
p("run_iter yields one item per stage and ends like run_all",
  "Consuming run_iter to the end yields each stage once in schedule order with the output it returned, and leaves the same values as run_all with the same arguments; until the first item is requested nothing happens; abandoning it after k items leaves the values of running the first k stages.",
  "all schedules, all abandonment points, all earlier histories",
  "all prefixes of all schedules",
  [SR+":StageRunner.run_iter", IS+":InstanceSpace.run_iter"])
p("The dictionary returned by run_all is live until the next full run",
  "The dictionary returned by run_all / run_until_stage is not a snapshot: a later run_stage changes it. Once another run_all, run_until_stage or run_iter has started, no further call ever changes it.",
  "all later call histories",
  "aliasing over unbounded histories",
  [SR+":StageRunner.run_all", SR+":StageRunner.run_stage"])
p("Results do not depend on set iteration order when groups do not interfere",
  "If in every group no stage outputs an argument name that another stage of the group reads or outputs, run_all returns the same values for every order inside the groups. Without this condition (which build does not check) the result can depend on the order.",
  "all group permutations, all deterministic stage behaviours",
  "all permutations; hash order varies per process",
  [SR+":StageRunner.run_all", SB+":StageBuilder._resolve_stages"])
p("InstanceSpace.model: availability, caching and staleness",
  "model raises StageRunningError until a build() has completed its stages; afterwards it returns the model of the first successful conversion for ever: a second build() returns the first model even if its run produced different values. run_iter and run_stage never make model available.",
  "all histories of InstanceSpace calls",
  "histories are unbounded",
  [IS+":InstanceSpace.model", IS+":InstanceSpace.build"])
p("Argument types are checked at build time only by annotation equality",
  "The runner looks values up by name only: two annotations with the same name and different types are different arguments for build but the same slot at run time, so a stage can receive a value produced for another annotation.",
  "existence over pipelines (refutation of type-respecting delivery); and for pipelines in which each name has one type, every stage receives the value of its own annotation",
  "all pipelines",
  [SR+":StageRunner.run_stage", SB+":StageBuilder._stage_resolves"])
# ---------------- options
p("Accepted option files give every field the user's value or the default",
  "If InstanceSpaceOptions.from_dict accepts a dictionary, each field of each section equals the value given in that section under the field's name or its documented alias in any letter case, and equals the default exactly when no such key is given.",
  "all dictionaries, all sections and fields, all spellings",
  "all key sets and spellings",
  [OP+":InstanceSpaceOptions.from_dict", OP+":InstanceSpaceOptions._load_dataclass"])
p("Unknown options are never silently ignored",
  "from_dict raises ValueError if a top-level key is not exactly a section name, or a key of a section is (after lower-casing and alias mapping) neither a field of that section nor \"_\"; the only key ever ignored is one that maps to \"_\".",
  "all dictionaries",
  "negative claim over all keys",
  [OP+":InstanceSpaceOptions.from_dict", OP+":InstanceSpaceOptions._validate_fields"])
p("Two spellings of one option are rejected",
  "If a section contains two keys that denote the same field (alias and name, or different letter case), from_dict raises ValueError; it never picks one silently.",
  "all pairs of spellings in all sections",
  "all spellings",
  [OP+":InstanceSpaceOptions._validate_fields"])
p("Key order and the other sections do not matter",
  "The outcome of from_dict for a section depends only on the set of (key, value) pairs in that section: permuting keys changes nothing, and a section's fields are unaffected by the content of the other sections when all are accepted.",
  "all permutations of all dictionaries",
  "all permutations",
  [OP+":InstanceSpaceOptions.from_dict"])
# ---------------- filter
p("Purifier: who is excluded and why",
  "filter_instance never excludes the first instance, and excludes instance j only if an earlier retained instance i is within min_distance in feature space and also satisfies the type's performance condition (Ftr: none; Ftr&AP: performance distance at most gamma; Ftr&Good: all algorithms good on both; Ftr&AP&Good: both conditions). Conversely every j having such an earlier retained i is excluded.",
  "all matrices, thresholds and filter types",
  "greedy selection over all data sets",
  [FI+":filter_instance"])
p("Purifier (Ftr): the retained instances are a maximal min_distance-separated cover",
  "With type Ftr any two retained instances are more than min_distance apart and every excluded instance is within min_distance of a retained one; and for every type, filtering the retained instances again excludes nothing.",
  "all data sets and thresholds",
  "all data sets",
  [FI+":filter_instance"])
p("Purifier: dissimilar and VISA flags",
  "An instance is flagged not dissimilar iff an earlier retained instance is within min_distance; it is flagged VISA iff it is retained and an earlier retained instance is within min_distance (never for type Ftr, where such an instance is excluded); an excluded instance is never VISA.",
  "all data sets, thresholds and types",
  "all data sets",
  [FI+":filter_instance"])
# ---------------- preprocessing
p("Feature/algorithm selection keeps data and labels aligned",
  "After selection, the k-th feature (algorithm) label names the k-th data column: it is the column of the input whose first label is that name, columns keep the data set order, and a requested name that does not exist is ignored; if no requested name exists everything is kept. With distinct labels every label keeps its own data; with a repeated label the later column's data are replaced by the first one's.",
  "all label lists, all selections, all matrices",
  "all label lists and selections",
  [PP+":PreprocessingStage.select_features_and_algorithms"])
p("Removing instances with missing values keeps rows aligned and removes exactly the empty ones",
  "remove_instances_with_many_missing_values drops exactly the instances whose features are all missing or whose performances are all missing, from features, performances, labels and sources alike, keeping order; then drops exactly the features missing in at least 20 % of the remaining instances, with their labels. (The documentation says features and performances must both be missing; the code drops an instance if either is.) If no instance remains it raises ZeroDivisionError.",
  "all matrices with missing values",
  "all patterns of missing values",
  [PP+":PreprocessingStage.remove_instances_with_many_missing_values"])
# ---------------- prelim
p("PRELIM: best algorithm index",
  "For every instance with a performance the reported best performance is the maximum (minimum, when costs are minimised) of the performances present (machine epsilon if that is zero and the test is relative), and the reported best algorithm p is, 1-based, the first algorithm attaining it. An instance without any performance reports -inf (+inf) and algorithm 1. Exception: minimised relative performance, best value zero and two algorithms at exactly machine epsilon, where p names the first of those although it is not best.",
  "all performance matrices, both optimisation directions",
  "all matrices and ties",
  [PR+":PrelimStage._select_best_algorithms", PR+":PrelimStage._prelim"])
p("PRELIM: good performance and beta",
  "In absolute mode algorithm j is good iff its performance is present and at least (at most) epsilon. In relative mode with positive best performance b it is good iff its performance v satisfies v >= (1-epsilon) b (minimised: b >= (1-epsilon) v). The number of good algorithms counts exactly those, and beta holds iff it exceeds beta_threshold times the number of algorithms. With epsilon >= 0 and b > 0 the best algorithm is good. The documented 'within epsilon of the best' fails otherwise: for maximised performance with b = 0 nobody is good, not even the best, and with b < 0 everybody is good, including missing performances.",
  "all matrices, all option values",
  "all matrices and thresholds",
  [PR+":PrelimStage._prelim"])
p("PRELIM: bounding clips into the reported interval and nothing else",
  "After bounding, every feature value lies between the reported lo_bound and hi_bound of its column, values already inside are unchanged, bounding is monotone and idempotent with the same bounds, lo_bound <= median <= hi_bound, and the bounds lie five interquartile ranges (midpoint rule) below and above the median.",
  "all finite feature matrices",
  "all matrices",
  [PR+":PrelimStage._bound"])
p("PRELIM filter: all per-instance outputs are subset by one mask",
  "When instances are selected (fractionally, by file index, or by density), features, performances, labels, sources, binary performance, beta, counts, best performance and best algorithm are all restricted to the same instances in the same order; with no selection everything is returned unchanged.",
  "all selections",
  "all masks",
  [PR+":PrelimStage._filter"])
p("PRELIM file-index selection drops the last instance and misreads index 0",
  "With selection by file, index k (1-based) selects instance k for 1 <= k < number of instances; the last instance can never be selected by its index, and index 0 selects it instead.",
  "all index files",
  "all index files",
  [PR+":PrelimStage._filter"])
# ---------------- sifted
p("SIFTED: one feature per cluster",
  "For every clustering with non-empty clusters and every candidate chromosome the decoder returns exactly one feature of each cluster, in increasing order without repetition, and every choice of one feature per cluster is reachable. With an empty cluster it always fails with ZeroDivisionError.",
  "all clusterings, all candidate numbers",
  "combinatorially many choices",
  [SI+":SiftedStage._find_best_combination", SI+":SiftedStage.cost_fcn"])
p("SIFTED: performance selection",
  "The best-correlated feature of every algorithm is always kept. Beyond these exactly the features ranked i-th for some algorithm j are kept such that feature number i (not the i-th ranked one) has signed correlation at least rho with j; each algorithm thus keeps at least as many features as pass its test. The documented rule (keep any feature with absolute correlation at least rho) is violated both ways: passing features can be dropped, failing ones kept, and negative correlations never pass.",
  "all correlation matrices",
  "all matrices",
  [SI+":SiftedStage.select_features_by_performance"])
# ---------------- pilot
p("PILOT: error is non-negative, best restart is chosen",
  "Each reported quality is that of the projection of its restart; the returned projection is, rounded to half precision, that of the first restart of maximal quality (the first undefined one if a quality is undefined), so the reported quality need not be that of the returned projection. The objective is undefined iff every instance misses a feature; otherwise it is non-negative, and zero exactly when every present value of every instance with all features is reconstructed exactly.",
  "all restarts, all data",
  "all data and restarts",
  [PI+":PilotStage.numerical_solve", PI+":PilotStage.error_function"])
# ---------------- cloister
p("CLOISTER: the vertices enumerate every corner of the bounding box once",
  "x_edge has 2^n rows; row i takes for feature j the largest value among the instances if bit j of i is set and otherwise the smallest; every combination of extremes occurs in exactly one row.",
  "all dimensions and feature matrices without missing values",
  "exponentially many corners in every dimension",
  [CL+":CloisterStage._generate_boundaries", CL+":CloisterStage._decimal_to_binary_matrix"])
p("CLOISTER: exactly the vertices contradicting a strong correlation are removed",
  "A vertex is removed iff for some pair of features its coordinates have different signs although their significant correlation exceeds c_thres, or the same sign although it is below -c_thres; correlations with p-value above p_val never remove anything. When every feature takes both signs this is the documented rule on opposite and equal extremes; when all values are positive correlations have no effect and z_ecorr = z_edge.",
  "all feature matrices, correlation routines and non-negative thresholds",
  "all matrices",
  [CL+":CloisterStage._generate_boundaries", CL+":CloisterStage._compute_correlation"])
p("CLOISTER: the correlated boundary is contained in the plain boundary",
  "Every point of z_edge and z_ecorr is the projection of a corner of the bounding box; the convex hull of z_ecorr is contained in that of z_edge whenever the latter could be computed; if no hull of the kept corners can be computed z_ecorr equals z_edge. For any hull routine, z_edge is exactly what it picks among the projections of all corners and z_ecorr what it picks among those of the corners that contradict no significant correlation, or z_edge if that is nothing. The stage raises exactly if there is no instance or pearsonr raises for two different features.",
  "all data and all hull routines (containment: those that return positions of points spanning the hull)",
  "the kept corners are among 2^n and depend on all correlations; a test fixes the data and the hull",
  [CL+":CloisterStage.cloister", CL+":CloisterStage._generate_boundaries", CL+":CloisterStage._compute_convex_hull"])
# ---------------- pythia
p("PYTHIA: the selector picks an algorithm predicted good, of best precision among those",
  "selection0 of an instance is the first algorithm of largest precision among those predicted good for it with positive precision; an algorithm correctly predicted good always qualifies. If none qualifies the code reports 0, indistinguishable from selecting the first algorithm.",
  "all completed runs with at least two algorithms, all predictions",
  "all prediction matrices and precisions",
  [PY+":PythiaStage._determine_selections", PY+":PythiaStage.pythia"])
p("PYTHIA: fallback selection",
  "selection1 equals selection0 for every instance with a qualifying algorithm, and otherwise is the first algorithm that is good on the most instances.",
  "all completed runs",
  "all matrices",
  [PY+":PythiaStage._determine_selections"])
# ---------------- trace
p("TRACE: results do not depend on the completion order of the workers",
  "A run that completes returns the same result whatever order the worker threads finish in, and whether it completes does not depend on that order either.",
  "all completion orders (schedules)",
  "all interleavings",
  [TR+":TraceStage._trace", TR+":TraceStage.process_algorithm"])
p("TRACE: clustering labels",
  "dbscan gives every point a label: two points share a positive label iff they are connected by steps of at most eps and their component has a point with more than k neighbours (itself included); all others get -1; positive labels are 1..m without gaps. Which points share a cluster and which are left out is thereby determined.",
  "all point sets, all k and eps",
  "all point sets",
  [TR+":TraceStage.dbscan", TR+":TraceStage.dist"])
p("TRACE: best-performance footprints use the wrong algorithm when actual data is used",
  "With use_sim=False the best footprint reported for the (i+1)-th algorithm is built from the instances whose best algorithm (1-based p) is i, i.e. the previous algorithm; the first algorithm always gets an empty footprint and the last algorithm's instances are used for none.",
  "all data with use_sim=False",
  "an off-by-one hidden by plausible output",
  [TR+":TraceStage._trace", TR+":TraceStage._run", PR+":PrelimStage._prelim"])
p("Footprint statistics are consistent",
  "elements and good_elements count the instances and the flagged instances inside the (smoothed) polygon; good_elements <= elements; purity is their ratio, in [0,1] and 0 when there are none; density x area = elements, 0 for zero area; without a polygon everything is 0.",
  "all polygons, points and labels",
  "all polygons",
  [MO+":Footprint.from_polygon"])
# ---------------- serialisers
p("Web colour scale",
  "The colour of a value is its place between the smallest and the largest value of its column (or of the whole matrix) on the scale 0..255, rounded down (or to the nearest). So colours are integers in 0..255, the minimum has colour 0, the maximum 255, and order is preserved, for columns without missing values that are not constant. In a column with a missing value or with all values equal no colour is defined.",
  "all matrices",
  "all matrices",
  [SE+":_colour_scale", SE+":_colour_scale_g"])
p("save_zip can lose files of equal base name",
  "The archive written by save_zip stores exactly the files below the directory, except .gitignore and those named like the archive, under their base names. Every file can be read back iff files of equal base name have equal contents; otherwise files are lost. An archive given by a path below the directory contains itself.",
  "all directory trees",
  "all trees",
  [MD+":Model.save_zip"])

# ---------------- additions (appended as the model grew)
p("Stages are scheduled as early as possible",
  "Whenever build succeeds, a stage of group k could not have been placed in any earlier group i: either one of its inputs is not available before group i, or a mutating stage of an argument it reads was ready at i but not yet run.",
  "all stage sets, all initial inputs, all set iteration orders, all groups",
  "a schedule that delays a stage still computes the right values, so output tests cannot see it",
  [SB+":StageBuilder._resolve_stages", SB+":StageBuilder._mutating_stages_check"])
p("Reading an options file returns options, None, or raises AttributeError",
  "from_json_file returns the options of from_dict exactly when the file is readable, is valid JSON, and from_dict accepts its object; it returns None exactly when the file cannot be read, is not JSON, or from_dict raises ValueError; it raises only AttributeError, and only when the top level or a section of the file is not an object (so the documented 'options or None' fails, e.g. for {\"perf\": null}).",
  "all file contents, all parse results",
  "all files",
  [OP+":from_json_file", OP+":InstanceSpaceOptions.from_dict"])
p("Loading options is stable",
  "Options that were loaded, written out as a dictionary with each field under its own name and loaded again with from_dict, are accepted and equal the first ones.",
  "all accepted dictionaries",
  "all dictionaries",
  [OP+":InstanceSpaceOptions.from_dict", OP+":InstanceSpaceOptions._load_dataclass"])

# ---------------- more of prelim
p("PRELIM: one missing value wipes out its feature, or all performances",
  "If bounding or normalisation is on, a single missing value in a feature makes every value of that feature missing afterwards; a single missing performance makes the whole normalised performance matrix missing. With both off features are returned unchanged.",
  "all feature and performance matrices, any Box-Cox fit",
  "all positions of the missing value and all data",
  [PR+":PrelimStage._bound", PR+":PrelimStage._normalise"])
p("PRELIM: Box-Cox sees only positive data",
  "For a feature without missing values the data handed to the Box-Cox fit are the values shifted by one constant so that the smallest is exactly 1; for performances without missing values all algorithms share one shift and the smallest value handed over is machine epsilon; the result of the transform is what is returned, value for value.",
  "all matrices without missing values, any Box-Cox fit",
  "all matrices",
  [PR+":PrelimStage._normalise"])
p("PRELIM changes the performance matrix it is given",
  "PRELIM called directly replaces, in relative mode, every zero in the caller's performance matrix by machine epsilon in place and changes nothing else; in absolute mode, or without zeros, the matrix survives. Consequently running PRELIM twice on the same data is not idempotent: an instance whose maximised performances are all zero has no good algorithm on the first run and only good algorithms on the second.",
  "all performance matrices and options",
  "all matrices and repeated runs",
  [PR+":PrelimStage._prelim", PP+":PreprocessingStage._run"])
# ---------------- more of sifted
p("SIFTED: the genetic algorithm is given the error as fitness",
  "The fitness of a candidate combination is its largest cross-validation error over the algorithms, so a combination of maximal fitness is one that no other candidate is worse than: the search prefers the worst predictor, contrary to the documented negative error.",
  "all candidates and error values",
  "all candidate sets",
  [SI+":SiftedStage.cost_fcn", SI+":SiftedStage._find_best_combination"])
p("SIFTED: candidates are scored on other features than are returned",
  "The columns on which a candidate is scored are the chosen positions in the full feature table, while the features returned are those at the same positions among the preselected features. They agree when preselection kept everything; otherwise they can be disjoint.",
  "all preselections, clusterings and candidates",
  "all preselections",
  [SI+":SiftedStage.cost_fcn", SI+":SiftedStage._find_best_combination"])
p("SIFTED: indices, labels and columns agree",
  "In every outcome of SIFTED the selected indices are strictly increasing indices of input features, and the k-th output label and the k-th output column are those of the k-th selected index. The output idx lists all input features, not the selected ones. A single feature is refused. Two or three features are returned as they are; of four or more, those that pass the selection by performance are returned if they are at most three or at most k, and otherwise what their clusters select.",
  "all inputs, all outcomes of correlation, clustering and the genetic algorithm",
  "all inputs and library outcomes",
  [SI+":SiftedStage._sifted"])
p("SIFTED: the suggested number of clusters can crash the stage",
  "If the number of clusters with the best silhouette score is not k, and is one of the last two candidates, the stage fails with IndexError; otherwise this step succeeds. With four preselected features it succeeds only if k is the best number.",
  "all silhouette scores and k",
  "all scores",
  [SI+":SiftedStage.evaluate_cluster"])
p("SIFTED: density selection never survives clustering",
  "When density-based selection is requested, no run selects features by clustering: every run reaching that point fails.",
  "all inputs with dense data",
  "all inputs",
  [SI+":SiftedStage._sifted"])
p("SIFTED: correlations use exactly the instances with both values",
  "The correlation of a feature and an algorithm is that of the instances where both values are present, and missing when there is none; the stage fails iff some feature and algorithm share exactly one instance.",
  "all tables with missing values, any correlation routine",
  "all patterns of missing values",
  [SI+":SiftedStage._compute_correlation"])
# ---------------- more of options
p("Which spellings set an option",
  "A key sets an option iff, lower-cased, it is the option's name, or the name without underscores except for selvars_type, use_grid_search and the genetic-algorithm options of sifted, or one of the extra names type, uselibsvm and pi.",
  "all options, keys and values",
  "all spellings of all options",
  [OP+":InstanceSpaceOptions.from_dict"])
p("PRELIM receives the loaded options",
  "The options PRELIM runs with are, one by one, the loaded values of perf.max_perf, perf.abs_perf, perf.epsilon, perf.beta_threshold, bound.flag and norm.flag.",
  "all accepted option dictionaries",
  "all dictionaries",
  [OP+":PrelimOptions.from_options"])
# ---------------- more of pilot
p("PILOT: one point per instance, one loading per feature, one too few for algorithms",
  "A numerical run returns one two-dimensional point per instance and the loadings of every feature, but only the loadings of the second and later algorithms, shifted by one position; with one algorithm there is none. The summary has one row per coordinate under the feature labels.",
  "all inputs, all outcomes of the optimiser",
  "all inputs",
  [PI+":PilotStage.pilot"])
p("PILOT: the analytic solution is optimal for its loadings, not overall",
  "The analytic solution reports its own squared reconstruction error, and no other projection has a smaller error with the returned loadings (the two leading eigenvectors). It fails exactly for linearly dependent features. It does not minimise the error over projections and loadings: there are data for which it projects everything to the origin although a better solution exists.",
  "all data over any ordered field, any orthonormal eigendecomposition",
  "all data, all candidate projections",
  [PI+":PilotStage.analytic_solve"])
p("PILOT: reported r2 and error of the numerical solution",
  "The numerical solution reports two r2 values per instance, each 1 or undefined whatever the fit (the first of an instance is defined iff its features and performances are all present and not all equal); its error is undefined as soon as one performance is missing.",
  "all inputs and optimiser outcomes",
  "all inputs",
  [PI+":PilotStage.pilot"])
p("PILOT: when the numerical solution succeeds",
  "A numerical run succeeds iff x and y have the same number of instances, no pre-calculated solution of the right shape is given (it always fails with UnboundLocalError), there is one label per feature, at least one restart, a starting point for every restart and a defined correlation call for each. Otherwise it raises, in this order of precedence: ValueError for different numbers of instances, UnboundLocalError for a pre-calculated solution, what the first failing restart raises (IndexError if it has no starting point), UnboundLocalError if there is no restart, ValueError for a wrong number of labels. With given starting points more restarts never lower the best quality.",
  "all inputs, options and optimiser outcomes",
  "all inputs and options",
  [PI+":PilotStage.pilot", PI+":PilotStage.numerical_solve"])
p("PILOT: the analytic solution is determined up to rotation",
  "If the eigenvalue routine returns another orthonormal basis of the chosen plane (other signs, another basis of a repeated eigenvalue), the projection is turned by the corresponding orthogonal matrix: the error and all distances between instances are unchanged.",
  "all data, all bases",
  "all data and bases",
  [PI+":PilotStage.analytic_solve"])
p("CLOISTER: the plain boundary encloses every instance",
  "The projection of every instance lies in the convex hull of z_edge, for every projection matrix. This does not hold for z_ecorr: with the default thresholds an instance can lie outside the correlated boundary.",
  "all data without missing values, all projection matrices, all correct hull routines",
  "all data and projections",
  [CL+":CloisterStage.cloister"])
p("PYTHIA: the reported mu and sigma are 0 and 1",
  "The normalised coordinates have mean 0 and standard deviation 1, and these are the mu and sigma the stage reports: location and scale of the original coordinates cannot be recovered from the output.",
  "all coordinate columns with two different values (real numbers)",
  "all data",
  [PY+":PythiaStage._compute_znorm"])
p("PYTHIA: cost-sensitive weights",
  "Without use_weights every weight is 1. With it every weight is present and positive: the distance of the performance from the overall mean if non-zero; for a performance equal to the mean the smallest non-zero distance, or the largest if any performance is missing; for a missing performance the largest. The stage fails iff all performances present are equal.",
  "all performance matrices",
  "all matrices with and without missing values",
  [PY+":PythiaStage.pythia"])
p("PYTHIA: what the scores measure",
  "cvcmat counts true negatives, false positives, false negatives and true positives of the cross-validated predictions y_sub and adds up to the number of instances; accuracy, precision and recall are those of the final models on the instances they were trained on (y_hat), not cross-validated.",
  "all completed runs, all classifiers",
  "all classifiers",
  [PY+":PythiaStage.pythia"])
p("PYTHIA: the summary's accuracy and precision columns are swapped",
  "For each algorithm, CV_model_accuracy lists 100 x precision and CV_model_precision lists 100 x accuracy, rounded; CV_model_recall lists the recall.",
  "all completed runs",
  "all runs",
  [PY+":PythiaStage.pythia", PY+":PythiaStage._generate_summary"])
p("PYTHIA: the selector's performance in the summary is off by one",
  "The average performance reported for the selector ignores instances whose selection1 is the first algorithm and uses for all others the performance of the algorithm listed before the selected one; it is not the average performance of the selected algorithms.",
  "all completed runs",
  "all runs",
  [PY+":PythiaStage._generate_summary"])
p("PYTHIA overwrites the performance matrix it is given",
  "When PYTHIA has been called directly, the array passed as y_raw holds for instance i only the performance of algorithm selection0 - 1; every other entry is NaN (the whole row when selection0 is 0).",
  "all completed runs",
  "all runs and aliases of the input array",
  [PY+":PythiaStage._generate_summary"])
p("PYTHIA: when the stage can complete",
  "The stage completes only with at least two algorithms, exactly as many labels as algorithms, and, for each algorithm, both outcomes among its true labels and cross-validated predictions; with a single algorithm it always fails. Conversely it completes if in addition every search returns and, if cost-sensitive weights are asked for, they can be computed.",
  "all inputs and classifiers",
  "all inputs",
  [PY+":PythiaStage.pythia", PY+":PythiaStage._determine_selections", PY+":PythiaStage._generate_summary"])
p("PYTHIA: hyper-parameters",
  "Each algorithm's model is trained once, on its own column of measured labels and of weights, and every column of predictions, probabilities, hyper-parameters, scores and confusion counts comes from the model of its own algorithm. Given hyper-parameters are used, row i for algorithm i, iff their array has shape (algorithms, 2); otherwise values are generated, all in [2^-10, 2^4): C and gamma of the i-th candidate are 2^(14x-10) and 2^(14y-10) for the i-th sampled point (x, y) of the unit square, so every pair in that range can occur.",
  "all parameter arrays and all samples of the unit square",
  "all arrays and samples",
  [PY+":PythiaStage._check_precalcparams", PY+":PythiaStage._generate_params"])
p("TRACE: clusters are connected components, not DBSCAN clusters",
  "Every cluster has more than k points; but unlike in DBSCAN a cluster is also extended through points that are not dense, so a chain of sparse points merges two dense groups.",
  "all point sets, all k and eps",
  "all point sets",
  [TR+":TraceStage.dbscan"])
p("TRACE: a footprint needs three different points",
  "A footprint built from instances that do not include three different points is the empty footprint (no polygon, all statistics 0); one built from at least three different points has a polygon. Building always terminates.",
  "all instance spaces and flags, all geometry libraries",
  "all inputs",
  [TR+":TraceStage.build"])
p("TRACE: contradicting best-performance footprints are never reduced",
  "When TRACE completes, each best-performance footprint is exactly the one built from the instances for which that algorithm is best: no contested area is ever removed. If two of them overlap in a region with more instances of one algorithm than of the other, TRACE raises; if the numbers are equal, both keep the overlap, so the footprints returned need not be disjoint. Tightening a footprint never yields a polygon: it raises when one part of it holds all instances and at least three of them are good, and gives nothing otherwise.",
  "all instance spaces, all geometry libraries in which a difference contains nothing of what was subtracted and the empty region meets nothing",
  "all inputs",
  [TR+":TraceStage.contra", TR+":TraceStage.tight", TR+":TraceStage.trace"])
p("TRACE: purity of a fitted polygon",
  "A fitted polygon lies inside the alpha shape and contains nothing of a triangle in which the share of flagged instances is below the purity threshold. If the triangles tile the shape, its purity is at least the threshold; if triangles reach outside the shape it can be anything.",
  "all instance spaces, flags and thresholds",
  "all inputs",
  [TR+":TraceStage.fit_poly"])
p("TRACE: instance order is irrelevant",
  "Listing the instances, with their flags, best algorithms and difficulty, in another order changes no output of TRACE.",
  "all permutations of the instances",
  "all permutations",
  [TR+":TraceStage.trace", TR+":TraceStage.build", TR+":TraceStage.contra"])
p("TRACE: when it completes and what it returns",
  "TRACE completes iff every footprint can be built, n_cores is at least 1 (-1 for all cores raises), there is one label per algorithm and no two best-performance footprints contradict each other. The result holds the footprints built from all instances, from each algorithm's good instances, from each algorithm's best instances and from the hard instances (beta false), and one summary row per algorithm with the areas and densities of its good and best footprints, absolute and relative to the whole space where that is not 0, and their purities.",
  "all inputs, all geometry libraries as above",
  "all inputs",
  [TR+":TraceStage.trace", TR+":TraceStage.compute_algorithm_qualities", TR+":TraceStage.summary"])
p("TRACE: instances without a predicted algorithm count for the first",
  "With use_sim=True the best-performance footprint of algorithm i is built from the instances for which PYTHIA's best candidate is i; the instances for which PYTHIA predicts no algorithm to be good are counted as the first algorithm's; the good-performance footprints are built from PYTHIA's predictions.",
  "all outputs of PYTHIA",
  "all outputs",
  [TR+":TraceStage._run", PY+":PythiaStage._determine_selections"])
p("TRACE: what a footprint is made of",
  "A footprint with a polygon is measured on the smoothed union of the polygons fitted to the clusters of its distinct points, a cluster needing a point with more than k points around it, k being 5% of the number of its instances rounded up, at least 3 and at most 50. The fit of a cluster is its alpha shape if every instance is flagged, and otherwise the alpha shape minus the triangles below the purity threshold; fewer than three points or an empty shape contribute nothing.",
  "all instance spaces, flags and thresholds, all geometry libraries with exact union and difference",
  "all inputs",
  [TR+":TraceStage.build", TR+":TraceStage.fit_poly", TR+":TraceStage.run_dbscan"])
p("PYTHIA: the numbers of the summary",
  "Row j of the summary holds, rounded to three digits, the mean and standard deviation of algorithm j's performances that are present, the share of instances for which it is good, the mean and standard deviation over the instances it is predicted good for, and its hyper-parameters. The Oracle row holds mean and deviation of the best performances and probability 1; the Selector row holds mean, deviation and share of good of the algorithm listed before the selected one, over the instances whose selected algorithm is not the first. The Selector's precision is the share of good pairs among the pairs of an instance and the algorithm listed before the one selection0 names, its recall the share of those hits among all good pairs; the Oracle's other columns and the Selector's accuracy are empty.",
  "all completed runs, all rounding and root functions",
  "all inputs and classifiers",
  [PY+":PythiaStage._generate_summary"])
p("save_to_csv: what the files hold",
  "A call of save_to_csv that returns has written each array of the model to its file, under the instance labels and the feature or algorithm labels, entry for entry; the selected columns of TRACE's summary and the whole summaries of PILOT and PYTHIA, with the first column headed Row; and, if the algorithm labels are different, each best and good footprint that has a polygon to its own file. It changes no other file. The call heads the first columns of the model's own PILOT and PYTHIA summaries Row, after which further calls still write the same files. With two algorithms of the same label one's footprint overwrites the other's.",
  "all models, directories and sets of writable files",
  "all models and directories",
  [SE+":save_instance_space_to_csv", SE+":_write_array_to_csv", MD+":Model.save_to_csv"])
p("save_to_csv: when it returns and what a failure leaves",
  "save_to_csv raises without touching anything if the target is not a directory. Otherwise it returns iff every array has one row per label and one column per column label, every footprint list has an entry per algorithm, the feature indices are valid and as many as the feature labels, TRACE's summary has eleven columns, CLOISTER's boundaries are not empty and all files can be opened. A call that raises has written a prefix of the fixed sequence of files, the arrays among them completely, and changed nothing else.",
  "all models, directories and sets of writable files",
  "all models, directories and points of failure",
  [SE+":save_instance_space_to_csv", SE+":_write_array_to_csv", MD+":Model.save_to_csv"])
p("save_to_csv: the points of a footprint",
  "The file of a footprint that is one polygon lists the vertices of its outer ring in order, once each, under the different names bnd_pnt_1, bnd_pnt_2, ... Of several polygons the rings follow each other without separation, all but the last with their first vertex repeated. Holes are not written, so a polygon cannot be recovered from its file.",
  "all polygons and multipolygons",
  "all geometries",
  [SE+":save_instance_space_to_csv", SE+":_make_bind_labels"])
p("save_for_web: what the files hold and when it returns",
  "save_for_web raises without touching anything if the target is not a directory. Otherwise it returns iff there are instances and algorithms, every array has the shape its labels require, the feature indices are valid and as many as the feature labels and all files can be opened. Then it has written the colour table and the colours of the selected raw features, features, performances (by column and overall) and numbers of good algorithms under their labels, and changed no other file.",
  "all models, directories and sets of writable files",
  "all models and directories",
  [SE+":save_instance_space_for_web", SE+":_colour_scale", SE+":_colour_scale_g", MD+":Model.save_for_web"])
p("A built model can be saved only if SIFTED keeps every feature",
  "SIFTED's output idx lists all features it was given. Since save_to_csv and save_for_web index the raw features with it but label them with the selected features, they return only if SIFTED has kept every feature, and raise otherwise.",
  "all runs of SIFTED and all models holding their idx and feature labels",
  "all runs",
  [SI+":SiftedStage._sifted", SE+":save_instance_space_to_csv", SE+":save_instance_space_for_web", MO+":FeatSel.from_stage_runner_output"])
p("Stages work on copies of the data",
  "A stage run by a StageRunner or InstanceSpace, whether it returns or raises, changes no object that existed before: values given by the caller, values returned earlier and all available values except the stage's own outputs stay as they are, whatever the stage does to its inputs in place (so PYTHIA's overwriting of the raw performances does not reach the model). Two inputs of a stage are one object iff they were one object before; since PREPROCESSING returns one array as y and y_raw, PRELIM's replacement of zeros in relative mode does reach the raw performances it hands on.",
  "all stages that reach only what they are given, all histories of calls",
  "all stage bodies and histories",
  [SR+":StageRunner.run_stage", PP+":PreprocessingStage._run", PR+":PrelimStage._run", PY+":PythiaStage._generate_summary"])
p("Portfolio plots name the wrong algorithm or leave one out",
  "In the plot of best algorithms (numbered from 1) each instance is drawn under the name of its best algorithm, except that the instances of the last algorithm are not drawn. In the plot of predicted algorithms (numbered from 0) each instance is drawn under the name of the algorithm before its own, or as None for the first. In the footprint plot the group named after an algorithm comes with the footprint of the next one.",
  "all portfolios and labels",
  "all portfolios",
  [SE+":_draw_portfolio_selections", SE+":_draw_portfolio_footprint"])
p("Plots do not overwrite each other",
  "The plots written by save_graphs have different file names iff the feature labels are different, the algorithm labels are different and no algorithm is called portfolio.",
  "all models",
  "all labels",
  [SE+":save_instance_space_graphs"])
p("Scales of the plots",
  "Features are drawn on a scale from 0 (smallest value) to 1 (largest). The 'individually normalised' performance is the value minus the ratio of smallest value and range, and need not be in [0,1]. The 'globally normalised' performance of an algorithm is in [0,1] iff the smallest performance of all is one of this algorithm's, and is undefined throughout if any performance is missing.",
  "all matrices; all functions for the logarithm",
  "all matrices",
  [SE+":save_instance_space_graphs"])
p("The default pipeline has one schedule",
  "With the seven default stages and the inputs made from metadata and options, building always succeeds and always gives PREPROCESSING, PRELIM, SIFTED, PILOT, then CLOISTER and PYTHIA in either order, then TRACE, whatever order the stages were added in and whatever order sets are iterated in.",
  "all orders (and repetitions) of adding the stages, all iteration orders of sets",
  "all iteration orders, including those no interpreter run happens to use",
  [IS+":InstanceSpace.__init__", SB+":StageBuilder.build", PP+":PreprocessingStage", TR+":TraceStage"])
p("Which selections of the default stages can be used",
  "A selection of the default stages can be built iff it contains, with every stage, the stages that stage needs; any other selection raises StageResolutionError. In every selection that can be built the stages keep the order they have in the full pipeline. Without one of the seven stages build() never returns a model: it raises what a stage raised, or fails when the Model is made.",
  "all selections of default stages, all adding and iteration orders, all stage behaviours",
  "all selections and all stage behaviours",
  [IS+":InstanceSpace.__init__", IS+":InstanceSpace.build", SB+":StageBuilder.build", MD+":Model.from_stage_runner_output"])
p("Where the inputs of the default stages and the attributes of the Model come from",
  "In every completed run of the default pipeline each stage is executed once, each of its inputs is the value returned by a fixed stage (or taken from metadata and options), and each attribute of the Model is the value returned by a fixed stage: data and feat_sel come from SIFTED (algo_labels from PREPROCESSING), the other parts from the stage of their name. This holds whichever of PYTHIA and CLOISTER runs first.",
  "all schedules of the default stages, all histories of the runner, all stage behaviours",
  "all histories and stage behaviours",
  [SR+":StageRunner.run_all", MD+":Model.from_stage_runner_output", IS+":InstanceSpace.build"])
p("build() of the default pipeline fails only if a stage fails",
  "Whatever was called on an InstanceSpace with the default stages before, build() returns a model or raises what a stage raised. It never misses an argument of a stage, and the Model can always be made of the outputs.",
  "all histories of calls on the InstanceSpace, all stage behaviours",
  "all histories",
  [IS+":InstanceSpace.build", IS+":InstanceSpace.model", MD+":Model.from_stage_runner_output"])
p("Additional initial inputs never arrive",
  "additional_initial_inputs_type lets a pipeline be built whose stages read inputs that are neither outputs of stages nor made from metadata and options. The values of such inputs cannot be supplied: build() of such an InstanceSpace raises after every history of calls.",
  "all stages, all additional inputs that a stage reads and no stage returns, all histories of calls",
  "all histories and stage behaviours",
  [IS+":InstanceSpace.__init__", IS+":InstanceSpace.build", IS+":_InstanceSpaceInputs.from_metadata_and_options"])
p("A built model can be saved only if PRELIM keeps every instance",
  "When PRELIM selects instances (by fraction, by file or by density), the arrays of the model have one row per selected instance but its instance labels are those of all instances. So save_to_csv and save_for_web return only if PRELIM has kept every instance, and raise otherwise.",
  "all instance selections, all runs of PRELIM's selection and of SIFTED, all models holding their results",
  "all selections and runs",
  [PR+":PrelimStage._filter", PR+":PrelimOutput", SI+":SiftedStage._sifted", MO+":Data.from_stage_runner_output", SE+":save_instance_space_to_csv", SE+":save_instance_space_for_web"])
p("What metadata is read from a table",
  "Metadata.from_data_frame takes as features and algorithms exactly the columns whose names begin with feature_ and algo_ in any capitalisation, under their full names and in the order of the file; as labels the column called Instances, numbers as text; as sources the column called Source, if there is one. Other columns, and the place of a column among those of other kinds, do not matter. Several columns called Instances give a table of labels. With a single row, however, the label is no column but one value (or, with several such columns, the row of their values) and reading may raise, and a table without a column of labels is accepted.",
  "all tables",
  "all tables and column names",
  [ME+":Metadata.from_data_frame"])
p("Reading an instance space from files",
  "from_csv_file returns None iff the file is missing, unreadable, unparsable or empty; other errors (bad encoding) are raised. instance_space_from_files returns an InstanceSpace iff both files load, and then it holds their contents; it returns None iff the metadata file gives None or the options file does, and opens the options file only when the metadata was loaded. instance_space_from_directory does the same with metadata.csv and options.json.",
  "all file contents and read errors",
  "all contents of both files",
  [ME+":from_csv_file", OP+":from_json_file", IS+":instance_space_from_files", IS+":instance_space_from_directory"])
p("PRELIM: the performances handed on",
  "Without normalisation, the performances PRELIM returns are the input in absolute mode, and in relative mode the relative distance from the best performance of the instance: not negative, and zero exactly for the best (if the best exceeds the machine epsilon). With normalisation the relative performance is discarded: both modes return the normalised input, unless a performance is zero.",
  "all performance tables, all options, all transformations",
  "all tables and both modes",
  [PR+":PrelimStage._prelim", PR+":PrelimStage._normalise"])
p("PRELIM: normalisation keeps order and can be undone",
  "In real arithmetic and whatever lambda the optimiser finds: a feature with two different values becomes a column of mean 0 and standard deviation 1 in which the order of the instances is kept, and the reported minimum, lambda, mean and deviation determine the original values; a constant feature becomes NaN throughout. The same holds for each algorithm's performances. Since every algorithm gets mean 0, no algorithm is better than another on all instances after normalisation, even if it was before.",
  "all feature columns and performance tables without missing values, all lambdas",
  "all columns of real numbers and all lambdas",
  [PR+":PrelimStage._normalise"])
p("Every row of the results belongs to one instance of the metadata",
  "If the default pipeline completes up to PYTHIA, there are instances that have data, among them those PRELIM selects, in the order of the metadata, such that row k of every per-instance array (x, y, raw data, good performance, best algorithm, best performance, beta, number of good algorithms, sources, coordinates, predictions, selections) belongs to the k-th selected instance; column c of x belongs to the feature called the c-th feature label, of the performances to the c-th algorithm label. Each processed feature value is computed from its own column over the instances with data, each verdict from the instance's own performances; without bounding and normalisation the features are the metadata's, and without normalisation the performances are the metadata's or, with relative performance, the distance from the instance's best. The raw features are the metadata's; so are the raw performances, except that with relative performance every zero among them has become machine epsilon. The labels alone are those of all instances with data, selected or not. The instances with data are those with a value of a requested feature and of a requested algorithm, the features considered those requested that fewer than 20 % of these lack; with every kind of selection switched off PRELIM selects all of them.",
  "all metadata tables, all options, all outcomes of the libraries used",
  "all tables and runs of seven stages",
  [IS+":InstanceSpace.build", PP+":PreprocessingStage._run", PR+":PrelimStage._run", SI+":SiftedStage._run", PI+":PilotStage.pilot", PY+":PythiaStage.pythia"])
p("The uniformity reported for the retained instances",
  "The uniformity do_filter computes for the retained instances is 1 minus the ratio of the (corrected) standard deviation and the mean of their nearest-neighbour distances. With n instances it is between 1 - sqrt(n) and 1, and 1 exactly if all nearest-neighbour distances are equal; scaling all features alike and shifting them does not change it. It is undefined exactly if fewer than two instances are retained or each coincides with another, and whenever a feature value is missing. After purifying by features alone it is defined as soon as two instances are left. The flags returned are those of the purifier.",
  "all sets of retained instances, with and without missing values; all scales and shifts; all data and thresholds of the purifier",
  "statistics of a finite number of examples cannot show bounds or invariance for all data",
  [FI+":compute_uniformity", FI+":do_filter"])
p("Saving survives being cut off, but not a second model",
  "If save_to_csv is cut off at any moment (inside a file, by an exception or by the end of the process) and called again, the directory ends up exactly as after one complete call, whichever summaries of the model had been renamed by then; likewise save_for_web. If the algorithms have different labels, a cut damages at most one file: each of the others is as before or complete. But saving a model where an earlier one was saved leaves the earlier one's footprint files for algorithms that have no footprint now, so a directory can show two models at once.",
  "all models, directories, sets of writable files and crash points, including torn writes",
  "crash points between and inside all file operations cannot be enumerated by tests",
  [SE+":save_instance_space_to_csv", SE+":save_instance_space_for_web"])
p("Boundary and footprints of the whole pipeline come from the metadata's own instances",
  "If the default pipeline completes, every retained instance lies, with its own coordinates, within the boundary that CLOISTER reports (if that is not empty and neither the processed features nor the projection have missing values). Without use_sim and with an absolute threshold, TRACE's space is built from all retained instances, the good footprint of an algorithm from exactly the retained instances on which the metadata say that algorithm meets the threshold, and the hard region from exactly those on which at most beta_threshold of the algorithms do. With use_sim the good footprints are built from PYTHIA's predictions for these instances, the best ones from its selection, instances for which nothing is predicted good counting for the first algorithm. But without use_sim the best footprint reported for an algorithm is that of the algorithm before it, the first one's being empty.",
  "all metadata tables, options, outcomes of the libraries used and orders in which TRACE's workers finish",
  "all tables, runs and schedules of nine stages",
  [IS+":InstanceSpace.build", CL+":CloisterStage.cloister", TR+":TraceStage._run", TR+":TraceStage.trace", PR+":PrelimStage.prelim"])
p("What the plots show",
  "For a model whose arrays fit, save_graphs returns and writes exactly its files; if no two have the same name, each shows what its name says: the feature and performance plots all instances coloured by the scaled values of that column; the binary plots, the beta plot and the footprint plots every instance exactly once, under GOOD or BAD by its own flag (measured or, for footprints with use_sim, predicted); the plot of sources every instance once, under its own source; the portfolio plots the groups of C99. The footprint plot of an algorithm fills the exterior rings of its good footprint if some instance is good. But holes of a footprint are filled as well, and every plot shows only the square from -5 to 5, so an instance beyond it appears on none. For any model, if save_graphs returns then every feature and algorithm has its label and its plots; without the folder it raises and writes nothing.",
  "all models, directories and settings of use_sim",
  "all models; images are not compared by tests",
  [SE+":save_instance_space_graphs", SE+":_draw_sources", SE+":_draw_scatter", SE+":_draw_good_bad_footprint", SE+":_draw_footprint", SE+":_draw_binary_performance", SE+":_draw_portfolio_selections", SE+":_draw_portfolio_footprint"])
p("Options made in the program and options read from a file agree",
  "Calling InstanceSpaceOptions.default with sections made by the default() methods of the option classes, fields given by keyword, gives the options that a file with the same contents gives; None for a section, and a field that is not given, mean the same defaults as leaving them out of the file. default accepts every field but the params of PYTHIA, which only a file can set. InstanceSpaceOptions.default requires all twelve sections to be passed: the call without arguments shown in the documentation of InstanceSpace raises TypeError.",
  "every combination of given sections and fields with any JSON values",
  "Tests compare a few combinations; the agreement must hold for every one.",
  [OP+":InstanceSpaceOptions.default", OP+":InstanceSpaceOptions.from_dict", OP+":PythiaOptions.default", IS+":InstanceSpace"])
p("Using an InstanceSpace step by step",
  "In every history of calls on an InstanceSpace, a value a stage is given is the one of its metadata and options, one passed to run_stage for that stage, or one an earlier execution returned under that name. While only run_stage has been called, nothing of the metadata is used: everything must be passed. The keyword arguments of run_until_stage, documented as overriding the inputs of stages, never have any effect.",
  "every pipeline, every sequence of build, model, run_stage, run_until_stage, run_iter and next calls with any arguments",
  "Tests run a few sequences; the origin of values must be right after every history.",
  [IS+":InstanceSpace.run_stage", IS+":InstanceSpace.run_until_stage", IS+":InstanceSpace.run_iter", SR+":StageRunner.run_stage"])
p("Which completed runs can be saved, and what the files then show",
  "After a run of the default pipeline that completes with at least one instance, save_to_csv and save_for_web return exactly if PRELIM dropped no instance, SIFTED dropped no feature, all files can be written and, for the CSV files, CLOISTER found a boundary (for the web, there is an algorithm); otherwise they raise, because the model keeps the labels of the dropped instances and the indices of the dropped features, and an empty boundary has no columns. If save_to_csv returns, the raw feature and performance files show the metadata, every value under its own instance and column name (machine epsilon for a zero performance if performance is relative), and with an absolute threshold algorithm_bin.csv says True exactly where the metadata say so and portfolio.csv numbers the first best algorithm from 1; the other files of arrays show the run's coordinates, boundaries, processed data and predictions entry for entry, and footprint_performance.csv has one row for each algorithm with the areas and densities of its good and best footprint relative to the whole space, and their purities; with different algorithm names every polygon of a footprint is in a file of its own, named after the algorithm. save_graphs always returns; with an absolute threshold and different names the binary plots show each retained instance under GOOD exactly if the metadata say that algorithm is good on it, the plot of sources shows it under its own source, and the portfolio plot under its best algorithm, unless that is the last one: then it is missing.",
  "all metadata tables, options, outcomes of the libraries used, orders in which TRACE's workers finish, directories and sets of writable files",
  "all tables and runs of nine stages followed by three savers; the tests save one fixed model made without running the pipeline",
  [MD+":Model.from_stage_runner_output", MD+":Model.save_to_csv", MD+":Model.save_for_web", MD+":Model.save_graphs", IS+":InstanceSpace.build", MO+":Data.from_stage_runner_output"])
p("Values keep their names through the stages",
  "For every stage from PRELIM to TRACE and all inputs: what the computation of the stage is given under a name is the stage's input of that name, and what the stage returns under a name is the computation's result of that name, although they are passed on by position. What a stage does not compute comes out as it went in (SIFTED's performance values, labels and sources; PRELIM's raw values before its filter). The exceptions: PRELIM returns the labels of the retained instances as instlabels, not as inst_labels; PILOT returns alpha as float16 when it has computed it; PYTHIA works on the raw performance, and its summary is given the accuracies as precisions and the precisions as accuracies; TRACE takes PYTHIA's y_hat and selection0 for y_bin and p exactly if use_sim is set.",
  "all values of the inputs and all results of the computations",
  "Values of the same type in swapped positions pass type checks and most numeric tests; the correspondence must hold for all values.",
  [PR+":PrelimStage._run", PR+":PrelimStage.prelim", SI+":SiftedStage._run", SI+":SiftedStage.sifted", PI+":PilotStage._run", CL+":CloisterStage._run", PY+":PythiaStage._run", PY+":PythiaStage.pythia", TR+":TraceStage._run", TR+":TraceStage.trace"])
p("TRACE's clusters depend on position and scale of the instance space in no way, but on its orientation",
  "In exact arithmetic, TRACE groups the instances of a footprint with a radius whose disc has the share k/m of the area of the upright rectangle around the m different instances, where k is a twentieth of the number of instances, rounded up and kept between 3 and 50. Hence moving, stretching (both coordinates by one factor), mirroring or exchanging the coordinates changes no cluster. Turning the instance space can: instances that share a coordinate form no cluster, however many there are, and the same instances turned do. A cluster needs more than k different instances, so exactly three different instances, or many copies of a few, give no footprint although they pass the check for enough instances.",
  "all sets of points in the plane with real coordinates, all numbers of good instances, all translations, factors, mirrorings and turns; for the footprints all geometry libraries, instances and purities",
  "Invariance under every similarity is a statement about infinitely many pairs of runs; a test compares a few and rounding hides the boundary cases.",
  [f"{TR}:TraceStage.epsilon", f"{TR}:TraceStage.run_dbscan", f"{TR}:TraceStage.dbscan", f"{TR}:TraceStage.build"])
p("Loosening an option acts in one direction, with known exceptions",
  "On the same data: a larger epsilon makes no good performance bad (in relative mode and for minimised performances; with an absolute threshold on maximised performances, a smaller one), a larger beta threshold makes no hard instance easy, a lower correlation threshold loses none of SIFTED's correlated features, a higher purity gives every footprint a region contained in that of the lower purity, and a lower correlation threshold with a higher significance level gives a correlated boundary inside the other, as long as the hull of the remaining corners can be computed. Not in one direction: a larger min_distance can retain more instances, a lower correlation threshold can leave SIFTED with fewer features (a fourth one starts the clustering), and CLOISTER's correlated boundary grows to the plain one when too few corners remain.",
  "all pairs of options, all performances incl. missing values, all correlations, all instance spaces, purities, and geometry libraries with exact union and difference; all hull routines for the boundary",
  "Monotonicity relates two runs for every pair of values of an option on every data set; tests fix a few values, and the exceptions need particular data.",
  [f"{PR}:PrelimStage._prelim", f"{SI}:SiftedStage.select_features_by_performance", f"{SI}:SiftedStage._sifted", f"{FI}:filter_instance", f"{CL}:CloisterStage.cloister", f"{CL}:CloisterStage._generate_boundaries", f"{TR}:TraceStage.build", f"{TR}:TraceStage.fit_poly"])
p("PYTHIA: what the model of an algorithm depends on",
  "Without weights, the predictions, probabilities, hyper-parameters, scores and confusion counts of an algorithm depend on its own measured labels and on its position among the algorithms only: the performances, the other algorithms and how many there are make no difference. So adding an algorithm as the last one changes nothing said about the others, and where it is not predicted good, no selection0. With given hyper-parameters the position does not matter either; without, it does: exchanging two algorithms does not exchange their models. With weights, the performances of all algorithms enter each model.",
  "all pairs of runs on the same instance space, all trainings (deterministic functions of coordinates, labels, weights and candidate values), all label matrices",
  "Independence relates every pair of runs; a test can compare two.",
  [f"{PY}:PythiaStage.pythia", f"{PY}:PythiaStage._generate_params", f"{PY}:PythiaStage._determine_selections"])
p("What SIFTED reports beside the selection belongs to the features before the selection",
  "When a SIFTED run completes: (a) correlations and p-values are reported iff more than three features were given, one row per given feature and one column per algorithm; the reported coefficient is Pearson's coefficient of the instances where both values are known, with undefined or insignificant (p > 0.05) coefficients set to zero, and the reported p-value is unchanged; (b) silhouette scores and cluster memberships are reported iff the features were clustered; there is a score for every number of clusters from 2 to one less than the number of features selected by correlation; (c) the membership table has one row for each feature selected by correlation, which is more rows than there are returned features, and every row has exactly one mark; (d) the score reported for the number of clusters asked for is not necessarily the score of the clusters reported, since they are computed again with another random number.",
  "all feature and performance tables, thresholds and cluster numbers, and all behaviours of pearsonr, argsort, KMeans, silhouette_score, the genetic algorithm and the random generator",
  "A test compares the reported tables for one data set; that every entry is about the right feature, and which clustering a score belongs to, depends on how many features survive each step.",
  [SI+":SiftedOutput", SI+":SiftedStage._sifted", SI+":SiftedStage.select_features_by_performance", SI+":SiftedStage.evaluate_cluster", SI+":SiftedStage._find_best_combination"])
p("The order of the instances in the metadata",
  "Reordering the rows of the metadata reorders the results and changes nothing else: PREPROCESSING keeps the same instances, features and algorithms (or fails in both cases); PRELIM gives every instance the same processed features and performances, the same good-performance flags, best algorithm, best performance, number of good algorithms and beta mark, wherever the instance stands, provided the fitted transformation does not depend on the order; SIFTED, if it need not cluster, keeps the same features. The exception is the selection of instances by density, which depends on the order.",
  "all metadata, all permutations of its instances, all options of PRELIM, all transformations that do not depend on the order of the values, all correlation functions with this property",
  "A test tries some permutations of one data set; that medians, quartiles, minima, missing-value counts and per-instance verdicts never depend on the position has to hold for all of them.",
  [PP+":PreprocessingStage._run", PR+":PrelimStage._prelim", PR+":PrelimStage._bound", PR+":PrelimStage._normalise", SI+":SiftedStage._sifted", FI+":filter_instance"])
p("Saving: the output methods called one after the other",
  "The output methods of a built model (tables, web files, plots, MATLAB file) may be called on one directory in any order and any number of times: if each returns when called alone none raises, every file a method would produce alone is there with the same contents, and every other file is as it was. The program raises exactly if one of its methods raises when called alone; then it stops at the first such method, what the methods before it produced is there all the same, and files with names of other methods are as they were. Programs calling the same methods leave the same files, and the archive made afterwards gives every one of them back. Without the directory the first call raises and writes nothing, except save_to_mat, which always returns, whether or not it wrote its file.",
  "every sequence of calls, model, initial directory, set of files the operating system refuses, and order in which the directory is walked",
  "A test calls the methods in one order on one model; that no sequence lets one method overwrite another's files, whatever the labels of the algorithms and features, is a statement about all histories.",
  [MD+":Model.save_to_csv", MD+":Model.save_for_web", MD+":Model.save_graphs", MD+":Model.save_to_mat", MD+":Model.save_zip", SE+":save_instance_space_output_mat"])
p("PRELIM: unit and direction of the performance measure",
  "With relative performance, multiplying all performances of an instance by a positive number changes neither which algorithms are good, how many, which is best, nor the scaled performances, provided none of them is 0 (a 0 is replaced by machine epsilon, and then the unit does matter). With absolute performance the same holds if the threshold is multiplied too. With absolute performance a reward and its negative to be minimised give the same; with relative performance they do not, but a positive reward and its reciprocal to be minimised do, for a threshold below 1. With absolute performance only the order of the performances and the threshold matters, whatever the scale (logarithms, ranks); with relative performance the order does not suffice.",
  "every row of performances, missing ones included, every positive factor, threshold and direction",
  "Milliseconds or seconds, speed or time: a test checks one table in one unit, while the invariance is over all tables and all factors.",
  [PR+":PrelimStage._prelim", PR+":PrelimStage._select_best_algorithms"])
p("PRELIM treats the algorithms alike whatever order they are listed in",
  "For every instance, listing its algorithms in another order gives each algorithm the same good/bad mark and (as a number) the same relative performance, and the instance the same best performance, number of good algorithms and easy/hard mark. The algorithm reported as best is then the same one whenever a single algorithm is best and, for relative performances that are minimised, its cost is not 0; with a tie it is the one listed first, so the order decides. Adding one more algorithm that does not beat every other leaves the marks and relative performances of the others and the best performance unchanged, and (unless relative costs are minimised and one is 0) also which algorithm is reported as best, although an easy instance can become a hard one. With a best relative cost of 0, adding an algorithm that is worse can change which algorithm is reported as best.",
  "every instance with any number of algorithms and missing performances, every permutation of the algorithms, every added algorithm, all four combinations of the direction and relative/absolute options, every threshold",
  "A test compares a few orders of a few algorithms; the claim is about every permutation of every row, with ties, zeros and missing values.",
  [PR+":PrelimStage._prelim", PR+":PrelimStage._select_best_algorithms"])
p("Purifier: order, zero points and units of the columns",
  "Which instances the purifier excludes or flags does not change if the features or the algorithms are listed in another order, if features or performances are measured from other zero points, or if features, performances and the minimal distance are all given in another unit. With the types Ftr and Ftr&Good it does not change either if a feature is added that is the same for all instances; with Ftr&AP and Ftr&AP&Good it can, because the performance threshold shrinks with the number of features. With the type Ftr performances do not matter at all.",
  "every table of features and performances, missing values included, every permutation of columns, every offset per column, every positive factor, every minimal distance and type",
  "A test permutes or rescales one table; the invariance is over all tables, permutations, offsets and factors.",
  [FI+":filter_instance", FI+":_FilterType"])
p("PRELIM: the scale of a feature",
  "Bounding commutes with every change of scale v -> a*v+b with a not 0: the bounded values and the reported median change with the scale, the interquartile range with the unit, and the two bounds change with the scale (and change places if a is negative). Bounding a bounded feature changes nothing. With two instances bounding makes every feature constant, and a value that more than three quarters of the instances have replaces the values of all the others. The zero point of a feature shows in the reported minimum and in none of the normalised values, lambda, mean and deviation; the same for performances that are all measured from another zero point. The unit does show in the normalised values, because 1 is added whatever the unit.",
  "every column of a feature with or without missing values, every scale, every estimate of the Box-Cox parameter",
  "Celsius or Fahrenheit, metres or miles: a test checks one column on one scale.",
  [PR+":PrelimStage._bound", PR+":PrelimStage._normalise"])
p("What CLOISTER's boundaries depend on",
  "With the same projection, adding instances never shrinks the region of the plain boundary. Neither boundary's region depends on the order of the instances or, if the projection is reordered alike, on the order of the features; nor on the units of the features, if the projection is adapted to them. Measuring the features from other zero points moves the plain boundary exactly as it moves the projections of the instances. The correlated boundary, however, compares signs, so it depends on the zero points: with the same correlations it can exclude an instance and, measured from another zero point, enclose it.",
  "every feature matrix without missing values, every finite projection matrix, every order of instances and features, every positive change of units, every change of zero points, every convex hull routine that returns positions of points enclosing all the points, and every correlation coefficient with the invariance at issue",
  "Tests compare the boundary points of one data set with stored values; independence of order, unit and zero point relates infinitely many pairs of data sets.",
  [CL+":CloisterStage.cloister", CL+":CloisterStage._compute_correlation", CL+":CloisterStage._generate_boundaries", CL+":CloisterStage._compute_convex_hull"])
p("What the map of the analytic projection depends on",
  "With analytic PILOT, the distances of the instances in the map and the error are determined by the data alone when the second and third largest eigenvalues of the scatter matrix of features and performances differ in modulus: whatever orthonormal eigenvectors the routine returns, in whatever order, the maps differ by a rotation or reflection only. They do not depend on the order in which instances, features or algorithms are listed. Expressing all features and performances in a common other unit expresses the map in that unit, and listing every instance twice puts each copy on its original and doubles the error. When those two eigenvalues are equal, the map depends on which eigenvectors the routine happens to return: two instances apart under one choice coincide under another. The unit of the performances alone does matter: changing it can move instances that were apart onto one point.",
  "all feature and performance matrices over an ordered field with exact arithmetic, all orders of instances, features and algorithms, all decompositions the eigenvalue routine may return, all units",
  "a test fixes one data set in one order and one eigenvalue routine; the claim compares all orders and all decompositions",
  [PI+":PilotStage.analytic_solve", PI+":PilotStage.pilot"])
p("What SIFTED's selection depends on",
  "When the selected features need no clustering, SIFTED's output is the same whatever the order in which the algorithms are listed, and which features it selects does not depend on the units or zero points in which features and performances are measured (if the correlation coefficient does not). Adding algorithms never loses a selected feature. But measuring a feature in the opposite direction can drop it, because the signed correlation is compared with the threshold, and listing the features in another order can select other features, because the test of a rank looks at the correlation of the feature whose number is the rank.",
  "all feature and performance tables with or without missing values, all orders and subsets of the algorithms, all positive changes of units and all changes of zero points, every correlation coefficient and every ranking of a column of correlations, all thresholds and numbers of clusters that lead to no clustering",
  "a test compares the selection for one table with a stored one; independence of order, units and zero points compares infinitely many pairs of tables",
  [SI+":SiftedStage.select_features_by_performance", SI+":SiftedStage._compute_correlation", SI+":SiftedStage._sifted"])
p("PYTHIA: what the selection of algorithms depends on",
  "Which algorithms are selected is determined by the measured good/bad labels and the models' predictions: performances, weights, hyper-parameters, labels and training matter only through these. Listing the algorithms in another order selects the same algorithm for every instance for which one candidate (predicted good, positive precision) is more precise than all others, and for an instance without a candidate selection1 is the same algorithm if one algorithm is good more often than all others. With equally precise candidates the one listed first is selected, so the order decides; and without a candidate selection0 names whichever algorithm is listed first.",
  "all completed runs of PYTHIA with at least two algorithms, any training that returns one prediction per instance, all permutations of the algorithms, all instances",
  "a test fixes one order of the algorithms and one set of models; the claim compares all pairs of runs",
  [PY+":PythiaStage._determine_selections", PY+":PythiaStage.pythia"])
p("TRACE: what the footprints of an algorithm depend on",
  "In two runs on the same map with the same purity, an algorithm that is good for the same instances has the same good footprint and one that is best for the same instances has the same best footprint and, if both, the same numbers in the summary, whatever the other algorithms are, how many there are and where it is listed; the footprint of the whole space is the same too. Listing the algorithms in another order (with the best algorithms named by their new positions from 0) completes as well and lists the same footprints and summary rows in that order. But with measured performances the stage is given positions from 1, and then which instances make up an algorithm's best footprint depends on the order in which the algorithms are listed.",
  "all maps, flags, best algorithms, labels, numbers of workers and completion orders, all permutations of the algorithms, every geometry library with the stated facts about difference, intersection and the empty region",
  "a test compares footprints for one list of algorithms; independence of the others ranges over all sets and orders of algorithms",
  [TR+":TraceStage._trace", TR+":TraceStage.process_algorithm", TR+":TraceStage.compute_algorithm_qualities"])
p("TRACE: moving and stretching the map",
  "Adding the same vector to the coordinates of every instance changes nothing in the result of TRACE except that the polygons are moved by that vector: all areas, counts, densities and purities, the summary table, and the error if there is one, are the same (for shapely operations that commute with translations). A polygon measured on a map stretched by a factor c has c squared times the area, the density divided by c squared, the same counts and purity, and the same area and density relative to the space.",
  "all maps, vectors and stretching factors, all flags, selections, labels, numbers of cores and completion orders of the workers, both settings of use_sim",
  "a test compares finitely many maps and vectors",
  [TR+":TraceStage._run", TR+":TraceStage._trace", TR+":TraceStage.build", TR+":TraceStage.contra", TR+":TraceStage.tight", TR+":TraceStage.dbscan", TR+":TraceStage.summary", MO+":Footprint.from_polygon"])
p("PREPROCESSING: preparing data that are prepared",
"Selecting the requested features or algorithms a second time changes nothing (also if several columns carry the same name), and the selection depends on the set of names requested, not on their order or repetition. After the removal of missing values every instance has at least one performance value, but not necessarily a feature value, because features are removed after the instances: the removal, applied to its own result, changes nothing exactly if every instance handed on has a feature value. That is the case whenever no feature was removed.",
"all tables, labels, names requested and patterns of missing values",
"The instance without features appears only if its values are all in features that too many others lack; a test of the removal on one table does not apply it again.",
[PP+":PreprocessingStage.select_features_and_algorithms", PP+":PreprocessingStage.remove_instances_with_many_missing_values"])
p("A stage of the user's own beside the default stages",
"A plugin that returns something, under names of its own, and reads what the default stages return or what they are given (under the same annotations) can always be added: the build succeeds, the plugin is run, and the default stages keep their groups. The run then produces the same values for every other name, and the same Model, as without the plugin, unless the plugin itself raises, in which case the whole build fails. The plugin runs after every stage that returns something it reads and is thus given the final values, with one exception: if all it reads are labels of instances, features or algorithms and inputs of the pipeline, it runs before SIFTED, and is given the labels of instances and features from before SIFTED's selection. The first two facts hold of every pipeline, not only the default one.",
"all plugins with such declarations, all orders of adding the stages and of iterating over sets, all behaviours of the stages (for the comparison: deterministic ones), all inputs and all earlier calls of the runner",
"A test uses one plugin; that no plugin of this kind can disturb the pipeline ranges over all declarations and behaviours, and which value it is given depends on the schedule the builder derives from the declarations.",
[SB+":StageBuilder.build", SB+":StageBuilder.add_stage", SR+":StageRunner.run_all", IS+":InstanceSpace.build", MD+":Model.from_stage_runner_output", "example_plugin.py:ExamplePlugin"])
p("PREPROCESSING: which columns of the metadata matter",
"If the names are distinct, listing features and algorithms in another order hands on the same instances and the same named columns, in the other order. If features and algorithms are requested by name and at least one of each exists, columns that are not requested have no influence at all, not even through their missing values. With nothing requested, further features or algorithms never lose an instance; but they can lose another feature, because an instance that comes back adds its gaps. Of two columns with one requested name the one listed first is used twice, so their order matters.",
"all tables, names, labels, sources, requests, orders of columns and further columns",
"A test fixes one table; independence of the order and of the other columns compares all pairs of tables with the same columns.",
[PP+":PreprocessingStage._run", PP+":PreprocessingStage.select_features_and_algorithms", PP+":PreprocessingStage.remove_instances_with_many_missing_values"])
p("CLOISTER: when there is a boundary",
  "Assuming that the convex hull routine fails exactly on points that are all on one line: CLOISTER reports a plain boundary exactly if two features that differ between instances are projected in different directions (their columns of the projection matrix are linearly independent); in particular never with a single feature, however much the instances differ. The boundary of the correlated features is empty exactly if the plain one is; if the corners that agree with the correlations are projected onto one line, the plain boundary is reported in its place. Neither case raises, but save_to_csv after a run without a boundary does: it can return only if there are two such features.",
  "all feature matrices without missing values, projections, correlations, thresholds, hull routines as assumed; all runs of the pipeline",
  "all geometries of the projected box; degenerate data do not occur in the test data",
  [CL+":CloisterStage.cloister", CL+":CloisterStage._compute_convex_hull", CL+":CloisterStage._generate_boundaries", SE+":save_instance_space_to_csv"])
p("Files: the tables of PILOT and PYTHIA after a run",
  "After build and save_to_csv, projection_matrix.csv has the column Row and one column for each selected feature, under its name in the metadata, and the two rows Z_{1} and Z_{2}; every row of coordinates.csv is the corresponding row of feature_process.csv weighted with them. svm_table.csv has one row for each algorithm, under its name in the metadata and in the order of the other files, then Oracle and Selector. An algorithm's row holds mean and standard deviation of its column of algorithm_raw.csv over all instances and over those that algorithm_svm.csv predicts it good for, the share of instances algorithm_bin.csv marks good, and precision, accuracy and recall of algorithm_svm.csv against algorithm_bin.csv, where the precision is in the column CV_model_accuracy and the accuracy in CV_model_precision. Oracle describes the best performances. Selector describes the algorithm listed before the selected one. Values that do not exist are empty texts.",
  "all metadata, options, runs of the pipeline that complete and are saved, behaviours of the numerical libraries",
  "agreement of several files for every possible run; a test compares the files of one run with stored ones",
  [PI+":PilotStage.pilot", PY+":PythiaStage._generate_summary", PY+":PythiaStage.pythia", SE+":save_instance_space_to_csv", MD+":Model.save_to_csv"])
p("From the metadata file to the files written",
  "For a metadata file with different column names, one column called Instances and other than one row, and an options file that loads: if the run completes with at least one instance and save_to_csv returns, then feature_raw.csv shows, cell for cell and in the order of the metadata file, the rows with a number in some feature column asked for and in some algorithm column asked for, beside the text of their cell of the column Instances, and the feature columns asked for of which fewer than 20 % of these rows lack the value, under their names (asked for: listed in selvars.feats or selvars.algos, or all if nothing that exists is listed). If perf.abs_perf is true, algorithm_raw.csv likewise shows exactly the cells of the algorithm columns asked for; an entry of algorithm_bin.csv is true iff that cell is a number that meets perf.epsilon in the direction perf.max_perf of the options file; and portfolio.csv names, counting from 1, the first algorithm column with the best number in that row. Changing auto.preproc, sifted.flag, sifted.n_trees or outputs.csv, outputs.web, outputs.png in the options file changes nothing about the run; every other option reaches the stage or the library that it belongs to as the file gives it.",
  "every metadata file, every options file, every run and every result of the libraries",
  "a test compares the files written for a few inputs; this relates every cell written to the cell it was read from, through reading, seven stages and saving",
  [ME+":Metadata.from_data_frame", IS+":instance_space_from_files", IS+":InstanceSpace.build", SE+":save_instance_space_to_csv", OP+":InstanceSpaceOptions"])
p("Which options act on which results",
  "For two completed runs on the same metadata file: if the options agree in the sections perf, bound, norm, selvars, sifted and parallel, the data of the Model, the names of features and algorithms and the selected features are the same; if they agree in pilot too, so is the projection; then the boundaries are determined by cloister, the results of PYTHIA by pythia, and the footprints by trace and pythia - by trace alone if use_sim is off. An error of the stages before PYTHIA depends on those sections only in the same way. perf.beta_threshold acts on beta and the footprint of the hard instances and on nothing else. selvars.small_scale, file_idx, min_distance and selvars_type have no effect while the flag of their selection is off. The section parallel and the order in which the workers of TRACE finish change nothing at all, provided the genetic algorithm and the SVM search return the same whatever they are told about parallel execution.",
  "all metadata files, all pairs of options files, all behaviours of the libraries, all orders of completion",
  "a test compares a few pairs of options files; the claim is about every pair, every table and every schedule of the workers",
  [IS+":InstanceSpace.build", OP+":InstanceSpaceOptions.from_dict", PR+":PrelimStage._filter", TR+":TraceStage._run"])
with open("/verif/properties.jsonl", "w") as f:
    for x in P:
        f.write(json.dumps(x) + "\n")
print(len(P))
