"""Write DESIGN.md: the fixed text below, and tables generated from the development.
Needs a built development (Print Assumptions is run for every property theorem)."""
import glob, json, os, re, subprocess, sys
sys.path.insert(0, "/verif/tools")
import coverage

T = "/verif/rocq/theories"
props = [json.loads(l) for l in open("/verif/properties.jsonl")]
claims = {c["property"]: c for c in json.load(open("/verif/MANIFEST.json"))["claims"]}

# ---- where the theorems are
where = {}
for f in sorted(glob.glob(T + "/*Props*.v")):
    for m in re.finditer(r"^ *Theorem ((C\d+)_\w+)", open(f).read(), re.M):
        where[m.group(1)] = os.path.basename(f)

# ---- Print Assumptions
def assumptions():
    mods = sorted({where[t][:-2] for t in where})
    src = "".join(f"From Verif Require {m}.\n" for m in mods)
    names = sorted(where, key=lambda t: (int(re.match(r"C(\d+)", t).group(1)), t))
    for t in names:
        src += f'Goal True. idtac "@@{t}". Abort.\nPrint Assumptions {where[t][:-2]}.{t}.\n'
    os.makedirs("/tmp/design", exist_ok=True)
    open("/tmp/design/A.v", "w").write(src)
    out = subprocess.run(["coqc", "-q", "-Q", T, "Verif", "/tmp/design/A.v"], capture_output=True, text=True, cwd="/tmp/design")
    assert out.returncode == 0, out.stderr[:2000]
    res = {}
    for part in out.stdout.split("@@")[1:]:
        name, _, rest = part.partition("\n")
        res[name.strip()] = [] if "Closed under" in rest else re.findall(r"^([A-Z]\w*(?:\.\w+)+)", rest, re.M)
    return names, res

# ---- how each part is modelled and proved, by file of property theorems
PART = {
"BuilderProps.v": ("StageBuilder and the StageRunner constructor. A stage is a class with (name, type) inputs and outputs; sets are lists with set semantics, and the iteration order of every Python set is an oracle that may return any permutation.",
  "Induction over the resolution rounds with a schedule invariant; simulation between two iteration orders (C03); refutations by evaluated witnesses."),
"RunnerProps.v": ("StageRunner as a state machine over a heap of dictionaries, so that aliasing is visible: run_all, run_until_stage, run_stage and any number of interleaved run_iter generators; stages are arbitrary functions that may raise; InstanceSpace on top.",
  "Invariants over all sequences of operations; refinement to a fold over the schedule."),
"SavedProps.v": ("The Model object that a completed run of the default pipeline leaves, given to the savers.", "The shapes of all its arrays from C112 and C89, then C93, C94, C96 and C116 for the files."),
"RadiusProps.v": ("TRACE's estimate of the neighbourhood radius and the clustering with it, over the reals.", "The radius in closed form; the clustering asks only which rows are near; witnesses with bounds on pi."),
"MonoProps.v": ("No new definitions: PRELIM's marks, the purifier, SIFTED's selection, CLOISTER and TRACE's footprints.", "Each mark or inclusion is a comparison with the option; for footprints, induction over the triangles removed and the clusters; witnesses for the exceptions."),
"PythiaSepProps.v": ("No new definitions: PYTHIA as in PythiaProps.v.", "Inversion of a completed run: which training each column of the output comes from; the selections are determined by the candidates."),
"SiftedOutProps.v": ("The run of SIFTED with everything it reports: correlations, p-values, silhouette scores and the clusters, and the random numbers drawn for each library call (SiftedOutModel.v).", "Inversion of a completed run; counting the features a chromosome decodes to; a witness for the score that is not of the reported clusters."),
"InstOrderProps.v": ("No new definitions of code: PREPROCESSING, PRELIM and SIFTED on a list of instances.", "Sorting, minimum and counting respect permutations; each result is a function of the instance and of such aggregates."),
"OutputsProps.v": ("The four output methods called one after the other on one directory, and the archive of it (OutputsModel.v); the calls each makes are those of SerialModel.v and DrawModel.v.", "Induction over the sequence of calls; the names of the files of two methods differ by their endings or by inspection."),
"UnitsProps.v": ("No new definitions of code: PRELIM on an instance whose performances are multiplied, negated or inverted.", "The search for the best commutes with maps that respect the order; quotients cancel the factor; witnesses for 0 and for negative costs."),
"AlgOrderProps.v": ("No new definitions of code: PRELIM on an instance whose algorithms are listed in another order, and with one more algorithm.", "The best value of a row depends only on which values it has; marks and relative performances are maps over the row given the best value; witnesses for ties and for a best cost of 0."),
"InvarProps.v": ("No new definitions of code: the purifier on tables whose columns are permuted, shifted, rescaled or extended.", "Squared distances are sums over the columns, so permuting, shifting and rescaling act on them in a known way; the loops depend on the tables through the comparisons only."),
"ScaleProps.v": ("No new definitions of code: PRELIM's bounding and normalisation of a feature on another scale.", "Sorting commutes with monotone maps and reverses under antitone ones; the order statistics of a column lie within its bounds."),
"ScaleRProps.v": ("No new definitions of code: PRELIM's Box-Cox transformation over the reals (PrelimZModel.v) on another scale.", "The minimum shifts with the data; a witness with the parameter 2 for the unit."),
"CloInvProps.v": ("No new definitions of code: CLOISTER on data in another order, unit or zero point.", "The corners of the two boxes correspond, their projections are equal points and they contradict the correlations alike; a convex hull depends on the set of points only."),
"PilotInvProps.v": ("No new definitions of code: the analytic solution of PilotMxModel.v for data whose rows and columns are moved by orthogonal matrices (or a multiple of one).", "The scatter matrix of the moved data is conjugate to that of the original, so its decompositions correspond. For two decompositions of one matrix the product of their bases is orthogonal and has no entry between different eigenvalues; with the gap, counting rows shows that the two chosen columns stay in the plane, so the bases differ by an orthogonal 2 by 2 matrix."),
    "SiftInvProps.v": ("No new definitions of code: SIFTED of SiftedModel.v on tables with reordered, dropped, rescaled or reversed columns; the ranking is a function of a column of correlations.", "Membership in the selection is characterised column by column; an increasing list is determined by its members. The refutations run the model with the sign of the covariance as coefficient and a stable sort as ranking, both proved to meet the hypotheses."),
"SelectProps.v": ("No new definitions of code: two runs of PYTHIA (PythiaModel.v) whose labels and predictions correspond under a permutation of the algorithms.", "Precision is a ratio of counts (C78), so it moves with the columns; candidates correspond, and a strict maximum is found in either order by C48 and C49."),
"TraceAlgProps.v": ("No new definitions of code: two runs of TRACE (TraceModel.v) on one map.", "By C89 each footprint is built from its own flags; the test for contradictions is symmetric if intersection is. The refutation runs the stage with measured best algorithms on the pixel geometry of TraceProps.v."),
"TraceMoveProps.v": ("No new definitions of code: the functions of TraceModel.v.  That shapely's operations commute with a translation is a hypothesis (TraceMoveSpec.moves_along), met by the pixel geometry.", "every loop of the model is shown to commute with the translation, by induction on its list or on the rounds left"),
"RepeatProps.v": ("No new definitions of code: the functions of PreprocModel.v, applied to their own results.", "the table a first pass hands on is shown to have no column with too many gaps; what a second pass removes is then read off C36"),
"PluginProps.v": ("A stage of the user's own beside the seven default ones (README, example_plugin.py): its declarations are arguments, builder, runner and default tables are those of BuilderModel.v, RunnerModel.v and DefaultModel.v.", "a simulation between resolving with and without the plugin, composition of runs with the plugin's names ignored, and the order of the default stages found by evaluation"),
"ColumnsProps.v": ("No new definitions of code: the stage of PreprocModel.v, its tables seen as lists of named columns (ColumnsSpec.v).", "selection and removal are rewritten as operations on lists of named columns; these commute with permutations and ignore columns that are filtered out"),
"EdgeProps.v": ("No new definitions of code: CLOISTER with a hull routine that fails exactly on points of one line.", "The turn of three projected corners is a double sum over pairs of features; it vanishes for all corners iff no two varying features have independent loadings."),
"TablesProps.v": ("The summary tables of PILOT and PYTHIA as data frames, and the files made of them.", "C93 gives the rows of the files; C70, C78, C79 and C92 for a run with the arrays the pipeline hands over give their values."),
"FilesProps.v": ("instance_space_from_files, the reading of the options by the stages, the pipeline and save_to_csv in one function from files to files.", "C108 and C109 for the file that is read, C119 for the files that are written; the options are looked up field by field."),
"WiringProps.v": ("The passing of values by position and keyword from a stage's inputs to its computation and from there to its outputs; the computations are arguments.", "Evaluation of the calls for arbitrary values, inputs and computations."),
"SpaceProps.v": ("The calls of InstanceSpace, in any order, on the runner of RunnerProps.v.", "An invariant on where the values in every dictionary come from."),
"OptionsProps.v": ("InstanceSpaceOptions.from_dict, _load_dataclass, _validate_fields, the default() methods and from_json_file on insertion-ordered dictionaries; the tables of sections, fields, types and aliases are transcribed.",
  "Case analysis over key lists, permutation lemmas; str.lower is a parameter."),
"FilterProps.v": ("filter_instance, the double loop over exact rationals; distances by their squares.", "Loop invariants; strong induction on the index. C32_squares_are_distances links squares to real square roots."),
"UniProps.v": ("compute_uniformity and do_filter over Coq's reals, NaN included.", "Sums of deviations; minima of lists; C33 for the purified set."),
"PreprocProps.v": ("PreprocessingStage: selection of columns, removal of instances and features.", "List induction; a specification by index lists."),
"PrelimProps.v": ("PrelimStage: one instance's verdicts (extended rationals), bounding and normalisation of one column, instance selection, the performances returned.", "List induction, rational arithmetic; median and quartiles by an insertion sort proved sorted and a permutation."),
"PrelimZProps.v": ("Box-Cox and z-score over Coq's reals, the fitted lambda an oracle.", "Monotonicity of ln, exp and powers; sums of deviations."),
"SiftedProps.v": ("SiftedStage: correlations, selection by performance, decoding of chromosomes, the fitness, the choice of the number of clusters, the branches of the stage.", "Fold invariants; mixed-radix arithmetic for the decoder."),
"PilotProps.v": ("PilotStage's numerical solution: restarts, choice of the best, unpacking of parameters, what is reported. BFGS and pearsonr are oracles.", "List induction; algebra of sums of squares."),
"PilotMxProps.v": ("PilotStage's analytic solution over a mathcomp field (matrices), the eigenvectors an oracle with their defining equations.", "Matrix algebra: normal equations, completion of the square, change of basis."),
"CloisterProps.v": ("CloisterStage: corners as binary numbers, the correlations, removal of corners; the convex hull is an oracle with the properties of hull vertices.", "Bit arithmetic, list induction, convex combinations over Q."),
"PythiaProps.v": ("PythiaStage: weights, training loop, scores, selections; scikit-learn is the oracle fit.", "Argmax lemmas, counting lemmas."),
"PythiaSummaryProps.v": ("PythiaStage._generate_summary and the array it overwrites.", "Reading off columns of the table; nanmean over selected positions."),
"PythiaZProps.v": ("z-score and the grid of hyper-parameters over Coq's reals.", "Sums of deviations; monotonicity of Rpower."),
"TraceProps.v": ("TraceStage: futures loop, dbscan, footprint statistics; shapely's polygons and Qhull are oracles; coordinates are integers.", "Permutation invariance; graph reachability invariant for dbscan."),
"TracePipelineProps.v": ("TraceStage._trace and _run: which instances and algorithms the footprints are made of, failures, number of workers.", "Case analysis over the futures; permutation of instances."),
"TraceBuildProps.v": ("TraceStage.build, fit_poly, tight, contra.", "Case analysis over oracle results; counting of enclosed points."),
"SerialProps.v": ("save_instance_space_to_csv, the zip archive, colour scales. A file system is a list of (path, content) writes.", "List induction; rational arithmetic."),
"WebProps.v": ("save_instance_space_for_web.", "As SerialProps.v."),
"CrashProps.v": ("The calls of save_to_csv and save_for_web cut off at any point, the file being written left with arbitrary content.", "Induction over the inductive definition of a cut; last write per file."),
"PlotProps.v": ("save_instance_space_graphs and the two portfolio plots: file names, data and legend of each plot.", "Injectivity of file names, list induction."),
"ObjectProps.v": ("Arrays as objects on a heap: which stage changes which array in place, and the deep copies made by the runner.", "A heap invariant: what a stage writes is fresh."),
"DefaultProps.v": ("The seven stage classes, the Model and its parts: names and types of all inputs, outputs, constructor keywords; the builder run on them.", "Evaluation of the builder, for every iteration order by C03; the runner's theorems instantiated."),
"MetaProps.v": ("Metadata.from_data_frame, from_csv_file, instance_space_from_files and _from_directory.", "Case analysis; filter lemmas over columns."),
"PipelineProps.v": ("PRELIM, SIFTED and the serialisers composed.", "Composition of the theorems of the parts."),
"DrawProps.v": ("Every call of the plotting functions: title, groups of instances with legends, colour values, filled rings, visible square; the files written.", "Induction over the calls; groups as a partition of the instances by legend."),
"WholeProps.v": ("The stage models composed from metadata to CLOISTER and TRACE.", "Composition of C112 with C75, C38, C89, C52 and C90."),
"EndProps.v": ("The stage models composed from metadata to PYTHIA.", "Composition of C36, C40, C64 and the definitions of PILOT and PYTHIA."),
}
exec(open("/verif/tools/design_text.py").read())

def main():
    names, ass = assumptions()
    out = [HEAD]
    out.append("## 3. Plan per property\n")
    out.append("Every property is modelled in the file(s) named by the `*Props.v` file that states it (`XProps.v` imports `XModel.v`). None is left out as not expressible.\n")
    for f, (m, h) in PART.items():
        ids = sorted({t.split("_")[0] for t in where if where[t] == f}, key=lambda i: int(i[1:]))
        if not ids: continue
        out.append(f"* **{f}** ({', '.join(ids)}). *Modelled:* {m} *Proved by:* {h}")
    missing = {w for w in where.values()} - set(PART)
    assert not missing, missing
    out.append("\n| id | property | status | theorems |\n|----|----------|--------|----------|")
    for p in props:
        c = claims[p["id"]]
        out.append(f"| {p['id']} | {p['title']} | {c['status']} | {', '.join('`' + t + '`' for t in c['theorems'])} |")
    out.append("")
    out.append(FINDINGS)
    out.append(TRUST)
    out.append("### 5.2 Print Assumptions\n")
    by = {}
    for t in names: by.setdefault(tuple(ass[t]), []).append(t)
    for a in sorted(by, key=len):
        if not a:
            out.append(f"*Closed under the global context* ({len(by[a])} theorems): every theorem of the table in section 3 that is not listed below.\n")
        else:
            out.append("Axioms of the standard library's real numbers: " + ", ".join("`" + x + "`" for x in a) + " are used by " + ", ".join("`" + t + "`" for t in by[a]) + ".\n")
    out.append(NUMBERS)
    out.append("### 5.4 Coverage of the code\n")
    out.append("Functions and methods of `/repo/instancespace`, with the files whose definitions cite lines of them.\n")
    out.append("| function | lines | modelled in |\n|---|---|---|")
    for rel, name, lo, hi, ms, pct in coverage.table():
        if rel.startswith("scripting"): continue
        note = NOTES.get(f"{rel}:{name}") or NOTES.get(name.split(".")[-1])
        txt = ", ".join(ms)
        if note: txt = (txt + " – " if txt else "") + note
        if not txt: txt = _W
        if pct < 85 and ms: txt += f' ({pct} % of its lines)'
        out.append(f"| `{rel}` `{name}` | {lo}–{hi} | {txt} |")
    out.append("")
    out.append(TAIL)
    open("/verif/DESIGN.md", "w").write("\n".join(out) + "\n")
    print(len(names), "theorems", {k: len(v) for k, v in by.items()})
main()
