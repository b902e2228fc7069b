(** Model of /repo/instancespace/_serialisers.py and of Model.save_zip
    (/repo/instancespace/model.py).  Definitions only.

    A CSV file is its header and its rows of cells; how pandas prints a cell is not modelled.  A
    directory maps file names to contents.  Drawing is modelled by what is drawn: which instances,
    under which legend, with which values; colours, axes and sizes are left out. *)
From Coq Require Import Qround Ascii DecimalString.
From Verif Require Export Mat CloisterModel.
Set Implicit Arguments.
Open Scope nat_scope.
Open Scope list_scope.

(** what a data frame holds; [CColour None] is a NaN cast to an integer, whose value is not
    defined *)
Inductive entry := CNum (v : num) | CBool (b : bool) | CNat (n : nat) | CStr (s : string) | CColour (c : option Z).
(** column names: pandas tells the integer 0 from the text "0" *)
Inductive colname := Name (s : string) | Number (n : nat).
Record table := { header : list colname; rows : list (list entry) }.
Definition directory := string -> option table.
Definition put (n : string) (t : table) (d : directory) : directory :=
  fun m => if String.eqb m n then Some t else d m.

Inductive serr :=
| ENotDirectory    (** ValueError("output_directory isn't a directory.") *)
| EShape           (** ValueError of pd.DataFrame: shape of the data, labels *)
| EIndexing        (** IndexError of a list or an array *)
| EEmpty           (** ValueError of np.max and np.min on nothing *)
| EWrite.          (** OSError when the file cannot be opened *)

(** one call of to_csv that will be made, or the exception raised instead *)
Definition write := res serr (string * table).

(** _serialisers.py:397-406 [_write_array_to_csv]; a one-dimensional array is one column *)
Definition frame (data : list (list entry)) (column_names row_names : list string) (filename : string) : write :=
  if Nat.eqb (length data) (length row_names) && forallb (fun r => Nat.eqb (length r) (length column_names)) data
  then Ok (filename, {| header := Name "Row" :: map Name column_names;
                        rows := map (fun lr => CStr (fst lr) :: snd lr) (combine row_names data) |})
  else Err EShape.

(** the decimal numeral of a number, as in an f-string *)
Definition decimal (n : nat) : string := NilEmpty.string_of_uint (Nat.to_uint n).
(** _serialisers.py:421-424 [_make_bind_labels] *)
Definition make_bind_labels (n : nat) : list string := map (fun i => append "bnd_pnt_" (decimal (i + 1))) (seq 0 n).

(* ------------------------------------------------------------------ footprints *)
(** A shapely polygon: the coordinates of its exterior ring, first point repeated at the end,
    and those of its holes; other geometries (a GeometryCollection) have no boundary here. *)
Record polygon := { exterior : list (num * num); interiors : list (list (num * num)) }.
Inductive shape := Single (p : polygon) | Multi (l : list polygon) | Collection.
(** _serialisers.py:45-58 and 71-84: np.concatenate onto one uninitialised row, then [1:-1] *)
Definition boundary (s : shape) : list (num * num) :=
  let coords := match s with
                | Single p => exterior p
                | Multi l => concat (map exterior l)
                | Collection => []
                end in
  removelast coords.
Definition coordinates (l : list (num * num)) : list (list entry) := map (fun p => [CNum (fst p); CNum (snd p)]) l.

(** [_write_array_to_csv] of a boundary.  CLOISTER returns np.array([]) for a boundary that is not found
    (cloister.py:283, 286): an array of one dimension, which pd.DataFrame takes for one column and refuses under two
    names.  An empty boundary stands for that array; no stage makes an array of no rows and two columns here. *)
Definition bounds_frame (z : list (num * num)) (filename : string) : write :=
  match z with
  | [] => Err EShape
  | _ => frame (coordinates z) ["z_1"; "z_2"]%string (make_bind_labels (length z)) filename
  end.

(* ------------------------------------------------------------------ the model *)
(** the parts of Model used here; a footprint is given by its polygon.  [m_nalgos] is
    data.y.shape[1]. *)
Record model := {
  m_inst_labels : list string; m_feat_labels : list string; m_algo_labels : list string;
  m_x : list (list num); m_y : list (list num); m_x_raw : list (list num); m_y_raw : list (list num);
  m_nalgos : nat;
  m_y_bin : list (list bool); m_p : list nat; m_num_good_algos : list num; m_beta : list bool;
  m_s : option (list string);
  m_idx : list nat;                 (** sifted.idx, feat_sel.idx *)
  m_z : list (num * num); m_z_edge : list (num * num); m_z_ecorr : list (num * num);
  m_y_hat : list (list bool); m_selection0 : list nat;
  m_good : list (option shape); m_best : list (option shape);
  m_trace_summary : table; m_pilot_summary : table; m_pythia_summary : table }.

Definition nums (m : list (list num)) : list (list entry) := map (map CNum) m.
Definition bools (m : list (list bool)) : list (list entry) := map (map CBool) m.
Definition one {A} (f : A -> entry) (l : list A) : list (list entry) := map (fun v => [f v]) l.

(** [a[:, idx]]; IndexError if an index is out of bounds ([width] is a.shape[1]) *)
Definition take (a : list (list num)) (width : nat) (idx : list nat) : res serr (list (list num)) :=
  if forallb (fun i => Nat.ltb i width) idx then Ok (map (fun r => map (fun i => nth i r None) idx) a) else Err EIndexing.
(** a.shape[1] of an array with at least one row *)
Definition width {A} (a : list (list A)) : nat := match a with [] => 0 | r :: _ => length r end.

(** _serialisers.py:41-92: the footprints of algorithm i *)
Definition footprint_write (m : model) (fps : list (option shape)) (suffix : string) (i : nat) : list write :=
  match nth_error fps i with
  | None => [Err EIndexing]
  | Some None => []
  | Some (Some s) =>
      let b := boundary s in
      match nth_error (m_algo_labels m) i with
      | None => [Err EIndexing]
      | Some l => [frame (coordinates b) ["z_1"; "z_2"]%string (make_bind_labels (length b))
                     (append "footprint_" (append l suffix))]
      end
  end.
Definition footprint_writes (m : model) : list write :=
  flat_map (fun i => footprint_write m (m_best m) "_best.csv" i ++ footprint_write m (m_good m) "_good.csv" i)
           (seq 0 (m_nalgos m)).

(** df.iloc[:, [..]] and df.rename(columns={old: new}) *)
Definition iloc (t : table) (cols : list nat) : res serr table :=
  if forallb (fun c => Nat.ltb c (length (header t))) cols
  then Ok {| header := map (fun c => nth c (header t) (Name "")) cols;
             rows := map (fun r => map (fun c => nth c r (CNum None)) cols) (rows t) |}
  else Err EIndexing.
Definition colname_eqb (a b : colname) : bool :=
  match a, b with
  | Name s, Name t => String.eqb s t
  | Number n, Number k => Nat.eqb n k
  | _, _ => false
  end.
Definition rename (old new : colname) (t : table) : table :=
  {| header := map (fun c => if colname_eqb c old then new else c) (header t); rows := rows t |}.

(** _serialisers.py:94-189, in order *)
Definition data_writes (m : model) : list write :=
  let inst := m_inst_labels m in
  let feats := m_feat_labels m in
  let algos := m_algo_labels m in
  [ frame (coordinates (m_z m)) ["z_1"; "z_2"]%string inst "coordinates.csv";
    bounds_frame (m_z_edge m) "bounds.csv";
    bounds_frame (m_z_ecorr m) "bounds_prunned.csv";
    match take (m_x_raw m) (width (m_x_raw m)) (m_idx m) with
    | Ok a => frame (nums a) feats inst "feature_raw.csv"
    | Err e => Err e
    end;
    frame (nums (m_x m)) feats inst "feature_process.csv";
    frame (nums (m_y_raw m)) algos inst "algorithm_raw.csv";
    frame (nums (m_y m)) algos inst "algorithm_process.csv";
    frame (bools (m_y_bin m)) algos inst "algorithm_bin.csv";
    frame (one CNum (m_num_good_algos m)) ["NumGoodAlgos"%string] inst "good_algos.csv";
    frame (one CBool (m_beta m)) ["IsBetaEasy"%string] inst "beta_easy.csv";
    frame (one CNat (m_p m)) ["Best_Algorithm"%string] inst "portfolio.csv";
    frame (bools (m_y_hat m)) algos inst "algorithm_svm.csv";
    frame (one CNat (m_selection0 m)) ["Best_Algorithm"%string] inst "portfolio_svm.csv";
    match iloc (m_trace_summary m) [0; 2; 4; 5; 7; 9; 10] with
    | Ok t => Ok ("footprint_performance.csv"%string, rename (Name "Algorithm") (Name "Row") t)
    | Err e => Err e
    end;
    Ok ("projection_matrix.csv"%string, rename (Number 0) (Name "Row") (m_pilot_summary m));
    Ok ("svm_table.csv"%string, rename (Name "Algorithms") (Name "Row") (m_pythia_summary m)) ].

(** The calls are made one after the other until one raises.  [can_write] says which files the
    operating system lets be opened; a file that can be opened is written completely. *)
Section Files.
  Variable can_write : string -> bool.
  Fixpoint perform (l : list write) (d : directory) : directory * option serr :=
    match l with
    | [] => (d, None)
    | Err e :: _ => (d, Some e)
    | Ok (n, t) :: rest => if can_write n then perform rest (put n t d) else (d, Some EWrite)
    end.

  (** _serialisers.py:29-199 [save_instance_space_to_csv] *)
  Definition save_to_csv (is_dir : bool) (m : model) (d : directory) : directory * option serr :=
    if is_dir then perform (footprint_writes m ++ data_writes m) d else (d, Some ENotDirectory).
End Files.
(** The summaries of the model after a call that returns: rename(inplace=True) works on the
    model's own pilot and pythia summaries, but on a copy (iloc) of the trace summary. *)
Definition after_save (m : model) : model :=
  {| m_inst_labels := m_inst_labels m; m_feat_labels := m_feat_labels m; m_algo_labels := m_algo_labels m;
     m_x := m_x m; m_y := m_y m; m_x_raw := m_x_raw m; m_y_raw := m_y_raw m; m_nalgos := m_nalgos m;
     m_y_bin := m_y_bin m; m_p := m_p m; m_num_good_algos := m_num_good_algos m; m_beta := m_beta m; m_s := m_s m;
     m_idx := m_idx m; m_z := m_z m; m_z_edge := m_z_edge m; m_z_ecorr := m_z_ecorr m;
     m_y_hat := m_y_hat m; m_selection0 := m_selection0 m; m_good := m_good m; m_best := m_best m;
     m_trace_summary := m_trace_summary m;
     m_pilot_summary := rename (Number 0) (Name "Row") (m_pilot_summary m);
     m_pythia_summary := rename (Name "Algorithms") (Name "Row") (m_pythia_summary m) |}.

(* ------------------------------------------------------------------ the web front end *)
(** numpy division; 0/0 is NaN.  Simplification: the infinity numpy gives for another number over 0 (y_ind and
    y_glb below, for a constant column) is made NaN too. *)
Definition ndiv0 (a b : num) : num :=
  match a, b with Some x, Some y => if Qeq_bool y 0 then None else Some (x / y)%Q | _, _ => None end.
(** np.round: to the nearest integer, halves to the even one *)
Definition round_even (q : Q) : Z :=
  let f := Qfloor q in
  match Qcompare (q - inject_Z f) (1 # 2) with
  | Lt => f
  | Gt => (f + 1)%Z
  | Eq => if Z.even f then f else (f + 1)%Z
  end.
(** 255.0 * ((v - lo) / (hi - lo)), made an integer by f *)
Definition colour (f : Q -> Z) (lo hi v : num) : option Z :=
  match ndiv0 (nsub v lo) (nsub hi lo) with Some q => Some (f (255 * q)%Q) | None => None end.
(** _serialisers.py:427-435 [_colour_scale] of an array with [cols] columns *)
Definition colour_scale (data : list (list num)) (cols : nat) : res serr (list (list entry)) :=
  match data with
  | [] => Err EEmpty
  | _ => Ok (map (fun r => map (fun jv => CColour (colour Qfloor (col_min (column None data (fst jv)))
                                                     (col_max (column None data (fst jv))) (snd jv)))
                               (combine (seq 0 cols) r)) data)
  end.
(** _serialisers.py:438-446 [_colour_scale_g] *)
Definition colour_scale_g (data : list (list num)) : res serr (list (list entry)) :=
  match concat data with
  | [] => Err EEmpty
  | all => Ok (map (map (fun v => CColour (colour round_even (col_min all) (col_max all) v))) data)
  end.
Definition then_frame (r : res serr (list (list entry))) (cols rows : list string) (f : string) : write :=
  match r with Ok a => frame a cols rows f | Err e => Err e end.
(** _serialisers.py:220-263; the colour table (212-218) does not depend on the model *)
Definition web_writes (m : model) : list write :=
  let inst := m_inst_labels m in
  let feats := m_feat_labels m in
  let algos := m_algo_labels m in
  [ then_frame (match take (m_x_raw m) (width (m_x_raw m)) (m_idx m) with
                | Ok a => colour_scale a (length (m_idx m))
                | Err e => Err e
                end) feats inst "feature_raw_color.csv";
    then_frame (colour_scale (m_y_raw m) (width (m_y_raw m))) algos inst "algorithm_raw_single_color.csv";
    then_frame (colour_scale (m_x m) (width (m_x m))) feats inst "feature_process_color.csv";
    then_frame (colour_scale (m_y m) (width (m_y m))) algos inst "algorithm_process_single_color.csv";
    then_frame (colour_scale_g (m_y_raw m)) algos inst "algorithm_raw_color.csv";
    then_frame (colour_scale_g (m_y m)) algos inst "algorithm_process_color.csv";
    then_frame (colour_scale_g (map (fun v => [v]) (m_num_good_algos m))) ["NumGoodAlgos"%string] inst "good_algos_color.csv" ].
Definition save_for_web (can_write : string -> bool) (colour_table : table) (is_dir : bool) (m : model) (d : directory)
  : directory * option serr :=
  if is_dir then perform can_write (Ok ("color_table.csv"%string, colour_table) :: web_writes m) d else (d, Some ENotDirectory).

(* ------------------------------------------------------------------ the plots *)
(** s.replace("_", " ") *)
Fixpoint spaces (s : string) : string :=
  match s with
  | EmptyString => EmptyString
  | String c r => String (if Ascii.eqb c "_"%char then " "%char else c) (spaces r)
  end.
(** _serialisers.py:280-281: features scaled per column; 283-284: performance, where the
    division binds tighter than the subtraction; 286-288: log10 of performance + 1 *)
Section Scaling.
  Variable log10p1 : num -> num.     (** np.log10(v + 1) *)
  Definition x_aux (x : list (list num)) (i j : nat) : num :=
    let c := column None x j in ndiv0 (nsub (nth i c None) (col_min c)) (nsub (col_max c) (col_min c)).
  Definition y_ind (y : list (list num)) (i j : nat) : num :=
    let c := column None y j in nsub (nth i c None) (ndiv0 (col_min c) (nsub (col_max c) (col_min c))).
  Definition y_glb (y : list (list num)) (i j : nat) : num :=
    let g := map (map log10p1) y in
    let c := column None g j in ndiv0 (nsub (nth i c None) (col_min (concat g))) (nsub (col_max c) (col_min c)).
End Scaling.
(** the legend of value i (_serialisers.py:560 and 612) *)
Definition legend (labels : list string) (i : nat) : string :=
  match i with O => "None"%string | S k => spaces (nth k labels ""%string) end.
(** _serialisers.py:522-570 [_draw_portfolio_selections]: the groups of points drawn, each with
    its legend and the instances in it; 573-624 [_draw_portfolio_footprint] draws the same
    groups, each with the footprint best[i] *)
Definition instances_with (p : list nat) (i : nat) : list nat :=
  filter (fun k => Nat.eqb (nth k p 0) i) (seq 0 (length p)).
Definition drawn_groups (p : list nat) (labels : list string) : list (nat * (string * list nat)) :=
  flat_map (fun i => match instances_with p i with
                     | [] => []
                     | l => [(i, (legend labels i, l))]
                     end) (seq 0 (length labels)).
(** _serialisers.py:600-614: legend, instances and footprint of each group *)
Definition drawn_footprints (p : list nat) (labels : list string) (best : list (option shape))
  : list (string * list nat * option (option shape)) :=
  map (fun g => (fst (snd g), snd (snd g), nth_error best (fst g))) (drawn_groups p labels).
(** _serialisers.py:297-394: the names of the files, in order *)
Definition graph_names (m : model) : list string :=
  map (fun l => append "distribution_feature_" (append l ".png")) (m_feat_labels m) ++
  flat_map (fun l => [append "distribution_performance_global_normalized_" (append l ".png");
                      append "distribution_performance_individual_normalized_" (append l ".png");
                      append "binary_performance_" (append l ".png");
                      append "binary_svm_" (append l ".png");
                      append "footprint_" (append l ".png")]%string) (m_algo_labels m) ++
  ["distribution_number_good_algos.png"; "distribution_portfolio.png"; "distribution_svm_portfolio.png";
   "distribution_beta_score.png"]%string ++
  match m_s m with Some _ => ["distribution_sources.png"%string] | None => [] end ++
  ["footprint_portfolio.png"%string].

(* ------------------------------------------------------------------ the archive *)
(** a file below the output directory: its directory, its name and its contents *)
Record found := { f_dir : string; f_name : string; f_bytes : string }.
(** model.py:150-171 [save_zip]: [walked] is what os.walk finds, which includes the archive itself
    while it is being written.  An archive is the list of its members, in order. *)
Definition save_zip (zip_filename : string) (walked : list found) : list (string * string) :=
  map (fun f => (append "output/" (f_name f), f_bytes f))
      (filter (fun f => negb (String.eqb (f_name f) ".gitignore" || String.eqb (f_name f) zip_filename)) walked).
(** ZipFile.read(name): the last member of that name *)
Definition zip_read (a : list (string * string)) (n : string) : option string :=
  fold_left (fun r e => if String.eqb (fst e) n then Some (snd e) else r) a None.
