(** Model of a use of the library from files to files: instance_space_from_files, build and the Model it
    leaves.  Definitions only. *)
From Verif Require Import Mat PrelimModel EndModel WholeModel SerialModel OptionsModel MetaModel.
From Verif Require PilotModel PythiaModel CloisterModel TraceModel.
Set Implicit Arguments.
Open Scope string_scope.
Open Scope list_scope.

(** [f] of every element, if it is defined for all *)
Fixpoint every {A B} (f : A -> option B) (l : list A) : option (list B) :=
  match l with
  | [] => Some []
  | a :: t => match f a, every f t with Some b, Some r => Some (b :: r) | _, _ => None end
  end.
Definition number (e : entry) : option num := match e with CNum v => Some v | _ => None end.
Definition word (e : entry) : option string := match e with CStr s => Some s | _ => None end.

(** The metadata as the stages are given them (instance_space.py:76-101): arrays of numbers, with series of texts for
    the labels and the sources.  [None]: other types of values, which the model of the stages does not cover. *)
Definition words_of (s : squeezed entry) : option (list string) :=
  match s with SSeries _ l => every word l | _ => None end.
Definition table_from (m : metadata entry) : option (table_of string string) :=
  match words_of (instance_labels m),
        match instance_sources m with None => Some None | Some s => option_map Some (words_of s) end,
        every (every number) (features m), every (every number) (algorithms m) with
  | Some l, Some s, Some x, Some y =>
      Some {| t_feature_names := feature_names m; t_algorithm_names := algorithm_names m;
              t_labels := l; t_sources := s; t_features := x; t_algorithms := y |}
  | _, _, _, _ => None
  end.

(* ------------------------------------------------------------------ options *)
Definition options := list (string * list (string * jval)).
Definition get (o : options) (s f : string) : option jval :=
  match jget o s with Some l => jget l f | None => None end.
Definition flag_of (v : option jval) : option bool := match v with Some (JBool b) => Some b | _ => None end.
Definition rational_of (v : option jval) : option Q := match v with Some (JNum q) => Some q | _ => None end.
Definition integer_of (v : option jval) : option Z :=
  match v with Some (JNum q) => if Pos.eqb (Qden q) 1 then Some (Qnum q) else None | _ => None end.
Definition count_of (v : option jval) : option nat :=
  match integer_of v with Some k => if Z.leb 0 k then Some (Z.to_nat k) else None | None => None end.
Definition string_of (v : option jval) : option string := match v with Some (JStr s) => Some s | _ => None end.
Definition absent (v : option jval) : option unit := match v with Some JNull => Some tt | _ => None end.
(** selvars.feats, selvars.algos: a list of names or null *)
Definition names_of (v : option jval) : option (option (list string)) :=
  match v with
  | Some JNull => Some None
  | Some (JArr l) => option_map Some (every (fun x => match x with JStr s => Some s | _ => None end) l)
  | _ => None
  end.
Definition bind {A B} (a : option A) (f : A -> option B) : option B := match a with Some x => f x | None => None end.
Notation "'let*' x := a 'in' b" := (bind a (fun x => b)) (at level 200, x name, right associativity).

(** The options that the code of the stages reads, from the fields it reads them from: prelim.py:619-701 with
    options.py:732-741, preprocessing.py:231-257, prelim.py:769-821, sifted.py:548-553, 625, 666-667, 760,
    pilot.py:214-237, 501, cloister.py:235, 336-339, pythia.py:334, 380, trace.py:290, 751, 1007.  [None]:
    values of other types, starting points (x0, alpha, params) and the analytic solution, which EndModel does not cover.
    [float] tells whether the number of a field was written as a float, [is_file] whether a path is a file, [cpus] the number of
    processors. *)
Definition typed_options (float : string -> bool) (is_file : string -> bool) (cpus : Z) (o : options) : option wopts :=
  let* mp := flag_of (get o "perf" "max_perf") in
  let* ap := flag_of (get o "perf" "abs_perf") in
  let* ep := rational_of (get o "perf" "epsilon") in
  let* be := rational_of (get o "perf" "beta_threshold") in
  let* bo := flag_of (get o "bound" "flag") in
  let* no := flag_of (get o "norm" "flag") in
  let* fe := names_of (get o "selvars" "feats") in
  let* al := names_of (get o "selvars" "algos") in
  let* sf := flag_of (get o "selvars" "small_scale_flag") in
  let* fi := flag_of (get o "selvars" "file_idx_flag") in
  let* pa := string_of (get o "selvars" "file_idx") in
  let* de := flag_of (get o "selvars" "density_flag") in
  let* ty := string_of (get o "selvars" "selvars_type") in
  let* md := rational_of (get o "selvars" "min_distance") in
  let* rh := rational_of (get o "sifted" "rho") in
  let* k := count_of (get o "sifted" "k") in
  let* _ := match flag_of (get o "pilot" "analytic") with Some false => Some tt | _ => None end in
  let* _ := absent (get o "pilot" "x0") in
  let* _ := absent (get o "pilot" "alpha") in
  let* nt := count_of (get o "pilot" "n_tries") in
  let* we := flag_of (get o "pythia" "use_weights") in
  let* _ := absent (get o "pythia" "params") in
  let* pv := rational_of (get o "cloister" "p_val") in
  let* ct := rational_of (get o "cloister" "c_thres") in
  let* us := flag_of (get o "trace" "use_sim") in
  let* pu := rational_of (get o "trace" "purity") in
  let* co := integer_of (get o "parallel" "n_cores") in
  Some {| w_end := {| o_feats := fe; o_algos := al;
            o_prelim := {| max_perf := mp; abs_perf := ap; epsilon := ep; beta_threshold := be; bound := bo; norm := no |};
            o_sel := {| small_scale_flag := sf; small_scale_float := float "small_scale"; file_idx_flag := fi; file_exists := is_file pa;
                        density_flag := de; min_distance_float := float "min_distance"; type_str := true; selvars_type := ty; min_distance := md |};
            o_rho := rh; o_k := k; o_pilot := {| PilotModel.p_x0 := None; PilotModel.p_alpha := None; PilotModel.p_tries := nt |};
            o_weights := we; o_params := None |};
          w_p_val := pv; w_c_thres := ct; w_use_sim := us; w_purity := pu; w_cores := Z.min co cpus |}.

(** The other options that the code reads: it passes them to the libraries.  Of SIFTED (sifted.py:790-792, KMeans;
    894-917, the genetic algorithm) and PYTHIA (pythia.py:335, 349-371, 417-419, 569, 579). *)
Definition fields_of (o : options) (l : list (string * string)) : list (option jval) := map (fun sf => get o (fst sf) (snd sf)) l.
Definition kmeans_options (o : options) : list (option jval) := fields_of o [("sifted", "max_iter"); ("sifted", "replicates")].
Definition genetic_options (o : options) : list (option jval) :=
  fields_of o
    [("sifted", "num_generations"); ("sifted", "num_parents_mating"); ("sifted", "sol_per_pop");
     ("sifted", "parent_selection_type"); ("sifted", "k_tournament"); ("sifted", "keep_elitism"); ("sifted", "crossover_type");
     ("sifted", "cross_over_probability"); ("sifted", "mutation_type"); ("sifted", "mutation_probability");
     ("sifted", "stop_criteria"); ("parallel", "flag"); ("parallel", "n_cores")].
Definition svm_options (o : options) : list (option jval) :=
  fields_of o [("pythia", "cv_folds"); ("pythia", "is_poly_krnl"); ("pythia", "use_grid_search"); ("parallel", "flag"); ("parallel", "n_cores")].

Section Files.
  Variable text : num -> string.                        (** a number as text, [astype(str)] *)
  Variable lower : string -> string.
  Variable row_numeric : list bool -> bool.
  Variable dtype_name : entry -> bool.
  Variable read_csv : string -> read_result entry.
  Variable read_text : string -> option string.
  Variable parse : string -> option jval.
  Variable float : string -> string -> bool.            (** of an options file and a field *)
  Variable is_file : string -> bool.
  Variable cpus : Z.
  (** the libraries, as in EndModel and WholeModel; those to which options are passed are given them *)
  Variable transform : list Q -> list num.
  Variable split : option jval -> option (list nat).
  Variable file : option jval -> list Z.
  Variable pearson : list (Q * Q) -> num * num.
  Variable order : list (list Q) -> nat -> list nat.
  Variable sil : list nat -> list Q.
  Variable km_labels : list (option jval) -> list nat -> list nat.
  Variable best : list (option jval) -> list nat -> list Z.
  Variable bfgs : list num -> list num * num.
  Variable quality : list (list num) -> res PilotModel.pierr num.
  Variable f16 : num -> num.
  Variable random : nat -> nat -> list (list num).
  Variable fit : list (option jval) -> list (list num) -> nat -> PythiaModel.hyper -> list bool -> list num -> res PythiaModel.pyerr PythiaModel.svm_res.
  Variable round3 : num -> num.
  Variable root : num -> num.
  Variable cpearson : list num -> list num -> res CloisterModel.clerr (num * num).
  Variable hull : list (list num) -> option (list nat).
  Variable G : Type.
  Variable is_empty : G -> bool.
  Variable area : G -> Q.
  Variable contains : G -> TraceModel.pt -> bool.
  Variable contains_all : G -> list TraceModel.pt -> bool.
  Variable intersection difference union : G -> G -> G.
  Variable no_polygon : G.
  Variable smooth : G -> G.
  Variable triangulate : G -> list G.
  Variable convex_hull : G -> G.
  Variable geoms : G -> list G.
  Variable alphashape : list TraceModel.pt -> option G.
  Variable radius : list TraceModel.pt -> nat -> Z.
  Variable point : list num -> TraceModel.pt.
  Variable finished : list nat.

  (** the pipeline with the libraries given the options passed to them (prelim.py:795, 804, and see above) *)
  Definition pipeline (o : options) (t : table_of string string) (w : wopts) : res wherr (whole_out string string G) :=
    build_all
      (EndModel.build transform (split (get o "selvars" "small_scale")) (file (get o "selvars" "file_idx")) pearson order sil
         (km_labels (kmeans_options o)) (best (genetic_options o)) bfgs quality f16 random (fit (svm_options o)) round3 root)
      cpearson hull is_empty area contains contains_all intersection difference union no_polygon smooth
      triangulate convex_hull geoms alphashape radius point finished t w.

  Definition show_entry (e : entry) : entry := match e with CNum v => CStr (text v) | _ => e end.
  (** instance_space_from_files (instance_space.py:314-358), then build (221-240).  [None]: one of the files
      could not be read, or holds what the model does not cover. *)
  Definition run_files (metadata_filepath options_filepath : string) : option (res wherr (whole_out string string G)) :=
    match snd (instance_space_from_files lower show_entry row_numeric dtype_name read_csv read_text parse metadata_filepath options_filepath) with
    | Ok (Some is) =>
        match table_from (is_metadata is), typed_options (float options_filepath) is_file cpus (is_options is) with
        | Some t, Some o => Some (pipeline (is_options is) t o)
        | _, _ => None
        end
    | _ => None
    end.
End Files.
