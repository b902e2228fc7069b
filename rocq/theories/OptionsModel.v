(** Model of instancespace/data/options.py: loading options.  Definitions only. *)
From Coq Require Import QArith.
From Verif Require Import Base.
Set Implicit Arguments.
Open Scope string_scope.
Open Scope list_scope.

(** What json.loads returns.  Numbers are exact rationals; a dict is its list of items in
    insertion order (keys are distinct, [OptionsSpec.py_dict]). *)
Inductive jval :=
| JNull | JBool (b : bool) | JNum (q : Q) | JStr (s : string)
| JArr (l : list jval) | JObj (l : list (string * jval)).

(** The exceptions.  The two ValueErrors of [_validate_fields] and the one of [from_dict];
    AttributeError is what Python raises for [.keys()] / [.items()] on a non-dict. *)
Inductive oerr :=
| EExtraSections (names : list string)
| EConflict (key : string)
| EUnknown (names : list string)
| EAttribute.
Definition oexn (e : oerr) : string :=
  match e with EAttribute => "AttributeError" | _ => "ValueError" end.

(** One option dataclass: the section name in InstanceSpaceOptions, its fields with the
    values of [data_class.default()], and the [field_mapping] that from_dict passes. *)
Record section := {
  sec_name : string;
  sec_fields : list (string * jval);
  sec_alias : list (string * string)
}.

(** options.py:382-395 (fields of InstanceSpaceOptions), 77-378 (the dataclasses),
    436-522 (the mappings), default_options.py (the values).  The defaults of feats, algos,
    x0, alpha and params are None (options.py:188-189, 294-295, 346). *)
Definition sections : list section :=
  [ {| sec_name := "parallel";
       sec_fields := [("flag", JBool false); ("n_cores", JNum 2)];
       sec_alias := [("ncores", "n_cores")] |};
    {| sec_name := "perf";
       sec_fields := [("max_perf", JBool false); ("abs_perf", JBool true);
                      ("epsilon", JNum (20 # 100)); ("beta_threshold", JNum (55 # 100))];
       sec_alias := [("maxperf", "max_perf"); ("absperf", "abs_perf");
                     ("betathreshold", "beta_threshold")] |};
    {| sec_name := "auto"; sec_fields := [("preproc", JBool true)]; sec_alias := [] |};
    {| sec_name := "bound"; sec_fields := [("flag", JBool true)]; sec_alias := [] |};
    {| sec_name := "norm"; sec_fields := [("flag", JBool true)]; sec_alias := [] |};
    {| sec_name := "selvars";
       sec_fields := [("small_scale_flag", JBool false); ("small_scale", JNum (50 # 100));
                      ("file_idx_flag", JBool false); ("file_idx", JStr "");
                      ("feats", JNull); ("algos", JNull); ("selvars_type", JStr "Ftr&Good");
                      ("min_distance", JNum (1 # 10)); ("density_flag", JBool false)];
       sec_alias := [("smallscaleflag", "small_scale_flag"); ("smallscale", "small_scale");
                     ("fileidxflag", "file_idx_flag"); ("fileidx", "file_idx");
                     ("densityflag", "density_flag"); ("mindistance", "min_distance");
                     ("type", "selvars_type")] |};
    {| sec_name := "sifted";
       sec_fields := [("flag", JBool true); ("rho", JNum (1 # 10)); ("k", JNum 6);
                      ("n_trees", JNum 50); ("max_iter", JNum 1000); ("replicates", JNum 100);
                      ("num_generations", JNum 100); ("num_parents_mating", JNum 2);
                      ("sol_per_pop", JNum 50); ("parent_selection_type", JStr "tournament");
                      ("k_tournament", JNum 4); ("keep_elitism", JNum 2);
                      ("crossover_type", JStr "scattered");
                      ("cross_over_probability", JNum (8 # 10));
                      ("mutation_type", JStr "random"); ("mutation_probability", JNum (5 # 100));
                      ("stop_criteria", JStr "saturate_5")];
       sec_alias := [("ntrees", "n_trees"); ("maxiter", "max_iter");
                     ("replicates", "replicates")] |};
    {| sec_name := "pilot";
       sec_fields := [("x0", JNull); ("alpha", JNull); ("analytic", JBool false);
                      ("n_tries", JNum 5)];
       sec_alias := [("ntries", "n_tries")] |};
    {| sec_name := "cloister";
       sec_fields := [("p_val", JNum (5 # 100)); ("c_thres", JNum (7 # 10))];
       sec_alias := [("pval", "p_val"); ("cthres", "c_thres")] |};
    {| sec_name := "pythia";
       sec_fields := [("cv_folds", JNum 5); ("is_poly_krnl", JBool false);
                      ("use_weights", JBool false); ("use_grid_search", JBool false);
                      ("params", JNull)];
       sec_alias := [("cvfolds", "cv_folds"); ("ispolykrnl", "is_poly_krnl");
                     ("useweights", "use_weights"); ("uselibsvm", "use_grid_search")] |};
    {| sec_name := "trace";
       sec_fields := [("use_sim", JBool true); ("purity", JNum (55 # 100))];
       sec_alias := [("pi", "purity"); ("usesim", "use_sim")] |};
    {| sec_name := "outputs";
       sec_fields := [("csv", JBool true); ("web", JBool false); ("png", JBool true)];
       sec_alias := [] |} ].

(** dict.get on a list of items with distinct keys *)
Fixpoint jget {A} (l : list (string * A)) (k : string) : option A :=
  match l with
  | [] => None
  | (k', v) :: t => if String.eqb k' k then Some v else jget t k
  end.
Definition smem_str (x : string) (l : list string) : bool := existsb (String.eqb x) l.

Section Load.
  (** str.lower.  Arbitrary: the properties only need that it does not change the lower-case
      ASCII names in the tables above. *)
  Variable lower : string -> string.

  (** options.py:617-619 [mapped_field] *)
  Definition mapped (sec : section) (k : string) : string :=
    match jget (sec_alias sec) (lower k) with Some f => f | None => lower k end.

  (** options.py:584-643 [_validate_fields]; [seen] are the keys of mapped_json_fields,
      [errs] is value_errors *)
  Fixpoint validate (sec : section) (data : list (string * jval)) (seen errs : list string)
    : res oerr unit :=
    match data with
    | [] => match errs with [] => Ok tt | _ => Err (EUnknown (rev errs)) end
    | (k, v) :: t =>
        let m := mapped sec k in
        if smem_str m seen then Err (EConflict k)
        else
          let known := smem_str m (map fst (sec_fields sec)) in
          validate sec t (m :: seen)
            (if negb known && negb (String.eqb m "_") then m :: errs else errs)
    end.

  (** options.py:688 [data_lowercase]: later items replace earlier ones with the same key *)
  Fixpoint lower_get (data : list (string * jval)) (n : string) : option jval :=
    match data with
    | [] => None
    | (k, v) :: t => match lower_get t n with
                     | Some w => Some w
                     | None => if String.eqb (lower k) n then Some v else None
                     end
    end.

  (** options.py:697-700: [next((k for k, v in field_mapping.items() if v == f), f)] *)
  Fixpoint alias_of (alias : list (string * string)) (f : string) : string :=
    match alias with
    | [] => f
    | (k, f') :: t => if String.eqb f' f then k else alias_of t f
    end.

  (** options.py:690-707: the value of one field *)
  Definition field_value (sec : section) (data : list (string * jval)) (f : string) (def : jval)
    : jval :=
    match lower_get data (lower f) with
    | Some v => v
    | None => match lower_get data (alias_of (sec_alias sec) f) with
              | Some v => v
              | None => def
              end
    end.

  (** options.py:646-714 [_load_dataclass] *)
  Definition load_dataclass (sec : section) (data : jval) : res oerr (list (string * jval)) :=
    match data with
    | JObj l =>
        let values := map (fun fd => (fst fd, field_value sec l (fst fd) (snd fd)))
                          (sec_fields sec) in
        match validate sec l [] [] with
        | Ok _ => Ok values
        | Err e => Err e
        end
    | _ => Err EAttribute
    end.

  Fixpoint load_all (secs : list section) (d : list (string * jval))
    : res oerr (list (string * list (string * jval))) :=
    match secs with
    | [] => Ok []
    | sec :: t =>
        let data := match jget d (sec_name sec) with Some v => v | None => JObj [] end in
        match load_dataclass sec data with
        | Err e => Err e
        | Ok v => match load_all t d with
                  | Err e => Err e
                  | Ok r => Ok ((sec_name sec, v) :: r)
                  end
        end
    end.

  (** options.py:398-524 [InstanceSpaceOptions.from_dict] *)
  Definition from_dict (d : list (string * jval)) : res oerr (list (string * list (string * jval))) :=
    let extra := filter (fun k => negb (smem_str k (map sec_name sections))) (map fst d) in
    match extra with
    | [] => load_all sections d
    | _ => Err (EExtraSections extra)
    end.

  (** options.py:744-785 [from_json_file].  [text] is the outcome of opening and reading the
      file ([None]: FileNotFoundError, another OSError, or UnicodeDecodeError, which is a
      ValueError); [parse] is json.loads ([None]: JSONDecodeError).  The result [Ok None] is
      a returned None; [Err] is an exception that leaves the function. *)
  Definition from_json_file (text : option string) (parse : string -> option jval)
    : res oerr (option (list (string * list (string * jval)))) :=
    match text with
    | None => Ok None
    | Some s =>
        match parse s with
        | None => Ok None
        | Some (JObj d) =>
            match from_dict d with
            | Ok o => Ok (Some o)
            | Err EAttribute => Err EAttribute
            | Err _ => Ok None
            end
        | Some _ => Err EAttribute
        end
    end.
End Load.

(** options.py:732-741 [PrelimOptions.from_options], on loaded options *)
Definition prelim_options (o : list (string * list (string * jval))) : list (string * option jval) :=
  let g s f := match jget o s with Some l => jget l f | None => None end in
  [("max_perf", g "perf" "max_perf"); ("abs_perf", g "perf" "abs_perf");
   ("epsilon", g "perf" "epsilon"); ("beta_threshold", g "perf" "beta_threshold");
   ("bound", g "bound" "flag"); ("norm", g "norm" "flag")].

(** The parameters of [default] of each dataclass, passed by keyword (options.py:85-93, 106-118, 128-134,
    144-150, 160-166, 184-206, 232-270, 283-290, 301-309, 323-336, 347-355, 367-377): all fields, except
    that PythiaOptions.default (323-336) has no params.  Positional use is not modelled.  [None]: TypeError
    for an unexpected keyword. *)
Definition default_params (sec : section) : list string :=
  filter (fun f => negb (String.eqb (sec_name sec) "pythia" && String.eqb f "params")) (map fst (sec_fields sec)).
Definition class_default (sec : section) (kw : list (string * jval)) : option (list (string * jval)) :=
  if forallb (fun k => smem_str k (default_params sec)) (map fst kw)
  then Some (map (fun fd => (fst fd, match jget kw (fst fd) with Some v => v | None => snd fd end)) (sec_fields sec))
  else None.

(** options.py:537-565 [InstanceSpaceOptions.default]: the twelve parameters have no default value, so
    each must be passed, if only as None; [None] as result: TypeError.  An object of one of the
    dataclasses is always true in [x or X.default()]. *)
Definition options_default (kw : list (string * option (list (string * jval))))
  : option (list (string * list (string * jval))) :=
  if forallb (fun sec => smem_str (sec_name sec) (map fst kw)) sections &&
     forallb (fun k => smem_str k (map sec_name sections)) (map fst kw)
  then Some (map (fun sec => (sec_name sec, match jget kw (sec_name sec) with
                                            | Some (Some v) => v
                                            | _ => sec_fields sec
                                            end)) sections)
  else None.
