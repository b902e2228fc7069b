(** The calls that connect a stage to its computation: stage._run hands the
    inputs it receives, mostly by position, to a static method, that one to the
    constructor of the stage, the computation reads the attributes or the
    parameters, and its local variables are packed, again by position, into the
    output tuple of the stage.  Only this passing of values is modelled here.

    Simplified: a value is anything ([V]); the bodies of the computations are
    arguments (functions from the attributes and parameters to the local
    variables at the return); an environment is a total function, a name that is
    not bound has the value [unbound]; a body that raises is not modelled (the
    stages' own models say when that happens). *)
From Coq Require Import List String Bool Arith.
Import ListNotations.
Open Scope string_scope.
Open Scope list_scope.

Set Implicit Arguments.

Section Wiring.
Variable V : Type.
Variable unbound : V.

Definition env := string -> V.

(** [name = value] (Python assignment, not in /repo). *)
Definition put (n : string) (v : V) (e : env) : env :=
  fun m => if String.eqb m n then v else e m.

(** [(a, b, c) = values]: left to right; None is the ValueError for a wrong
    number of values (Python tuple assignment, not in /repo). *)
Fixpoint unpack (targets : list string) (values : list V) (e : env) : option env :=
  match targets, values with
  | [], [] => Some e
  | t :: ts, v :: vs => unpack ts vs (put t v e)
  | _, _ => None
  end.

(** A call with positional arguments, and the construction of a NamedTuple:
    parameters or fields are bound in order; None is the TypeError (Python, not
    in /repo). *)
Definition bind (params : list string) (args : list V) : option env :=
  unpack params args (fun _ => unbound).

(** A call with keyword arguments only: every parameter must be given, and
    nothing else (Python, not in /repo). *)
Definition bind_kw (params : list string) (kws : list (string * V)) : option env :=
  if forallb (fun p => existsb (fun k => String.eqb p (fst k)) kws) params
     && forallb (fun k => existsb (String.eqb (fst k)) params) kws
     && Nat.eqb (List.length params) (List.length kws)
  then unpack (map fst kws) (map snd kws) (fun _ => unbound) else None.

(** [self.attr = param] for each pair, in order (the form of the bodies of the
    constructors). *)
Definition attributes (l : list (string * string)) (params : env) : env :=
  fold_left (fun e ap => put (fst ap) (params (snd ap)) e) l (fun _ => unbound).

(** The local variables [n1, n2, ...] of a scope, as a list of values. *)
Definition vals (e : env) (names : list string) : list V := map e names.

(** ** PRELIM *)

(** Parameters of PrelimStage.__init__ (prelim.py:184-194) and of
    PrelimStage.prelim (prelim.py:318-326). *)
Definition prelim_params : list string :=
  ["x"; "y"; "x_raw"; "y_raw"; "s"; "inst_labels"; "prelim_opts"; "selvars_opts"].

(** PrelimStage.__init__ (prelim.py:184-204). *)
Definition prelim_init (args : list V) : option env :=
  match bind prelim_params args with
  | None => None
  | Some p => Some (attributes
      [("x", "x"); ("y", "y"); ("prelim_opts", "prelim_opts");
       ("selvars_opts", "selvars_opts"); ("x_raw", "x_raw"); ("y_raw", "y_raw");
       ("s", "s"); ("inst_labels", "inst_labels")] p)
  end.

(** The tuple _prelim returns (prelim.py:714-734). *)
Definition prelim_return : list string :=
  ["x"; "y"; "y_bin"; "y_best"; "p"; "num_good_algos"; "beta"; "med_val";
   "iq_range"; "hi_bound"; "lo_bound"; "min_x"; "lambda_x"; "mu_x"; "sigma_x";
   "min_y"; "lambda_y"; "sigma_y"; "mu_y"].

(** PrelimStage.prelim (prelim.py:318-377); [body] is PrelimStage._prelim
    (prelim.py:584-712). *)
Definition prelim (body : env -> env -> env) (args : list V) : option (list V) :=
  match bind prelim_params args with
  | None => None
  | Some p =>
    match prelim_init (vals p ["x"; "y"; "x_raw"; "y_raw"; "s"; "inst_labels";
                               "prelim_opts"; "selvars_opts"]) with
    | None => None
    | Some self =>
      match bind ["x"; "y"; "prelim_opts"] (vals p ["x"; "y"; "prelim_opts"]) with
      | None => None
      | Some q => Some (vals (body self q) prelim_return)
      end
    end
  end.

(** Parameters of PrelimStage._filter (prelim.py:736-749). *)
Definition filter_params : list string :=
  ["inst_labels"; "x"; "y"; "y_bin"; "y_best"; "x_raw"; "y_raw"; "p";
   "num_good_algos"; "beta"; "s"; "selvars_opts"].

(** The tuple _filter returns (prelim.py:862-876). *)
Definition filter_return : list string :=
  ["subset_index"; "x"; "y"; "x_raw"; "y_raw"; "y_bin"; "beta";
   "num_good_algos"; "y_best"; "p"; "inst_labels"; "s"; "data_dense"].

(** Fields of PrelimOutput (prelim.py:131-154). *)
Definition prelim_fields : list string :=
  ["med_val"; "iq_range"; "hi_bound"; "lo_bound"; "min_x"; "lambda_x"; "mu_x";
   "sigma_x"; "min_y"; "lambda_y"; "sigma_y"; "mu_y"; "x"; "y"; "x_raw"; "y_raw";
   "y_bin"; "y_best"; "p"; "num_good_algos"; "beta"; "instlabels"; "data_dense";
   "s"].

(** PrelimStage._run (prelim.py:216-315); [filter] is PrelimStage._filter
    (prelim.py:736-861). *)
Definition run_prelim (body filter : env -> env -> env) (inputs : env) : option env :=
  match prelim body
          [inputs "x"; inputs "y"; inputs "x_raw"; inputs "y_raw"; inputs "s";
           inputs "inst_labels"; inputs "prelim_options"; inputs "selvars_options"] with
  | None => None
  | Some values =>
    match unpack ["x"; "y"; "y_bin"; "y_best"; "p"; "num_good_algos"; "beta";
                  "med_val"; "iq_range"; "hi_bound"; "lo_bound"; "min_x";
                  "lambda_x"; "mu_x"; "sigma_x"; "min_y"; "lambda_y"; "sigma_y";
                  "mu_y"] values (fun _ => unbound) with
    | None => None
    | Some e =>
      match prelim_init
              [e "x"; e "y"; inputs "x_raw"; inputs "y_raw"; inputs "s";
               inputs "inst_labels"; inputs "prelim_options";
               inputs "selvars_options"] with
      | None => None
      | Some self =>
        match bind filter_params
                [inputs "inst_labels"; e "x"; e "y"; e "y_bin"; e "y_best";
                 inputs "x_raw"; inputs "y_raw"; e "p"; e "num_good_algos";
                 e "beta"; inputs "s"; inputs "selvars_options"] with
        | None => None
        | Some q =>
          match unpack ["subset_index"; "x"; "y"; "x_raw"; "y_raw"; "y_bin";
                        "beta"; "num_good_algos"; "y_best"; "p"; "inst_labels";
                        "s"; "data_dense"]
                  (vals (filter self q) filter_return) e with
          | None => None
          | Some e' =>
            bind prelim_fields
              (vals e' ["med_val"; "iq_range"; "hi_bound"; "lo_bound"; "min_x";
                        "lambda_x"; "mu_x"; "sigma_x"; "min_y"; "lambda_y";
                        "sigma_y"; "mu_y"; "x"; "y"; "x_raw"; "y_raw"; "y_bin";
                        "y_best"; "p"; "num_good_algos"; "beta"; "inst_labels";
                        "data_dense"; "s"])
          end
        end
      end
    end
  end.

(** ** SIFTED *)

(** Parameters of SiftedStage.sifted (sifted.py:397-414). *)
Definition sifted_params : list string :=
  ["x"; "y"; "y_bin"; "x_raw"; "y_raw"; "beta"; "num_good_algos"; "y_best"; "p";
   "inst_labels"; "s"; "feat_labels"; "opts"; "opts_selvars"; "data_dense";
   "parallel_options"].

(** SiftedStage.__init__ (sifted.py:286-344); np.array(feat_labels) keeps the
    labels. *)
Definition sifted_init (args : list V) : option env :=
  match bind ["x"; "y"; "y_bin"; "x_raw"; "y_raw"; "beta"; "num_good_algos";
              "y_best"; "p"; "inst_labels"; "s"; "feat_labels"; "opts";
              "parallel_options"] args with
  | None => None
  | Some p => Some (attributes
      [("x", "x"); ("y", "y"); ("y_bin", "y_bin"); ("feat_labels", "feat_labels");
       ("x_raw", "x_raw"); ("y_raw", "y_raw"); ("beta", "beta");
       ("num_good_algos", "num_good_algos"); ("y_best", "y_best"); ("p", "p");
       ("inst_labels", "inst_labels"); ("s", "s"); ("opts", "opts");
       ("parallel_options", "parallel_options")] p)
  end.

(** Fields of SiftedOutput (sifted.py:182-199). *)
Definition sifted_fields : list string :=
  ["x"; "y"; "y_bin"; "x_raw"; "y_raw"; "beta"; "num_good_algos"; "y_best"; "p";
   "inst_labels"; "s"; "feat_labels"; "selvars"; "idx"; "rho"; "pval";
   "silhouette_scores"; "clust"].

(** Which of the returns of _sifted is reached (sifted.py:567, 604 and 630,
    692).  The return after the density filter (sifted.py:672) is never reached:
    the indexing in it raises (C66). *)
Inductive site := few_features | few_correlated | all_steps.

(** What the computations of _sifted produce: selvars, idx, x_aux, rho, pval,
    silhouette_scores and clust at the return, and [kept], the labels of the
    features selected (sifted.py:541-711). *)
Record sift_step := {
  ss_site : site; ss_selvars : V; ss_idx : V; ss_x_aux : V; ss_rho : V;
  ss_pval : V; ss_scores : V; ss_clust : V; ss_kept : V }.

(** SiftedStage._sifted (sifted.py:487-711): the locals copied from the
    attributes (sifted.py:527-539) and the positional construction of the
    output; [none] is None, [body] the computations. *)
Definition sifted_body (none : V) (body : env -> env -> sift_step)
    (self q : env) : option env :=
  let l := attributes
      [("x", "x"); ("y", "y"); ("y_bin", "y_bin"); ("x_raw", "x_raw");
       ("y_raw", "y_raw"); ("beta", "beta"); ("num_good_algos", "num_good_algos");
       ("y_best", "y_best"); ("p", "p"); ("inst_labels", "inst_labels");
       ("s", "s"); ("feat_labels", "feat_labels"); ("opts", "opts")] self in
  let r := body self q in
  match ss_site r with
  | few_features =>
    bind sifted_fields
      [l "x"; l "y"; l "y_bin"; l "x_raw"; l "y_raw"; l "beta";
       l "num_good_algos"; l "y_best"; l "p"; l "inst_labels"; l "s";
       l "feat_labels"; ss_selvars r; ss_idx r; none; none; none; none]
  | few_correlated =>
    bind sifted_fields
      [ss_x_aux r; l "y"; l "y_bin"; l "x_raw"; l "y_raw"; l "beta";
       l "num_good_algos"; l "y_best"; l "p"; l "inst_labels"; l "s";
       ss_kept r; ss_selvars r; ss_idx r; ss_rho r; ss_pval r; none; none]
  | all_steps =>
    bind sifted_fields
      [ss_x_aux r; l "y"; l "y_bin"; l "x_raw"; l "y_raw"; l "beta";
       l "num_good_algos"; l "y_best"; l "p"; l "inst_labels"; l "s";
       ss_kept r; ss_selvars r; ss_idx r; ss_rho r; ss_pval r; ss_scores r;
       ss_clust r]
  end.

(** SiftedStage._run (sifted.py:356-386), SiftedStage.sifted
    (sifted.py:397-485) and SiftedStage.sift (sifted.py:388-394). *)
Definition run_sifted (none : V) (body : env -> env -> sift_step)
    (inputs : env) : option env :=
  match bind_kw sifted_params
          [("x", inputs "x"); ("y", inputs "y"); ("y_bin", inputs "y_bin");
           ("feat_labels", inputs "feat_labels"); ("opts", inputs "sifted_options");
           ("opts_selvars", inputs "selvars_options");
           ("data_dense", inputs "data_dense"); ("x_raw", inputs "x_raw");
           ("y_raw", inputs "y_raw"); ("beta", inputs "beta");
           ("num_good_algos", inputs "num_good_algos"); ("y_best", inputs "y_best");
           ("p", inputs "p"); ("inst_labels", inputs "inst_labels");
           ("s", inputs "s"); ("parallel_options", inputs "parallel_options")] with
  | None => None
  | Some e =>
    match sifted_init
            (vals e ["x"; "y"; "y_bin"; "x_raw"; "y_raw"; "beta";
                     "num_good_algos"; "y_best"; "p"; "inst_labels"; "s";
                     "feat_labels"; "opts"; "parallel_options"]) with
    | None => None
    | Some self =>
      match bind_kw ["opts_selvars"; "data_dense"]
              [("opts_selvars", e "opts_selvars"); ("data_dense", e "data_dense")] with
      | None => None
      | Some q =>
        match bind ["opts_selvars"; "data_dense"]
                (vals q ["opts_selvars"; "data_dense"]) with
        | None => None
        | Some q' => sifted_body none body self q'
        end
      end
    end
  end.

(** ** PILOT *)

(** Fields of PilotOutput (pilot.py:75-85). *)
Definition pilot_fields : list string :=
  ["X0"; "alpha"; "eoptim"; "perf"; "a"; "z"; "c"; "b"; "error"; "r2";
   "pilot_summary"].

(** PilotStage._run and the return of PilotStage.pilot (pilot.py:125-164,
    166-176, 289-325); [body] is the rest of pilot (pilot.py:197-288): from the
    parameters to the local variables.  [starts] says that both alpha and x0
    are set at the end; [half] is the conversion of alpha to float16. *)
Definition run_pilot (body : env -> env) (starts : env -> bool) (half : V -> V)
    (inputs : env) : option env :=
  match bind ["x"; "y"; "feat_labels"; "options"]
          [inputs "x"; inputs "y"; inputs "feat_labels"; inputs "pilot_options"] with
  | None => None
  | Some p =>
    let l := body p in
    if starts l then
      let l1 := put "alpha" (half (l "alpha")) l in
      let l2 := put "x_init" (l1 "x0") l1 in
      bind pilot_fields
        (vals l2 ["x_init"; "alpha"; "eoptim"; "perf"; "out_a"; "out_z"; "out_c";
                  "out_b"; "error"; "r2"; "summary"])
    else
      bind pilot_fields
        (vals l ["x0"; "alpha"; "eoptim"; "perf"; "out_a"; "out_z"; "out_c";
                 "out_b"; "error"; "r2"; "summary"])
  end.

(** ** CLOISTER *)

(** CloisterStage._run and the return of CloisterStage.cloister
    (cloister.py:143-158, 161-165, 199); [body] is cloister.py:183-194. *)
Definition run_cloister (body : env -> env) (inputs : env) : option env :=
  match bind ["x"; "a"; "options"]
          [inputs "x"; inputs "a"; inputs "cloister_options"] with
  | None => None
  | Some p => bind ["z_edge"; "z_ecorr"] (vals (body p) ["z_edge"; "z_ecorr"])
  end.

(** ** PYTHIA *)

(** Parameters of _generate_summary (pythia.py:756-770). *)
Definition summary_params : list string :=
  ["nalgos"; "algo_labels"; "y"; "y_hat"; "y_bin"; "y_best"; "selection0";
   "selection1"; "precision"; "accuracy"; "recall"; "box_consnt"; "k_scale"].

(** Fields of PythiaOutput (pythia.py:154-171). *)
Definition pythia_fields : list string :=
  ["mu"; "sigma"; "w"; "cp"; "svm"; "cvcmat"; "y_sub"; "y_hat"; "pr0_sub";
   "pr0_hat"; "box_consnt"; "k_scale"; "accuracy"; "precision"; "recall";
   "selection0"; "selection1"; "pythia_summary"].

(** PythiaStage._run and the end of PythiaStage.pythia (pythia.py:272-281,
    283-292, 462-511); [body] is pythia.py:326-461: from the parameters to the
    local variables, of which [y], [y_bin], [y_best] and [algo_labels] are never
    assigned and [z] is; [choose] is _determine_selections (pythia.py:686-691),
    [summarise] is _generate_summary (pythia.py:756-835). *)
Definition run_pythia (body : env -> env) (choose : env -> V * V)
    (summarise : env -> V) (inputs : env) : option env :=
  match bind ["z"; "y"; "y_bin"; "y_best"; "algo_labels"; "opts";
              "parallel_options"]
          [inputs "z"; inputs "y_raw"; inputs "y_bin"; inputs "y_best";
           inputs "algo_labels"; inputs "pythia_options";
           inputs "parallel_options"] with
  | None => None
  | Some p =>
    let l := fun n =>
      if existsb (String.eqb n) ["y"; "y_bin"; "y_best"; "algo_labels"]
      then p n else body p n in
    match bind ["nalgos"; "precision"; "y_hat"; "y_bin"]
            (vals l ["nalgos"; "precision_record"; "y_hat"; "y_bin"]) with
    | None => None
    | Some q =>
      let r := choose q in
      match unpack ["selection0"; "selection1"] [fst r; snd r] l with
      | None => None
      | Some l1 =>
        match bind summary_params
                (vals l1 ["nalgos"; "algo_labels"; "y"; "y_hat"; "y_bin"; "y_best";
                          "selection0"; "selection1"; "accuracy_record";
                          "precision_record"; "recall_record"; "box_consnt";
                          "k_scale"]) with
        | None => None
        | Some t =>
          let l2 := put "summary" (summarise t) l1 in
          bind pythia_fields
            (vals l2 ["mu"; "sigma"; "w"; "cp"; "svm"; "cvcmat"; "y_sub"; "y_hat";
                      "pr0sub"; "pr0hat"; "box_consnt"; "k_scale";
                      "accuracy_record"; "precision_record"; "recall_record";
                      "selection0"; "selection1"; "summary"])
        end
      end
    end
  end.

(** ** TRACE *)

(** Parameters of TraceStage.__init__ (trace.py:203-212) and TraceStage.trace
    (trace.py:313-321). *)
Definition trace_params : list string :=
  ["z"; "y_bin"; "p"; "beta"; "algo_labels"; "trace_opts"; "parallel_opts"].

(** TraceStage.__init__ (trace.py:203-240). *)
Definition trace_init (args : list V) : option env :=
  match bind trace_params args with
  | None => None
  | Some p => Some (attributes
      [("z", "z"); ("y_bin", "y_bin"); ("p", "p"); ("beta", "beta");
       ("algo_labels", "algo_labels"); ("opts", "trace_opts");
       ("parallel_opts", "parallel_opts")] p)
  end.

(** TraceStage.trace (trace.py:313-350) and the return of _trace
    (trace.py:512-518); [body] is _trace (trace.py:352-511): from the attributes
    to the local variables. *)
Definition trace (body : env -> env) (args : list V) : option env :=
  match bind trace_params args with
  | None => None
  | Some p =>
    match trace_init (vals p ["z"; "y_bin"; "p"; "beta"; "algo_labels";
                              "trace_opts"; "parallel_opts"]) with
    | None => None
    | Some self =>
      let l := body self in
      bind_kw ["space"; "good"; "best"; "hard"; "trace_summary"]
        [("space", l "space"); ("good", l "good"); ("best", l "best");
         ("hard", l "hard"); ("trace_summary", l "final_df")]
    end
  end.

(** TraceStage._run (trace.py:270-310); [use_sim] is that field of the option
    value. *)
Definition run_trace (use_sim : V -> bool) (body : env -> env) (inputs : env)
    : option env :=
  if use_sim (inputs "trace_options") then
    trace body [inputs "z"; inputs "y_hat"; inputs "selection0"; inputs "beta";
                inputs "algo_labels"; inputs "trace_options";
                inputs "parallel_options"]
  else
    trace body [inputs "z"; inputs "y_bin"; inputs "p"; inputs "beta";
                inputs "algo_labels"; inputs "trace_options";
                inputs "parallel_options"].

End Wiring.
