(** Model of the default pipeline from the metadata to PYTHIA: the models of the single stages, each given
    what the names of its inputs lead to (C104).  CLOISTER and TRACE, whose results are not per
    instance, are left out.  Definitions only. *)
From Verif Require Import Mat Ext PreprocModel PrelimModel HandOnModel.
From Verif Require SiftedModel PilotModel PythiaModel.
Set Implicit Arguments.

Inductive enderr := EPreproc (e : perr) | EPrelim (e : selerr) | ESifted (e : SiftedModel.sierr)
                  | EPilot (e : PilotModel.pierr) | EPythia (e : PythiaModel.pyerr).

(** a float that is not infinite *)
Definition to_num (e : ext) : num := match e with Fin q => Some q | _ => None end.
(** the matrix with n rows and the given columns *)
Definition rows_of {A} (d : A) (n : nat) (cols : list (list A)) : list (list A) :=
  map (fun i => map (fun c => nth i c d) cols) (seq 0 n).

(** prelim.py:584-734 [_prelim], all instances and features; [nf] and [na] are the numbers of columns.
    The arrays besides are handed to [_filter] (prelim.py:216-289 [_run]): x_raw as it is; y_raw, which
    PREPROCESSING returns as the same array as y (preprocessing.py:179-188) and which the deep copy of the
    inputs keeps so (stage_runner.py:155, C98), with the zeros of relative mode replaced (prelim.py:632,
    656).  No relative performance is infinite (C112_no_infinite_performance). *)
Definition prelim {L S} (o : popts) (transform : list Q -> list num) (nf na : nat)
    (inst_labels : list L) (s : option (list S)) (x y x_raw y_raw : list (list num)) : inst_data L S :=
  let outs := map (prelim_row o) y in
  {| d_x := rows_of None (length x) (map (feature_column o transform) (columns_of None nf x));
     d_y := map (map to_num) (rows_of ENaN (length y) (prelim_y o transform na y));
     d_x_raw := x_raw; d_y_raw := map r_y_inplace (map (prelim_row o) y_raw);
     d_bin := map r_bin outs; d_beta := map r_beta outs; d_good := map r_good outs; d_best := map r_best outs;
     d_p := map r_p outs; d_labels := inst_labels; d_s := s |}.

(** data/metadata.py:22-27 *)
Record table_of (L S : Type) := {
  t_feature_names : list string; t_algorithm_names : list string;
  t_labels : list L; t_sources : option (list S);
  t_features : list (list num); t_algorithms : list (list num) }.
(** the options the stages read *)
Record endopts := {
  o_feats : option (list string); o_algos : option (list string); o_prelim : popts; o_sel : selopts;
  o_rho : Q; o_k : nat; o_pilot : PilotModel.pilot_options; o_weights : bool; o_params : option PythiaModel.params }.

Section End.
  Variables L S : Type.
  (** Box-Cox and z-score of a column; train_test_split; the index file *)
  Variable transform : list Q -> list num.
  Variable split : option (list nat).
  Variable file : list Z.
  (** SIFTED's libraries *)
  Variable pearson : list (Q * Q) -> num * num.
  Variable order : list (list Q) -> nat -> list nat.
  Variable sil : list nat -> list Q.
  Variable km_labels : list nat -> list nat.
  Variable best : list nat -> list Z.
  (** PILOT's *)
  Variable bfgs : list num -> list num * num.
  Variable quality : list (list num) -> res PilotModel.pierr num.
  Variable f16 : num -> num.
  Variable random : nat -> nat -> list (list num).
  (** PYTHIA's; [fit] is given the projection *)
  Variable fit : list (list num) -> nat -> PythiaModel.hyper -> list bool -> list num -> res PythiaModel.pyerr PythiaModel.svm_res.
  Variable round3 : num -> num.
  Variable root : num -> num.

  (** what is in the Model afterwards *)
  Record end_out := {
    e_feat : list string; e_algo : list string; e_idx : list nat (** feat_sel.idx *); e_data : inst_data L S;
    e_pilot : PilotModel.pilot_output; e_pythia : PythiaModel.pythia_out }.

  (** instance_space.py:221-240 [build] with the stages of 40-48, up to PYTHIA *)
  Definition build (t : table_of L S) (o : endopts) : res enderr end_out :=
    match preproc_run (t_features t) (t_algorithms t) (t_feature_names t) (t_algorithm_names t)
            (o_feats o) (o_algos o) (t_sources t) (t_labels t) with
    | Err e => Err (EPreproc e)
    | Ok p =>
        let nf := length (p_feat p) in
        let na := length (p_algo p) in
        match filter_insts (o_sel o) split file nf na
                (prelim (o_prelim o) transform nf na (p_inst p) (p_s p) (p_x p) (p_y p) (p_x_raw p) (p_y_raw p)) with
        | Err e => Err (EPrelim e)
        | Ok (_, d1, dense) =>
            match sifted_run pearson order sil km_labels best (p_feat p) na (o_rho o) (o_k o)
                    (option_map (fun d => (d_x d, d_y d, d_bin d)) dense)
                    (selvars_type (o_sel o)) (min_distance (o_sel o)) (sifted_inputs (p_inst p) d1) with
            | Err e => Err (ESifted e)
            | Ok (so, d2) =>
                match PilotModel.pilot bfgs quality f16 random (d_x d2) (d_y d2) (length (SiftedModel.so_labels so)) na
                        (SiftedModel.so_labels so) (o_pilot o) with
                | Err e => Err (EPilot e)
                | Ok po =>
                    match PythiaModel.pythia (fit (PilotModel.po_z po)) round3 root (d_y_raw d2) (d_bin d2)
                            (map to_num (d_best d2)) (p_algo p) na (o_weights o) (o_params o) with
                    | Err e => Err (EPythia e)
                    | Ok py => Ok {| e_feat := SiftedModel.so_labels so; e_algo := p_algo p; e_idx := SiftedModel.so_idx so; e_data := d2;
                                     e_pilot := po; e_pythia := py |}
                    end
                end
            end
        end
    end.
End End.
