(** Model of the whole default pipeline, from the metadata to all results: EndModel up to PYTHIA, then
    CLOISTER and TRACE, each given what the names of its inputs lead to (C104).  Definitions only. *)
From Verif Require Import Mat PrelimModel EndModel.
From Verif Require PilotModel PythiaModel CloisterModel TraceModel.
Set Implicit Arguments.

Inductive wherr := EBuild (e : enderr) | ECloister (e : CloisterModel.clerr) | ETrace (e : TraceModel.trerr).

(** the options the last two stages read; [w_cores] = min(n_cores, cpu_count()) *)
Record wopts := {
  w_end : endopts; w_p_val : Q; w_c_thres : Q; w_use_sim : bool; w_purity : Q; w_cores : Z }.

Section Whole.
  Variables L S : Type.
  (** the stages up to PYTHIA, with their libraries *)
  Variable build : table_of L S -> endopts -> res enderr (end_out L S).
  (** CLOISTER's libraries *)
  Variable pearson : list num -> list num -> res CloisterModel.clerr (num * num).
  Variable hull : list (list num) -> option (list nat).
  (** TRACE's *)
  Variable G : Type.
  Variable is_empty : G -> bool.
  Variable area : G -> Q.
  Variable contains : G -> TraceModel.pt -> bool.
  Variable contains_all : G -> list TraceModel.pt -> bool.
  Variable intersection difference union : G -> G -> G.
  Variable no_polygon : G.
  Variable smooth : G -> G.
  Variable triangulate : G -> list G.
  Variable convex_hull : G -> G.
  Variable geoms : G -> list G.
  Variable alphashape : list TraceModel.pt -> option G.
  Variable radius : list TraceModel.pt -> nat -> Z.
  (** a row of z as a point with integer coordinates: floats are multiples of one unit *)
  Variable point : list num -> TraceModel.pt.
  (** the order in which TRACE's workers finish *)
  Variable order : list nat.

  Record whole_out := {
    w_out : end_out L S; w_edge : list (list num); w_ecorr : list (list num); w_trace : TraceModel.trace_out G }.

  (** instance_space.py:221-240 [build] with all the stages of 40-48.  CLOISTER's inputs x and a are those
      of cloister.py:27-47 (x from SIFTED, a from PILOT); TRACE's are those of trace.py:66-100 *)
  Definition build_all (t : table_of L S) (o : wopts) : res wherr whole_out :=
    match build t (w_end o) with
    | Err e => Err (EBuild e)
    | Ok e =>
        let d := e_data e in
        match CloisterModel.cloister pearson hull (d_x d) (PilotModel.po_a (e_pilot e)) (length (e_feat e))
                (w_p_val o) (w_c_thres o) with
        | Err x => Err (ECloister x)
        | Ok (edge, ecorr) =>
            match TraceModel.run is_empty area contains contains_all intersection difference union no_polygon smooth
                    triangulate convex_hull geoms alphashape radius (w_use_sim o)
                    (map point (PilotModel.po_z (e_pilot e))) (w_purity o) (PythiaModel.o_selection0 (e_pythia e)) (d_p d)
                    (PythiaModel.o_y_hat (e_pythia e)) (d_bin d) (d_beta d) (e_algo e) (length (e_algo e)) (w_cores o) order with
            | Err x => Err (ETrace x)
            | Ok tr => Ok {| w_out := e; w_edge := edge; w_ecorr := ecorr; w_trace := tr |}
            end
        end
    end.
End Whole.
