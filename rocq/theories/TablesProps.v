(** Property C141: the tables of PILOT and PYTHIA among the files that save_to_csv writes after a run of the
    default pipeline. *)
From Coq Require Import Permutation.
From Verif Require Import BaseLemmas Mat Ext PreprocModel PreprocSpec PrelimModel PrelimSpec HandOnModel EndModel EndProps WholeModel WholeProps.
From Verif Require Import SerialModel SavedModel SavedProps.
From Verif Require PilotModel PilotProofs PythiaModel PythiaSpec PythiaProofs PythiaProps PythiaSummaryProps CloisterModel TraceModel SerialProps.
Set Implicit Arguments.
Open Scope nat_scope.
Open Scope list_scope.

Section Tables.
  Variable transform : list Q -> list num.
  Variable split : option (list nat).
  Variable file : list Z.
  Variable pearson : list (Q * Q) -> num * num.
  Variable order : list (list Q) -> nat -> list nat.
  Variable sil : list nat -> list Q.
  Variable km_labels : list nat -> list nat.
  Variable best : list nat -> list Z.
  Variable bfgs : list num -> list num * num.
  Variable quality : list (list num) -> res PilotModel.pierr num.
  Variable f16 : num -> num.
  Variable random : nat -> nat -> list (list num).
  Variable fit : list (list num) -> nat -> PythiaModel.hyper -> list bool -> list num -> res PythiaModel.pyerr PythiaModel.svm_res.
  Variable round3 : num -> num.
  Variable root : num -> num.
  Notation build := (build transform split file pearson order sil km_labels best bfgs quality f16 random fit round3 root).
  Variable cpearson : list num -> list num -> res CloisterModel.clerr (num * num).
  Variable hull : list (list num) -> option (list nat).
  Variable G : Type.
  Variable is_empty : G -> bool.
  Variable area : G -> Q.
  Variable contains : G -> TraceModel.pt -> bool.
  Variable contains_all : G -> list TraceModel.pt -> bool.
  Variable intersection difference union : G -> G -> G.
  Variable no_polygon : G.
  Variable smooth : G -> G.
  Variable triangulate : G -> list G.
  Variable convex_hull : G -> G.
  Variable geoms : G -> list G.
  Variable alphashape : list TraceModel.pt -> option G.
  Variable radius : list TraceModel.pt -> nat -> Z.
  Variable point : list num -> TraceModel.pt.
  Variable finished : list nat.
  Notation build_all := (build_all build cpearson hull is_empty area contains contains_all intersection difference union no_polygon smooth
    triangulate convex_hull geoms alphashape radius point finished).
  Variable shape_of : G -> shape.
  Notation saved := (saved_model shape_of).

  Lemma end_inv (t : table_of string string) (o : endopts) out : build t o = Ok out ->
    PilotModel.pilot bfgs quality f16 random (d_x (e_data out)) (d_y (e_data out)) (length (e_feat out)) (length (e_algo out)) (e_feat out) (o_pilot o) = Ok (e_pilot out) /\
    PythiaModel.pythia (fit (PilotModel.po_z (e_pilot out))) round3 root (d_y_raw (e_data out)) (d_bin (e_data out)) (map to_num (d_best (e_data out)))
      (e_algo out) (length (e_algo out)) (o_weights o) (o_params o) = Ok (e_pythia out).
  Proof.
    intros H. unfold EndModel.build in H.
    destruct (preproc_run _ _ _ _ _ _ _ _) as [p|e]; [|discriminate]. cbv zeta in H.
    destruct (filter_insts _ _ _ _ _ _) as [[[? d1] dense]|e]; [|discriminate].
    destruct (sifted_run _ _ _ _ _ _ _ _ _ _ _ _ _) as [[so d2]|e]; [|discriminate].
    destruct (PilotModel.pilot _ _ _ _ _ _ _ _ _ _) as [po|e] eqn:EP; [|discriminate].
    destruct (PythiaModel.pythia _ _ _ _ _ _ _ _ _ _) as [py|e] eqn:EY; [|discriminate].
    injection H as <-. auto.
  Qed.

  (** projection_matrix.csv: the header lists the names of the selected features; under each name are its weights in the
      two coordinates.  The coordinates of an instance (coordinates.csv) are the sums of its processed
      features (feature_process.csv), weighted so, if the optimiser returns points of the right dimension. *)
  Theorem C141_projection_matrix :
    forall (t : table_of string string) (o : wopts) (n : nat) out can_write d d', consistent t n -> build_all t o = Ok out ->
      save_to_csv can_write true (saved out) d = (d', None) ->
      let e := w_out out in
      exists cols tb a1 a2, e_feat e = take_at ""%string (t_feature_names t) cols /\
        d' "projection_matrix.csv"%string = Some tb /\
        header tb = map Name ("Row"%string :: e_feat e) /\
        SerialModel.rows tb = [CStr "Z_{1}" :: map CNum a1; CStr "Z_{2}" :: map CNum a2] /\
        PilotModel.po_a (e_pilot e) = [a1; a2] /\
        forall k, length a1 = length cols -> length a2 = length cols -> k < length (d_x (e_data e)) ->
          let weighted a := nsum (map (fun c => nmul (nth c a None) (cell (d_x (e_data e)) k c)) (seq 0 (length cols))) in
          nth_error (PilotModel.po_z (e_pilot e)) k = Some [weighted a1; weighted a2].
  Proof.
    intros t o n out cw d d' C H Sv. cbv zeta.
    destruct (@all_inv string string transform split file pearson order sil km_labels best bfgs quality f16 random fit round3 root cpearson hull G
       is_empty area contains contains_all intersection difference union no_polygon smooth triangulate convex_hull geoms alphashape radius point finished _ _ _ H) as (HB & _).
    destruct (C112_rows_and_columns ""%string ""%string _ _ _ _ _ _ _ _ _ _ _ _ _ _ _ _ C HB)
      as (kept & rows & cols0 & cols & acols & _ & _ & _ & _ & _ & _ & _ & Ef & _ & _ & _ & _ & _ & Tx & _ & _ & _ & _ & Z & _).
    destruct (end_inv _ _ HB) as (HP & _). set (e := w_out out) in *.
    destruct (PilotProofs.pilot_ok _ _ _ _ _ _ _ _ _ _ HP) as (_ & _ & _ & _ & _ & _ & _ & sols & _ & _ & _ & _ & Ea & _ & _ & _ & _ & _ & Es).
    destruct (SerialProps.C93_summaries cw (saved out) d Sv) as (_ & (tb & Et & Er & Eh) & _).
    cbn [saved_model m_pilot_summary] in Er, Eh. fold e in Er, Eh. rewrite Es in Er, Eh. cbn [pilot_frame header SerialModel.rows fst snd] in Er, Eh.
    remember (PilotModel.po_a (e_pilot e)) as A eqn:EA.
    assert (LA : length A = 2) by (rewrite Ea; apply PilotProofs.reshape_length).
    destruct A as [|a1 [|a2 [|]]]; try discriminate. exists cols, tb, a1, a2.
    split; auto. split; auto. split.
    { rewrite Eh. cbn [map]. f_equal. rewrite map_map. reflexivity. }
    split; [exact Er|]. split; auto. intros k L1 L2 Hk. rewrite Z, nth_error_map, (nth_error_nth' _ []) by auto. cbn [option_map mulv map].
    assert (W : length (nth k (d_x (e_data e)) []) = length cols).
    { destruct Tx as [_ F]. rewrite Forall_forall in F. apply F. apply nth_In. auto. }
    unfold cell. rewrite (PilotProofs.dot_nsum a1 _ L1 W), (PilotProofs.dot_nsum a2 _ L2 W). reflexivity.
  Qed.

  (** svm_table.csv: one row for each algorithm, then "Oracle" and "Selector".  The values are those of C78, C79, C80
      and C92, over the rows of algorithm_raw.csv ([y]), algorithm_bin.csv ([good]) and algorithm_svm.csv ([pred]);
      a value that is missing is an empty text. *)
  Theorem C141_svm_table :
    forall (t : table_of string string) (o : wopts) (n : nat) out can_write d d', consistent t n -> build_all t o = Ok out ->
      save_to_csv can_write true (saved out) d = (d', None) ->
      round3 None = None -> (forall z, PythiaSpec.fit_shape (fit z)) ->
      let e := w_out out in
      let py := e_pythia e in
      let y := d_y_raw (e_data e) in
      let m := length y in
      let good i j := PythiaSpec.flag (d_bin (e_data e)) i j in
      let pred i j := PythiaSpec.flag (PythiaModel.o_y_hat py) i j in
      let count f := PythiaSpec.how_many m f in
      let all_of j := PythiaSummaryProps.perfs y (fun _ => true) j in
      let predicted_of j := PythiaSummaryProps.perfs y (fun i => pred i j) j in
      let before (s : list nat) {A} (none : A) (f : nat -> nat -> A) i := match nth i s 0 with O => none | S k => f i k end in
      let mean := PythiaSummaryProps.mean_of in
      let variance := PythiaSummaryProps.variance_of in
      let share := PythiaSpec.share in
      let blank (v : num) := match v with Some q => CNum (Some q) | None => CStr ""%string end in
      let percentage q := round3 (Some (100 * q)%Q) in
      exists acols tb, e_algo e = take_at ""%string (t_algorithm_names t) acols /\
        d' "svm_table.csv"%string = Some tb /\
        header tb = map Name ["Row"; "Avg_Perf_all_instances"; "Std_Perf_all_instances"; "Probability_of_good";
                              "Avg_Perf_selected_instances"; "Std_Perf_selected_instances"; "CV_model_accuracy";
                              "CV_model_precision"; "CV_model_recall"; "BoxConstraint"; "KernelScale"]%string /\
        length (SerialModel.rows tb) = length acols + 2 /\
        (forall j a, nth_error acols j = Some a -> exists m1 v1 q m2 v2 precision accuracy recall,
           nth_error (SerialModel.rows tb) j = Some (CStr (nth a (t_algorithm_names t) ""%string) :: map blank
             [round3 (round3 m1); round3 (round3 (root v1)); round3 (Some q); round3 m2; round3 (root v2);
              percentage precision; percentage accuracy; percentage recall;
              round3 (nth j (PythiaModel.o_box_consnt py) None); round3 (nth j (PythiaModel.o_k_scale py) None)]) /\
           mean (all_of j) m1 /\ variance (all_of j) v1 /\ share q (count (fun i => good i j)) m /\
           mean (predicted_of j) m2 /\ variance (predicted_of j) v2 /\
           share precision (count (fun i => good i j && pred i j)) (count (fun i => pred i j)) /\
           share accuracy (count (fun i => Bool.eqb (good i j) (pred i j))) m /\
           share recall (count (fun i => good i j && pred i j)) (count (fun i => good i j))) /\
        (exists m1 v1,
           nth_error (SerialModel.rows tb) (length acols) = Some (CStr "Oracle" :: map blank
             [round3 m1; round3 (root v1); round3 (Some 1%Q); None; None; None; None; None; None; None]) /\
           mean (present (map to_num (d_best (e_data e)))) m1 /\ variance (present (map to_num (d_best (e_data e)))) v1) /\
        (exists m1 v1 q precision recall,
           nth_error (SerialModel.rows tb) (length acols + 1) = Some (CStr "Selector" :: map blank
             [round3 m1; round3 (root v1); round3 (Some q); round3 m1; round3 (root v1);
              None; percentage precision; percentage recall; None; None]) /\
           let chosen := present (map (before (PythiaModel.o_selection1 py) None (cell y)) (seq 0 m)) in
           mean chosen m1 /\ variance chosen v1 /\
           share q (count (before (PythiaModel.o_selection1 py) false good)) m /\
           let hits := count (before (PythiaModel.o_selection0 py) false good) in
           share precision hits (count (fun i => negb (Nat.eqb (nth i (PythiaModel.o_selection0 py) 0) 0))) /\
           share recall hits (length (filter (fun v => v) (concat (d_bin (e_data e)))))).
  Proof.
    intros t o n out cw d d' C H Sv Rn Fs. cbv zeta.
    destruct (@all_inv string string transform split file pearson order sil km_labels best bfgs quality f16 random fit round3 root cpearson hull G
       is_empty area contains contains_all intersection difference union no_polygon smooth triangulate convex_hull geoms alphashape radius point finished _ _ _ H) as (HB & _).
    destruct (C112_rows_and_columns ""%string ""%string _ _ _ _ _ _ _ _ _ _ _ _ _ _ _ _ C HB)
      as (kept & rows & cols0 & cols & acols & _ & _ & _ & _ & _ & _ & _ & _ & Ea & _ & _ & _ & Ey & _ & _ & _ & _ & V & _ & _).
    cbv zeta in V. destruct V as (Vb & _). destruct (end_inv _ _ HB) as (_ & HY).
    destruct (SerialProps.C93_summaries cw (saved out) d Sv) as (_ & _ & (tb & Et & Er & Eh)).
    cbn [saved_model m_pythia_summary pythia_frame header SerialModel.rows] in Er, Eh. set (e := w_out out) in *. set (py := e_pythia e) in *.
    assert (La : length (e_algo e) = length acols) by (rewrite Ea; apply take_len).
    set (y := d_y_raw (e_data e)) in *. set (yb := d_bin (e_data e)) in *. rewrite La in HY.
    assert (Ly : length y = length yb) by (rewrite Ey, Vb; unfold subtable; rewrite !map_length; auto).
    assert (Ty : forall r, In r y -> length r = length acols).
    { destruct (raw_table (o_prelim (w_end o)) (t_algorithms t) rows acols) as [_ W]. rewrite <- Ey, Forall_forall in W. auto. }
    assert (Tb : forall r, In r yb -> length r = length acols).
    { destruct (@some_bin (o_prelim (w_end o)) t acols rows (length acols) eq_refl) as [_ W]. rewrite <- Vb, Forall_forall in W. auto. }
    fold (PythiaProps.run (fit (PilotModel.po_z (e_pilot e))) round3 root y yb (map to_num (d_best (e_data e))) (e_algo e) (length acols)
      (o_weights (w_end o)) (o_params (w_end o))) in HY.
    pose proof (@PythiaSummaryProps.C92_algorithm_rows _ _ _ _ _ _ _ _ _ _ _ HY Ly Ty) as R1.
    pose proof (@PythiaSummaryProps.C92_oracle_and_selector_rows _ _ _ _ _ _ _ _ _ _ _ HY Ly Ty Tb) as R2.
    pose proof (@PythiaSummaryProps.C92_selector_precision_and_recall _ _ _ _ _ _ _ _ _ _ _ HY Tb) as R3.
    pose proof (@PythiaProps.C79_summary_swaps_accuracy_and_precision _ _ _ _ _ _ _ _ _ _ _ HY) as R4.
    pose proof (@PythiaProps.C78_scores_of_the_final_models _ _ _ _ _ _ _ _ _ _ (Fs _) _ HY) as R5.
    cbv zeta in R2, R3, R5. rewrite Ly.
    exists acols, tb. split; auto. split; auto. split; [rewrite Eh; reflexivity|].
    assert (Last : PythiaModel.s_algorithms (PythiaModel.o_summary py) = e_algo e ++ ["Oracle"; "Selector"]%string /\
      nth (length acols + 1) (PythiaModel.s_box_constraint (PythiaModel.o_summary py)) None = round3 None /\
      nth (length acols + 1) (PythiaModel.s_kernel_scale (PythiaModel.o_summary py)) None = round3 None).
    { destruct (@PythiaProofs.pythia_inv _ _ _ _ _ _ _ _ _ _ _ HY) as (_ & NL & w & rs & _ & _ & L & _ & K). cbv zeta in K.
      destruct K as (_ & _ & _ & _ & _ & _ & _ & _ & Kb & Kk & _ & _ & K). unfold PythiaModel.generate_summary in K.
      simpl Nat.ltb in K. cbv iota in K. rewrite NL, Nat.eqb_refl in K. injection K as Ks _. rewrite <- Ks.
      cbn [PythiaModel.s_algorithms PythiaModel.s_box_constraint PythiaModel.s_kernel_scale]. split; auto.
      assert (P : forall l : list num, length l = length acols -> nth (length acols + 1) (map round3 (l ++ [None; None])) None = round3 None).
      { intros l Ll. rewrite <- Ll. clear. induction l; auto. }
      split; apply P; [rewrite Kb|rewrite Kk]; rewrite map_length; auto. }
    destruct Last as (Ls & Lb & Lk).
    assert (Row : forall k nm, nth_error (PythiaModel.s_algorithms (PythiaModel.o_summary py)) k = Some nm ->
      nth_error (SerialModel.rows tb) k = Some (CStr nm :: map (fun c => or_blank (nth k c None)) (svm_columns (PythiaModel.o_summary py)))).
    { intros k nm Hk. rewrite Er, nth_error_map.
      assert (Q : nth_error (combine (seq 0 (length (PythiaModel.s_algorithms (PythiaModel.o_summary py)))) (PythiaModel.s_algorithms (PythiaModel.o_summary py))) k = Some (k, nm)).
      { revert Hk. generalize (PythiaModel.s_algorithms (PythiaModel.o_summary py)). clear. intros l. change (k, nm) with (0 + k, nm). generalize 0 as b.
        revert k. induction l as [|x l IH]; intros [|k] b Hk; try discriminate; cbn in *; [rewrite Nat.add_0_r; congruence|].
        replace (b + S k) with (S b + k) by lia. auto. }
      rewrite Q. reflexivity. }
    assert (Bl : or_blank (round3 None) = or_blank None) by (rewrite Rn; reflexivity).
    split; [|split; [|split]].
    - rewrite Er, map_length, combine_length, seq_length, Ls, app_length, La. simpl. lia.
    - intros j a Hj. assert (Jl : j < length acols) by (apply nth_error_Some; congruence).
      destruct (R1 j Jl) as ((m1 & E1 & P1) & (v1 & E2 & P2) & (q & E3 & P3) & (m2 & E4 & P4) & (v2 & E5 & P5) & E6 & E7).
      destruct (R4 j Jl) as (E8 & E9 & E10 & E11). destruct (R5 j Jl) as (S1 & S2 & S3).
      exists m1, v1, q, m2, v2, (nth j (PythiaModel.o_precision py) 0%Q), (nth j (PythiaModel.o_accuracy py) 0%Q), (nth j (PythiaModel.o_recall py) 0%Q).
      split; [|auto 10]. erewrite Row by (rewrite E11, Ea; unfold take_at; rewrite nth_error_map, Hj; reflexivity).
      cbn [svm_columns map]; change num with (option Q) in *. fold py in E1, E2, E3, E4, E5, E6, E7, E8, E9, E10. rewrite E1, E2, E3, E4, E5, E6, E7, E8, E9, E10. reflexivity.
    - destruct R2 as ((m1 & E1 & P1) & (v1 & E2 & P2) & E3 & _). destruct R3 as (_ & _ & _ & R3). exists m1, v1. split; [|auto].
      erewrite Row by (rewrite Ls, nth_error_app2, La, Nat.sub_diag by lia; reflexivity).
      cbn [svm_columns map]; change num with (option Q) in *. rewrite E1, E2, E3. rewrite !R3 by (cbn [In]; tauto). rewrite Bl. reflexivity.
    - destruct R2 as (_ & _ & _ & (m1 & E1 & E4 & P1) & (v1 & E2 & E5 & P2) & (q & E3 & P3)).
      destruct R3 as ((p & E6 & P4) & (r & E7 & P5) & E8 & _). exists m1, v1, q, p, r.
      split; [|rewrite <- Ly in *; auto 10].
      erewrite Row by (rewrite Ls, nth_error_app2, La, Nat.add_comm, Nat.add_sub by lia; reflexivity).
      cbn [svm_columns map]; change num with (option Q) in *. rewrite E1, E2, E3, E4, E5, E6, E7, E8, Lb, Lk, Bl. reflexivity.
  Qed.
End Tables.

(** The run of C119_met: all the hypotheses hold, and these are the tables. *)
Example C141_met : consistent (sv_table false) 4 /\ exists out, sv_build false false = Ok out /\
  exists d' tp tv, save_to_csv (fun _ => true) true (sv_saved out) (fun _ => None) = (d', None) /\
    d' "projection_matrix.csv"%string = Some tp /\
    SerialModel.rows tp = [[CStr "Z_{1}"; CNum (Some 1%Q); CNum (Some 0%Q)]; [CStr "Z_{2}"; CNum (Some 0%Q); CNum (Some 1%Q)]] /\
    d' "svm_table.csv"%string = Some tv /\
    nth_error (SerialModel.rows tv) 0 = Some (CStr "algo_a" :: map CNum [Some (12 # 3); Some (10206 # 2187); Some (2 # 3);
      Some (11 # 2); Some (8 # 32); Some (200 # 2); Some (300 # 3); Some (200 # 2)]%Q ++ [CStr ""; CStr ""]).
Proof.
  split; [apply sv_consistent|]. eexists. split; [vm_compute; reflexivity|]. do 3 eexists. split; [reflexivity|].
  split; [reflexivity|]. split; [vm_compute; reflexivity|]. split; [reflexivity|]. vm_compute. reflexivity.
Qed.
Example C141_met_oracles : (fun v : num => v) None = None /\ forall zc : list (list num), PythiaSpec.fit_shape
  ((fun _ _ _ col _ => Ok {| PythiaModel.r_ysub := col; PythiaModel.r_psub := []; PythiaModel.r_yhat := col;
                             PythiaModel.r_phat := []; PythiaModel.r_c := None; PythiaModel.r_g := None |}) zc).
Proof. split; auto. intros zc i h t w r H. injection H as <-. auto. Qed.

Print Assumptions C141_projection_matrix.
Print Assumptions C141_svm_table.
