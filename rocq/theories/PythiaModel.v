(** Model of instancespace/stages/pythia.py.  Definitions only.
    Not modelled: printing, timing, scikit-learn's search and SVMs (the oracle [fit]), and the
    normalisation of z (PythiaZModel.v), which reaches nothing but the oracle and mu, sigma. *)
From Verif Require Export Mat CloisterModel.
Set Implicit Arguments.
Open Scope nat_scope.
Open Scope list_scope.

(** EFit: the search or the cross-validation raised; EUnpack: confusion_matrix has not four
    entries; EReduction: np.min or np.max of nothing; EIndex: mask of the wrong dimension;
    ELabels: fewer or more labels than algorithms; ENoAlgorithm: argmax of nothing. *)
Inductive pyerr := EFit | EUnpack | EReduction | EIndex | ELabels | ENoAlgorithm.

Definition nabs (a : num) : num :=
  match a with Some q => Some (if Qle_bool 0 q then q else (- q)%Q) | None => None end.

(** pythia.py:372-379: cost-sensitive weights *)
Definition weights (y : list (list num)) : res pyerr (list (list num)) :=
  let m := nanmean (concat y) in
  let w0 := map (map (fun v => nabs (nsub v m))) y in
  match filter (fun v => negb (neqb v (Some 0%Q))) (concat w0) with
  | [] => Err EReduction
  | nz =>
      let lo := col_min nz in
      let w1 := map (map (fun v => if neqb v (Some 0%Q) then lo else v)) w0 in
      match present (concat w1) with
      | [] => Err EReduction
      | pr => let hi := col_max (map Some pr) in
              Ok (map (map (fun v => if isnan v then hi else v)) w1)
      end
  end.
(** pythia.py:380-382 *)
Definition unit_weights (ninst nalgos : nat) : list (list num) := repeat (repeat (Some 1%Q) nalgos) ninst.

(** sklearn's confusion_matrix(y_true, y_pred).ravel() when both labels occur:
    true negatives, false positives, false negatives, true positives *)
Definition count2 (f : bool -> bool -> bool) (t p : list bool) : nat :=
  length (filter (fun tp => f (fst tp) (snd tp)) (combine t p)).
Definition tn t p := count2 (fun a b => negb a && negb b) t p.
Definition fp t p := count2 (fun a b => negb a && b) t p.
Definition fn t p := count2 (fun a b => a && negb b) t p.
Definition tp t p := count2 (fun a b => a && b) t p.
Definition two_labels (l : list bool) : bool := existsb (fun b => b) l && existsb negb l.
(** accuracy_score, precision_score and recall_score; 0 when the denominator is 0 *)
Definition ratio (a b : nat) : Q := (inject_Z (Z.of_nat a) / inject_Z (Z.of_nat b))%Q.
Definition accuracy_score (t p : list bool) : Q := ratio (tn t p + tp t p) (length t).
Definition precision_score (t p : list bool) : Q := ratio (tp t p) (tp t p + fp t p).
Definition recall_score (t p : list bool) : Q := ratio (tp t p) (tp t p + fn t p).

(** pythia.py:67-77 [_SvmRes]; the SVM object itself is left out *)
Record svm_res := { r_ysub : list bool; r_psub : list num; r_yhat : list bool; r_phat : list num; r_c : num; r_g : num }.

(** What is searched for algorithm i: values generated from the i-th draw of the generator, or
    the given pair (pythia.py:398-402). *)
Inductive hyper := Generated (i : nat) | Precalculated (c gamma : Q).
(** an array given as options.params: its shape and its rows *)
Record params := { pa_shape : list nat; pa_row : nat -> list Q }.
(** pythia.py:655-683 [_check_precalcparams] *)
Definition check_precalcparams (p : option params) (nalgos : nat) : option params :=
  match p with
  | None => None
  | Some a => match pa_shape a with
              | [r; c] => if Nat.eqb r nalgos && Nat.eqb c 2 then Some a else None
              | _ => None
              end
  end.
Definition param_space (p : option params) (nalgos i : nat) : hyper :=
  match check_precalcparams p nalgos with
  | None => Generated i
  | Some a => Precalculated (nth 0 (pa_row a i) 0%Q) (nth 1 (pa_row a i) 0%Q)
  end.

(** np.mean of a column of booleans *)
Definition rate (l : list bool) : Q := ratio (length (filter (fun b => b) l)) (length l).
(** a matrix given by its columns: y_hat[:, [i]] = ... for each i *)
Definition of_columns {A} (d : A) (ninst : nat) (cols : list (list A)) : list (list A) :=
  map (fun i => map (fun c => nth i c d) cols) (seq 0 ninst).

(** pythia.py:686-728 [_determine_selections], for nalgos > 1 (with one algorithm the values are
    never used, see [sel_ndim]) *)
Definition weighted (precision : list Q) (yh : list bool) : list num :=
  map (fun bp : bool * Q => Some (if fst bp then snd bp else 0%Q)) (combine yh precision).
Definition default_selection (y_bin : list (list bool)) (nalgos : nat) : nat :=
  nargmax (map (fun j => Some (rate (column false y_bin j))) (seq 0 nalgos)).
Definition select_one (precision : list Q) (none : nat) (yh : list bool) : nat :=
  let row := weighted precision yh in
  if nle (col_max row) (Some 0%Q) then none else nargmax row.
Definition determine_selections (nalgos : nat) (precision : list Q) (y_hat y_bin : list (list bool))
  : list nat * list nat :=
  (map (select_one precision 0) y_hat,
   map (select_one precision (default_selection y_bin nalgos)) y_hat).

(** pythia.py:714-724: the number of dimensions of selection0 and selection1; with one algorithm
    they keep the two dimensions of y_hat *)
Definition sel_ndim (nalgos : nat) : nat := if Nat.ltb 1 nalgos then 1 else 2.
(** selection[:, np.newaxis] == np.arange(1, nalgos + 1) (pythia.py:805-806), one dimension more
    than selection *)
Definition sel_matrix (sel : list nat) (nalgos : nat) : list (list bool) :=
  map (fun s => map (fun c => Nat.eqb s (c + 1)) (seq 0 nalgos)) sel.
(** m[~mask] = np.nan *)
Definition keep_where (mask : list (list bool)) (m : list (list num)) : list (list num) :=
  map (fun rm => map (fun vb : num * bool => if snd vb then fst vb else None) (combine (fst rm) (snd rm)))
      (combine m mask).

(** the summary table; None is the empty string *)
Record summary_table := {
  s_algorithms : list string;
  s_avg_perf_all : list num; s_std_perf_all : list num; s_probability_of_good : list num;
  s_avg_perf_selected : list num; s_std_perf_selected : list num;
  s_cv_model_accuracy : list num; s_cv_model_precision : list num; s_cv_model_recall : list num;
  s_box_constraint : list num; s_kernel_scale : list num }.

(** pythia.py:133-205 [PythiaOutput] without mu, sigma, cp and svm; [o_y] is the array passed as
    y after the stage (pythia.py:820 assigns to it) *)
Record pythia_out := {
  o_w : list (list num); o_cvcmat : list (nat * nat * nat * nat);
  o_y_sub : list (list bool); o_y_hat : list (list bool); o_pr0_sub : list (list num); o_pr0_hat : list (list num);
  o_box_consnt : list num; o_k_scale : list num;
  o_accuracy : list Q; o_precision : list Q; o_recall : list Q;
  o_selection0 : list nat; o_selection1 : list nat; o_summary : summary_table;
  o_y : list (list num) }.

Section Pythia.
  (** training, search and cross-validated prediction for algorithm i on the normalised z, the
      i-th columns of y_bin and of the weights (pythia.py:514-604) *)
  Variable fit : nat -> hyper -> list bool -> list num -> res pyerr svm_res.
  (** np.round(_, 3) and the square root *)
  Variable round3 : num -> num.
  Variable root : num -> num.

  (** np.nanstd: the root of the mean squared deviation of the values present *)
  Definition nanstd (l : list num) : num :=
    root (nanmean (map (fun v => nsq (nsub v (nanmean l))) l)).
  Definition percent (q : num) : num := match q with Some v => Some (100 * v)%Q | None => None end.

  (** pythia.py:756-884 [_generate_summary]; also the new contents of y.  [ndim] is the number of
      dimensions of selection0; a mask with more than the two dimensions of y cannot index it. *)
  Definition generate_summary (ndim nalgos : nat) (algo_labels : list string) (y : list (list num))
      (y_hat y_bin : list (list bool)) (y_best : list num) (selection0 selection1 : list nat)
      (precision accuracy recall : list Q) (box_consnt k_scale : list num)
    : res pyerr (summary_table * list (list num)) :=
    let sel0 := sel_matrix selection0 nalgos in
    let sel1 := sel_matrix selection1 nalgos in
    let cols f := map f (seq 0 nalgos) in
    let avgperf := cols (fun j => round3 (nanmean (column None y j))) in
    let stdperf := cols (fun j => round3 (nanstd (column None y j))) in
    let y' := keep_where sel0 y in
    let y_full := keep_where sel1 y in
    let y_svms := keep_where y_hat y in
    let pgood := rate (map (fun bs => existsb (fun b => b) (map (fun p : bool * bool => fst p && snd p) (combine (fst bs) (snd bs))))
                           (combine y_bin sel1)) in
    let precisionsel := precision_score (concat y_bin) (concat sel0) in
    let recallsel := recall_score (concat y_bin) (concat sel0) in
    if Nat.ltb 2 (ndim + 1) then Err EIndex
    else if Nat.eqb (length algo_labels) nalgos then
      Ok ({| s_algorithms := algo_labels ++ ["Oracle"; "Selector"]%string;
             s_avg_perf_all := map round3 (avgperf ++ [nanmean y_best; nanmean (concat y_full)]);
             s_std_perf_all := map round3 (stdperf ++ [nanstd y_best; nanstd (concat y_full)]);
             s_probability_of_good := map round3 (cols (fun j => Some (rate (column false y_bin j))) ++ [Some 1%Q; Some pgood]);
             s_avg_perf_selected := map round3 (cols (fun j => nanmean (column None y_svms j)) ++ [None; nanmean (concat y_full)]);
             s_std_perf_selected := map round3 (cols (fun j => nanstd (column None y_svms j)) ++ [None; nanstd (concat y_full)]);
             s_cv_model_accuracy := map (fun v => round3 (percent v)) (map Some accuracy ++ [None; None]);
             s_cv_model_precision := map (fun v => round3 (percent v)) (map Some precision ++ [None; Some precisionsel]);
             s_cv_model_recall := map (fun v => round3 (percent v)) (map Some recall ++ [None; Some recallsel]);
             s_box_constraint := map round3 (box_consnt ++ [None; None]);
             s_kernel_scale := map round3 (k_scale ++ [None; None]) |}, y')
    else Err ELabels.

  (** pythia.py:396-446, algorithm i *)
  Definition train_one (y_bin : list (list bool)) (w : list (list num)) (par : option params)
      (algo_labels : list string) (nalgos i : nat) : res pyerr svm_res :=
    match fit i (param_space par nalgos i) (column false y_bin i) (column None w i) with
    | Err e => Err e
    | Ok r => if two_labels (column false y_bin i ++ r_ysub r)
              then if Nat.ltb i (length algo_labels) then Ok r else Err ELabels
              else Err EUnpack
    end.

  (** pythia.py:284-511 [pythia]; [nalgos] is y_bin.shape[1] *)
  Definition pythia (y : list (list num)) (y_bin : list (list bool)) (y_best : list num) (algo_labels : list string)
      (nalgos : nat) (use_weights : bool) (par : option params) : res pyerr pythia_out :=
    let ninst := length y_bin in
    match (if use_weights then weights y else Ok (unit_weights ninst nalgos)) with
    | Err e => Err e
    | Ok w =>
        match sequence (map (train_one y_bin w par algo_labels nalgos) (seq 0 nalgos)) with
        | Err e => Err e
        | Ok rs =>
            let cols := map (column false y_bin) (seq 0 nalgos) in
            let score f := map (fun tr => f (fst tr) (r_yhat (snd tr))) (combine cols rs) in
            let accuracy_record := score accuracy_score in
            let precision_record := score precision_score in
            let recall_record := score recall_score in
            let y_hat := of_columns false ninst (map r_yhat rs) in
            match nalgos with
            | O => Err ENoAlgorithm
            | _ =>
                let sel := determine_selections nalgos precision_record y_hat y_bin in
                match generate_summary (sel_ndim nalgos) nalgos algo_labels y y_hat y_bin y_best (fst sel) (snd sel)
                        accuracy_record precision_record recall_record (map r_c rs) (map r_g rs) with
                | Err e => Err e
                | Ok (s, y') =>
                    Ok {| o_w := w;
                          o_cvcmat := map (fun tr => let t := fst tr in let p := r_ysub (snd tr) in (tn t p, fp t p, fn t p, tp t p)) (combine cols rs);
                          o_y_sub := of_columns false ninst (map r_ysub rs); o_y_hat := y_hat;
                          o_pr0_sub := of_columns None ninst (map r_psub rs); o_pr0_hat := of_columns None ninst (map r_phat rs);
                          o_box_consnt := map r_c rs; o_k_scale := map r_g rs;
                          o_accuracy := accuracy_record; o_precision := precision_record; o_recall := recall_record;
                          o_selection0 := fst sel; o_selection1 := snd sel; o_summary := s; o_y := y' |}
                end
            end
        end
    end.
End Pythia.
