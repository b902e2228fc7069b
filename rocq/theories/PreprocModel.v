(** Model of instancespace/stages/preprocessing.py.  Definitions only.
    A matrix is the list of its rows; NaN is [None].  Printing is not modelled. *)
From Verif Require Import Base Num.
Set Implicit Arguments.

(** [list.index]: the first position; used only for labels that occur *)
Fixpoint index_of (l : string) (labels : list string) : nat :=
  match labels with
  | [] => 0
  | l' :: t => if String.eqb l' l then 0 else S (index_of l t)
  end.

(** preprocessing.py:191-276 (features 232-254, algorithms 257-275): one half of [select_features_and_algorithms];
    [requested] is selvars.feats (selvars.algos), a list of names or None *)
Definition select_columns (m : list (list num)) (labels : list string) (requested : option (list string))
  : list (list num) * list string :=
  match requested with
  | None => (m, labels)
  | Some req =>
      let selected := filter (fun l => mem string_dec l req) labels in
      if nonempty selected then
        let cols := map (fun l => index_of l labels) selected in
        (map (fun row => map (fun c => nth c row None) cols) m, selected)
      else (m, labels)
  end.

Inductive perr := EZeroDiv.

Definition count {A} (p : A -> bool) (l : list A) : nat := length (filter p l).

(** preprocessing.py:279-365 [remove_instances_with_many_missing_values].  [width] is
    x.shape[1].  [np.mean(isnan) >= 0.20] is taken exactly: [5 * missing >= instances].
    With no instance left the mean is NaN (no column is dropped) and [nuinst / ninst] raises
    ZeroDivisionError (360).  The duplicate warning only prints. *)
Definition remove_missing {L S} (x y : list (list num)) (s : option (list S))
    (feat_labels : list string) (width : nat) (inst_labels : list L)
  : res perr (list (list num) * list (list num) * list L * list string * option (list S)) :=
  let idx := map (fun p => forallb isnan (fst p) || forallb isnan (snd p)) (combine x y) in
  let keep := map negb idx in
  let '(x1, y1, il1, s1) :=
    if existsb (fun b => b) idx
    then (select keep x, select keep y, select keep inst_labels, option_map (select keep) s)
    else (x, y, inst_labels, s) in
  let n := length x1 in
  let missing c := count isnan (column None x1 c) in
  let drop := map (fun c => Nat.leb n (5 * missing c) && negb (Nat.eqb n 0)) (seq 0 width) in
  let '(x2, fl2) :=
    if existsb (fun b => b) drop
    then (map (select (map negb drop)) x1, select (map negb drop) feat_labels)
    else (x1, feat_labels) in
  if Nat.eqb n 0 then Err EZeroDiv else Ok (x2, y1, il1, fl2, s1).

(** The output of the stage (preprocessing.py:88-110). *)
Record preproc_out (L S : Type) := {
  p_inst : list L; p_feat : list string; p_algo : list string;
  p_x : list (list num); p_y : list (list num); p_s : option (list S);
  p_x_raw : list (list num); p_y_raw : list (list num)
}.
Arguments Build_preproc_out {L S}.

(** preprocessing.py:139-188 [_run] *)
Definition preproc_run {L S} (features algorithms : list (list num)) (feature_names algorithm_names : list string)
    (feats algos : option (list string)) (sources : option (list S)) (labels : list L)
  : res perr (preproc_out L S) :=
  let '(x1, fl1) := select_columns features feature_names feats in
  let '(y1, al1) := select_columns algorithms algorithm_names algos in
  match remove_missing x1 y1 sources fl1 (length fl1) labels with
  | Err e => Err e
  | Ok (x2, y2, il2, fl2, s2) =>
      Ok {| p_inst := il2; p_feat := fl2; p_algo := al1; p_x := x2; p_y := y2; p_s := s2;
            p_x_raw := x2; p_y_raw := y2 |}
  end.
