(** Vocabulary for the preprocessing properties. *)
From Coq Require Import Sorted.
From Verif Require Import Base Num.
Set Implicit Arguments.

(** n rows of the given width *)
Definition table {A} (n width : nat) (m : list (list A)) : Prop :=
  length m = n /\ Forall (fun r => length r = width) m.

(** the cell in row i, column c *)
Definition cell (m : list (list num)) (i c : nat) : num := nth c (nth i m []) None.

(** the sub-table with the given rows and columns *)
Definition subtable (m : list (list num)) (rows cols : list nat) : list (list num) :=
  map (fun i => map (cell m i) cols) rows.
Definition take_at {A} (d : A) (l : list A) (rows : list nat) : list A := map (fun i => nth i l d) rows.

Definition increasing (l : list nat) : Prop := StronglySorted lt l.

(** column c carries label l and no earlier column does *)
Definition first_labelled (labels : list string) (l : string) (c : nat) : Prop :=
  nth_error labels c = Some l /\ forall c', c' < c -> nth_error labels c' <> Some l.

(** instance i has no feature value at all, or no performance value at all *)
Definition empty_instance (x y : list (list num)) (i : nat) : Prop :=
  Forall (fun v => v = None) (nth i x []) \/ Forall (fun v => v = None) (nth i y []).

(** among the instances [rows], at least 20 % have no value in column c *)
Definition missing_often (x : list (list num)) (rows : list nat) (c : nat) : Prop :=
  length rows <= 5 * length (filter (fun i => isnan (cell x i c)) rows).

(** [cols] are the columns of the names requested: all of them if nothing or no name of a column is requested,
    otherwise, for each name that is, in the order of the table, the first column of that name *)
Definition requested (names : list string) (req : option (list string)) (cols : list nat) : Prop :=
  match req with
  | Some l =>
      if existsb (fun n => mem string_dec n l) names
      then take_at ""%string names cols = filter (fun n => mem string_dec n l) names /\
           Forall (fun c => first_labelled names (nth c names ""%string) c) cols
      else cols = seq 0 (length names)
  | None => cols = seq 0 (length names)
  end.
(** [kept] are the instances with a value of a requested feature and one of a requested algorithm; [fcols] the
    requested features that fewer than 20 % of these lack; [acols] the requested algorithms. *)
Definition prepared (x y : list (list num)) (fnames anames : list string) (feats algos : option (list string)) (n : nat)
    (kept fcols acols : list nat) : Prop :=
  requested anames algos acols /\
  exists req, requested fnames feats req /\
    (forall i, In i kept <-> i < n /\ (exists f, In f req /\ cell x i f <> None) /\ (exists a, In a acols /\ cell y i a <> None)) /\
    exists pos, increasing pos /\ fcols = take_at 0 req pos /\
      forall k, In k pos <-> k < length req /\ ~ missing_often x kept (nth k req 0).
