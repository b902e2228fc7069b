(** Vocabulary for C139: a table as the list of its columns, each with its name. *)
From Verif Require Import Base Num PreprocSpec.
Set Implicit Arguments.

Definition named (labels : list string) (m : list (list num)) : list (string * list num) :=
  map (fun c => (nth c labels ""%string, map (fun row => nth c row None) m)) (seq 0 (length labels)).

(** the columns with one of the names *)
Definition with_names (names : list string) (cols : list (string * list num)) : list (string * list num) :=
  filter (fun c => mem string_dec (fst c) names) cols.
