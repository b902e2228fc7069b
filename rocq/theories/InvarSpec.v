(** Vocabulary for the properties about the scale and the order of the columns given to the purifier. *)
From Verif Require Import Base Num.
Set Implicit Arguments.
Open Scope list_scope.

(** A row measured from other zero points: [d] is added column by column. *)
Definition shifted (d : list Q) (row : list num) : list num :=
  map (fun p => option_map (Qplus (snd p)) (fst p)) (combine row d).
(** A row in another unit. *)
Definition times (c : Q) (row : list num) : list num := map (option_map (Qmult c)) row.
(** A row with one more column, of value [v]. *)
Definition with_column (v : Q) (row : list num) : list num := row ++ [Some v].
