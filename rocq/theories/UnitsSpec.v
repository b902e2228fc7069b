(** Vocabulary for the properties about the unit and the direction of the performance measure. *)
From Verif Require Import Base Num Ext PrelimModel.
Set Implicit Arguments.

(** The performances in another unit; missing ones stay missing. *)
Definition convert (f : Q -> Q) (row : list num) : list num := map (option_map f) row.
(** Two results that say the same about an instance: which algorithms are good, how many, which is best,
    and whether the instance is easy. *)
Definition same_verdict (a b : row_out) : Prop :=
  r_bin a = r_bin b /\ r_p a = r_p b /\ r_good a = r_good b /\ r_beta a = r_beta b.
(** Equal as floats, two NaN included. *)
Definition same_value (a b : ext) : Prop :=
  match a, b with
  | Fin x, Fin y => (x == y)%Q
  | PInf, PInf | NInf, NInf | ENaN, ENaN => True
  | _, _ => False
  end.
(** The options with the other direction, or another threshold. *)
Definition with_direction (m : bool) (o : popts) : popts :=
  {| max_perf := m; abs_perf := abs_perf o; epsilon := epsilon o; beta_threshold := beta_threshold o; bound := bound o; norm := norm o |}.
Definition with_threshold (e : Q) (o : popts) : popts :=
  {| max_perf := max_perf o; abs_perf := abs_perf o; epsilon := e; beta_threshold := beta_threshold o; bound := bound o; norm := norm o |}.
