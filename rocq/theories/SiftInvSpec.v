(** Vocabulary for the property about what SIFTED's selection depends on. *)
From Verif Require Import Base Num.
Set Implicit Arguments.
Open Scope nat_scope.
Open Scope list_scope.

(** The ranking of the features for an algorithm is a function of their correlations with it
    (np.argsort along a column). *)
Definition by_column (ranking : list Q -> list nat) (rho : list (list Q)) (j : nat) : list nat :=
  ranking (map (fun r => nth j r 0%Q) rho).
(** The correlation coefficient depends neither on the units nor on the zero points. *)
Definition scale_blind (pearson : list (Q * Q) -> num * num) : Prop :=
  forall a b c d l, (0 < a)%Q -> (0 < c)%Q ->
    pearson (map (fun p => (a * fst p + b, c * snd p + d)%Q) l) = pearson l.
(** It changes its sign with the direction of a variable. *)
Definition direction_aware (pearson : list (Q * Q) -> num * num) : Prop :=
  forall l, let q := pearson l in let q' := pearson (map (fun p => (- fst p, snd p)%Q) l) in
    snd q' = snd q /\ match fst q, fst q' with Some r, Some r' => (r' == - r)%Q | None, None => True | _, _ => False end.
(** A row with its columns in another order, or some of them: column j is the former column [nth j s]. *)
Definition in_order (s : list nat) (row : list num) : list num := map (fun j => nth j row None) s.
(** A row with every column j in a unit [a j] and with a zero point [b j] of its own. *)
Definition rescaled (a b : nat -> Q) (row : list num) : list num :=
  map (fun p => option_map (fun v => (a (fst p) * v + b (fst p))%Q) (snd p)) (combine (seq 0 (length row)) row).
(** Column f in the opposite direction. *)
Definition turned (f : nat) (row : list num) : list num :=
  map (fun p => if Nat.eqb (fst p) f then option_map Qopp (snd p) else snd p) (combine (seq 0 (length row)) row).
