(** Vocabulary for the PILOT properties. *)
From Verif Require Import Mat PilotModel.
Set Implicit Arguments.
Open Scope nat_scope.
Open Scope list_scope.

(** The flat parameters hold A (2 x n, by rows) and then B (m x 2, by rows). *)
Definition weight_A (al : list num) (n r j : nat) : num := nth (r * n + j) al None.
Definition weight_B (al : list num) (n k r : nat) : num := nth (2 * n + (2 * k + r)) al None.

(** Coordinate [r] of an instance: the weighted sum of its features. *)
Definition coordinate (al : list num) (n r : nat) (row : list num) : num :=
  nsum (map (fun j => nmul (weight_A al n r j) (nth j row None)) (seq 0 n)).
Definition projection (al : list num) (n : nat) (x : list (list num)) : list (list num) :=
  map (fun row => [coordinate al n 0 row; coordinate al n 1 row]) x.

(** The position np.argmax reports: the first largest value, or the first NaN if there is one. *)
Definition first_best (l : list num) (k : nat) : Prop :=
  k < length l /\
  (~ In None l -> forall i v, nth_error l i = Some (Some v) ->
     exists b, nth_error l k = Some (Some b) /\ (v <= b)%Q /\ (i < k -> (v < b)%Q)) /\
  (In None l -> nth_error l k = Some None /\ forall i, i < k -> nth_error l i <> Some None).

(** The same with rational parameters and features: what [a] predicts for value [k] of an
    instance (its features and then its performances) from its features. *)
Definition qcoordinate (a : list Q) (n r : nat) (fs : list Q) : Q :=
  qsum (map (fun j => nth (r * n + j) a 0 * nth j fs 0)%Q (seq 0 n)).
Definition predicted (a : list Q) (n k : nat) (fs : list Q) : Q :=
  (nth (2 * n + (2 * k + 0)) a 0 * qcoordinate a n 0 fs +
   nth (2 * n + (2 * k + 1)) a 0 * qcoordinate a n 1 fs)%Q.
(** [fs] are the features of [row], none missing *)
Definition complete (n : nat) (row : list num) (fs : list Q) : Prop := firstn n row = map Some fs.
Definition misses_a_feature (n : nat) (row : list num) : Prop := In None (firstn n row).

(** Well-formed inputs: x has n columns, y has na columns; every starting point has one entry
    per parameter; the optimiser returns a point of the same dimension. *)
Definition well_formed (bfgs : list num -> list num * num) (random : nat -> nat -> list (list num))
    (x y : list (list num)) (n na : nat) (o : pilot_options) : Prop :=
  Forall (fun r => length r = n) x /\ Forall (fun r => length r = na) y /\
  (forall g, length (fst (bfgs g)) = length g) /\
  let rows := 2 * (n + na) + 2 * n in
  match p_x0 o with
  | Some s => Forall (fun g => length g = rows) s
  | None => Forall (fun g => length g = rows) (random rows (p_tries o))
  end.
