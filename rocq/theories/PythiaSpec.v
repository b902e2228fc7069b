(** Vocabulary for the PYTHIA properties. *)
From Verif Require Import Mat PreprocSpec PythiaModel.
Set Implicit Arguments.
Open Scope nat_scope.
Open Scope list_scope.

(** entry (i, j) of a matrix of booleans; the number of instances with a property *)
Definition flag (m : list (list bool)) (i j : nat) : bool := nth j (nth i m []) false.
Definition how_many (n : nat) (f : nat -> bool) : nat := length (filter f (seq 0 n)).
(** a = b / c for counts, 0 if c is 0 *)
Definition share (a : Q) (b c : nat) : Prop :=
  (a * inject_Z (Z.of_nat c) == inject_Z (Z.of_nat b))%Q /\ (c = 0 -> (a == 0)%Q).

(** algorithm j is predicted good for instance i and has positive precision *)
Definition candidate (out : pythia_out) (nalgos i j : nat) : Prop :=
  j < nalgos /\ flag (o_y_hat out) i j = true /\ (0 < nth j (o_precision out) 0)%Q.
(** s is the first candidate of largest precision *)
Definition best_candidate (out : pythia_out) (nalgos i s : nat) : Prop :=
  candidate out nalgos i s /\
  (forall j, candidate out nalgos i j -> (nth j (o_precision out) 0 <= nth s (o_precision out) 0)%Q) /\
  (forall j, j < s -> candidate out nalgos i j -> (nth j (o_precision out) 0 < nth s (o_precision out) 0)%Q).
(** d is the first algorithm that is good most often *)
Definition most_often_good (y_bin : list (list bool)) (nalgos d : nat) : Prop :=
  d < nalgos /\ forall j, j < nalgos ->
    how_many (length y_bin) (fun i => flag y_bin i j) <= how_many (length y_bin) (fun i => flag y_bin i d) /\
    (j < d -> how_many (length y_bin) (fun i => flag y_bin i j) < how_many (length y_bin) (fun i => flag y_bin i d)).

(** training returns one prediction per instance *)
Definition fit_shape (fit : nat -> hyper -> list bool -> list num -> res pyerr svm_res) : Prop :=
  forall i h t w r, fit i h t w = Ok r -> length (r_yhat r) = length t /\ length (r_ysub r) = length t.

(** distance of a performance from the mean of all performances present *)
Definition deviation (y : list (list num)) (v d : Q) : Prop :=
  exists m, nanmean (concat y) = Some m /\ (d == (if Qle_bool 0 (v - m) then v - m else m - v))%Q.
Definition is_missing (y : list (list num)) : Prop := In None (concat y).
(** the smallest non-zero and the largest deviation *)
Definition smallest_deviation (y : list (list num)) (lo : Q) : Prop :=
  ~ (lo == 0)%Q /\ (exists v, In (Some v) (concat y) /\ deviation y v lo) /\
  forall v d, In (Some v) (concat y) -> deviation y v d -> ~ (d == 0)%Q -> (lo <= d)%Q.
Definition largest_deviation (y : list (list num)) (hi : Q) : Prop :=
  (exists v, In (Some v) (concat y) /\ deviation y v hi) /\
  forall v d, In (Some v) (concat y) -> deviation y v d -> (d <= hi)%Q.
