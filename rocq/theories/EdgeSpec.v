(** Vocabulary for the properties about when CLOISTER finds a boundary. *)
From Verif Require Import Mat CloisterModel CloisterSpec.
Set Implicit Arguments.
Open Scope nat_scope.
Open Scope list_scope.

Definition in_plane (p : Q * Q) : list num := [Some (fst p); Some (snd p)].
(** Zero exactly if the three points are on one line. *)
Definition turn (p q r : Q * Q) : Q :=
  ((fst q - fst p) * (snd r - snd p) - (snd q - snd p) * (fst r - fst p))%Q.
Definition on_a_line (pts : list (list num)) : Prop :=
  forall p q r, In (in_plane p) pts -> In (in_plane q) pts -> In (in_plane r) pts -> (turn p q r == 0)%Q.
(** What is assumed of the convex hull routine: it fails exactly on points of the plane that are all on one line. *)
Definition fails_on_lines (hull : list (list num) -> option (list nat)) : Prop :=
  forall pts, (forall v, In v pts -> exists p, v = in_plane p) -> (hull pts = None <-> on_a_line pts).

(** Two instances differ in feature j. *)
Definition varies (x : list (list num)) (j : nat) : Prop :=
  exists r r' v v', In r x /\ In r' x /\ nth j r None = Some v /\ nth j r' None = Some v' /\ ~ (v == v')%Q.
(** The projection moves features j and k in different directions. *)
Definition independent (a1 a2 : list Q) (j k : nat) : Prop :=
  ~ (nth j a1 0 * nth k a2 0 == nth k a1 0 * nth j a2 0)%Q.
(** The projections of the corners that contradict no correlation are on one line. *)
Definition kept_on_a_line {E} (pearson : list num -> list num -> res E (num * num)) (x a : list (list num)) (n : nat) (p_val c_thres : Q) : Prop :=
  forall b1 b2 b3 p q r,
    ~ contradicts pearson x n p_val c_thres (corner x n b1) -> ~ contradicts pearson x n p_val c_thres (corner x n b2) ->
    ~ contradicts pearson x n p_val c_thres (corner x n b3) ->
    mulv a (corner x n b1) = in_plane p -> mulv a (corner x n b2) = in_plane q -> mulv a (corner x n b3) = in_plane r ->
    (turn p q r == 0)%Q.
