(** Vocabulary for the purifier properties. *)
From Verif Require Import Base Num FilterModel.
Set Implicit Arguments.

(** The squared Euclidean distance of two rows of equal length without NaN. *)
Fixpoint sq_euclid (u v : list Q) : Q :=
  match u, v with
  | a :: u, b :: v => ((a - b) * (a - b) + sq_euclid u v)%Q
  | _, _ => 0%Q
  end.

(** Rows u and v have no NaN in common positions and are at most [r] apart; [s] scales the
    squared threshold ([s = 1] for features, [n_algos/n_feats] for performance, so that the
    threshold is [sqrt s * r]). *)
Definition apart_at_most (s r : Q) (u v : list num) : Prop :=
  exists u' v', u = map Some u' /\ v = map Some v' /\
    (0 <= r)%Q /\ (sq_euclid u' v' <= s * (r * r))%Q.

Section Spec.
  Variables x y : list (list num).
  Variable y_bin : list (list bool).
  Variables n_feats n_algos : nat.
  Variable r : Q.

  Definition near (i j : nat) : Prop := apart_at_most 1 r (nth i x []) (nth j x []).
  Definition near_perf (i j : nat) : Prop :=
    apart_at_most ((Z.of_nat n_algos # 1) / (Z.of_nat n_feats # 1)) r (nth i y []) (nth j y []).
  Definition all_good (i : nat) : Prop := forall a, a < n_algos -> nth a (nth i y_bin []) false = true.

  (** The performance condition of each type, as documented (filter.py:20-28). *)
  Definition alike (t : ftype) (i j : nat) : Prop :=
    match t with
    | Ftr => True
    | FtrAP => near_perf i j
    | FtrGood => all_good i /\ all_good j
    | FtrAPGood => all_good i /\ all_good j /\ near_perf i j
    end.

  (** Well-formed data: n rows each, rows of the stated widths. *)
  Definition matrices : Prop :=
    length x = length y /\ length y_bin = length y /\
    Forall (fun row => length row = n_feats) x /\
    Forall (fun row => length row = n_algos) y /\
    Forall (fun row => length row = n_algos) y_bin.
End Spec.

(** Entry i of a boolean result. *)
Definition is_set (l : list bool) (i : nat) : Prop := nth i l false = true.

(** The rows whose flag is not set: [m[~mask]]. *)
Definition keep_rows {A} (mask : list bool) (m : list A) : list A := select (map negb mask) m.
