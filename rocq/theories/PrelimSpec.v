(** Vocabulary for the PRELIM properties. *)
From Verif Require Import Base Num Ext PrelimModel.
Set Implicit Arguments.

(** The distance from 1 to the next larger double. *)
Definition machine_epsilon : Q := 1 # (2 ^ 52).

(** What PRELIM leaves of a raw performance: with absolute performance everything, with relative
    performance everything but a zero, for which it puts machine epsilon. *)
Definition raw_after (o : popts) (v : num) : num :=
  if abs_perf o then v
  else match v with Some q => if Qeq_bool q 0 then Some machine_epsilon else v | None => None end.

(** Performance [a] is strictly better than [b]. *)
Definition beats (o : popts) (a b : Q) : Prop := if max_perf o then (b < a)%Q else (a < b)%Q.

(** [b] is the best performance present in the row, first attained by algorithm k (0-based). *)
Definition first_best (o : popts) (row : list num) (k : nat) (b : Q) : Prop :=
  nth_error row k = Some (Some b) /\
  (forall j v, nth_error row j = Some (Some v) -> ~ beats o v b) /\
  (forall j v, j < k -> nth_error row j = Some (Some v) -> beats o b v).

(** [v] is the k-th quartile of the ascending list [s] by the midpoint rule: halfway between the
    entries at the positions next below and next above k/4 of the way from the first to the last. *)
Definition quartile_of (k : nat) (s : list Q) (v : Q) : Prop :=
  exists i j a b, nth_error s i = Some a /\ nth_error s j = Some b /\
    4 * i <= k * (length s - 1) < 4 * i + 4 /\ k * (length s - 1) <= 4 * j < k * (length s - 1) + 4 /\
    (v == (a + b) / 2)%Q.

(** Entry j of a list of booleans is present and true. *)
Definition good_at (l : list bool) (j : nat) : Prop := nth_error l j = Some true.

(** All values of the row, none missing. *)
Definition complete (row : list num) : Prop := forall v, In v row -> v <> None.

(** [l'] consists of the entries of [l] at the positions [idx], in that order. *)
Definition restricted_to {A} (idx : list nat) (l l' : list A) : Prop :=
  map Some l' = map (nth_error l) idx.

(** All per-instance arrays have n entries. *)
Definition of_size {L S} (n : nat) (d : inst_data L S) : Prop :=
  length (d_x d) = n /\ length (d_y d) = n /\ length (d_x_raw d) = n /\ length (d_y_raw d) = n /\
  length (d_bin d) = n /\ length (d_beta d) = n /\ length (d_good d) = n /\ length (d_best d) = n /\
  length (d_p d) = n /\ length (d_labels d) = n /\
  match d_s d with Some s => length s = n | None => True end.

(** Every per-instance array of [d'] is that of [d] restricted to the same positions. *)
Definition all_restricted_to {L S} (idx : list nat) (d d' : inst_data L S) : Prop :=
  restricted_to idx (d_x d) (d_x d') /\ restricted_to idx (d_y d) (d_y d') /\
  restricted_to idx (d_x_raw d) (d_x_raw d') /\ restricted_to idx (d_y_raw d) (d_y_raw d') /\
  restricted_to idx (d_bin d) (d_bin d') /\ restricted_to idx (d_beta d) (d_beta d') /\
  restricted_to idx (d_good d) (d_good d') /\ restricted_to idx (d_best d) (d_best d') /\
  restricted_to idx (d_p d) (d_p d') /\ restricted_to idx (d_labels d) (d_labels d') /\
  match d_s d, d_s d' with
  | Some s, Some s' => restricted_to idx s s'
  | None, None => True
  | _, _ => False
  end.
