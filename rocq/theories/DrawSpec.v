(** Vocabulary for the properties of the plots. *)
From Verif Require Import Mat PreprocSpec SerialModel DrawModel.
Set Implicit Arguments.
Open Scope nat_scope.
Open Scope list_scope.

(** Instance k is drawn under a legend. *)
Definition drawn_under (pl : plot) (k : nat) (leg : string) : Prop :=
  exists l, In (Some leg, l) (d_groups pl) /\ In k l.
(** The plot tells the n instances apart by [leg]: one non-empty group per legend, each instance in the
    group of its own legend and in no other. *)
Definition by_legend (n : nat) (leg : nat -> string) (pl : plot) : Prop :=
  NoDup (map fst (d_groups pl)) /\ (forall g, In g (d_groups pl) -> fst g <> None /\ increasing (snd g) /\ snd g <> []) /\
  forall k a, drawn_under pl k a <-> k < n /\ a = leg k.
Definition good_or_bad (flags : list bool) (k : nat) : string := if nth k flags false then "GOOD"%string else "BAD"%string.
(** All n instances are drawn once, coloured by [f]. *)
Definition coloured (n : nat) (f : nat -> num) (pl : plot) : Prop :=
  d_groups pl = [(None, seq 0 n)] /\ d_values pl = Some (map f (seq 0 n)).
(** entry j of every row *)
Definition flags_of (b : list (list bool)) (j : nat) : list bool := map (fun r => nth j r false) b.

(** The arrays of a model with n instances and w features fit together. *)
Definition fits (m : model) (n w : nat) : Prop :=
  0 < n /\ length (m_z m) = n /\ length (m_x m) = n /\ length (m_y_raw m) = n /\ length (m_y_bin m) = n /\
  length (m_y_hat m) = n /\ length (m_p m) = n /\ length (m_selection0 m) = n /\ length (m_beta m) = n /\
  length (m_num_good_algos m) = n /\ (forall s, m_s m = Some s -> length s = n) /\
  length (m_feat_labels m) = w /\ length (m_algo_labels m) = m_nalgos m /\
  length (m_good m) = m_nalgos m /\ length (m_best m) = m_nalgos m.

(** Instance k appears on the plot: its point is drawn and lies in the part of the plane shown. *)
Definition appears (m : model) (pl : plot) (k : nat) : Prop :=
  exists g, In g (d_groups pl) /\ In k (snd g) /\ seen (nth k (m_z m) (None, None)) = true.
