(** Vocabulary for C138: stages of the user's own beside those of the pipeline. *)
From Verif Require Import Base BuilderModel BuilderSpec DefaultModel.
Open Scope list_scope.

(** the schedule without one of the stages *)
Definition without (p : sid) (sched : list (list sid)) : list (list sid) :=
  filter nonempty (map (filter (fun s => negb (Nat.eqb s p))) sched).

(** [p] only looks on: it returns something, nothing the stages read or return, and it reads what they return
    or what there is from the start. *)
Definition onlooker (D : decls) (stages : list sid) (init : list arg) (p : sid) : Prop :=
  d_out D p <> [] /\ (forall a, In a (d_out D p) -> ~ marker_class a) /\
  (forall a, In a (d_in D p) -> ~ marker_class a /\ (In a init \/ exists s, In s stages /\ In a (d_out D s))) /\
  (forall a, In a (d_out D p) -> ~ In a (d_in D p) /\ forall s, In s stages -> ~ In a (d_in D s) /\ ~ In a (d_out D s)).

(** the names that occur in the default pipeline *)
Definition default_names : list string :=
  map fst default_inputs ++ flat_map (fun s => map fst (d_in default_decls s) ++ map fst (d_out default_decls s)) default_stages.
(** A plugin that can stand beside the default stages: it reads what they return or what InstanceSpace gives them, under
    the same annotations, and returns something, under names of its own. *)
Definition plugin_for_default (pin pout : list arg) : Prop :=
  pout <> [] /\ (forall a, In a pout -> ~ marker_class a) /\
  (forall a, In a pin -> In a default_inputs \/ exists s, In s default_stages /\ In a (d_out default_decls s)) /\
  (forall a, In a pout -> ~ In (fst a) default_names).
