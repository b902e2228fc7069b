(** Vocabulary for the builder properties, independent of the resolution algorithm. *)
From Verif Require Import Base BuilderModel.

(** The oracle for set iteration order returns some enumeration of the set it is given. *)
Definition any_order (iter : nat -> list sid -> list sid) : Prop :=
  forall n l, Permutation (iter n l) l.

(** Stage [s] is in group number [k] of the schedule. *)
Definition runs_in (sched : list (list sid)) (k : nat) (s : sid) : Prop :=
  exists g, nth_error sched k = Some g /\ In s g.

(** Argument [a] is an initial input or an output of a stage in a group before [k]. *)
Definition available_before (D : decls) (initial : list arg) (sched : list (list sid))
           (k : nat) (a : arg) : Prop :=
  In a initial \/ exists j s, j < k /\ runs_in sched j s /\ In a (d_out D s).

(** Every input of every scheduled stage is available when its group starts. *)
Definition runnable (D : decls) (initial : list arg) (sched : list (list sid)) : Prop :=
  forall k s a, runs_in sched k s -> In a (d_in D s) ->
                available_before D initial sched k a.

(** A plain sequence of stages in which each finds its inputs. *)
Definition executable_sequence (D : decls) (initial : list arg) (seq : list sid) : Prop :=
  forall before s after, seq = before ++ s :: after ->
    forall a, In a (d_in D s) ->
      In a initial \/ exists t, In t before /\ In a (d_out D t).

(** [s] both reads and writes [a]. *)
Definition mutates (D : decls) (s : sid) (a : arg) : Prop :=
  In a (d_in D s) /\ In a (d_out D s).

(** An annotation that is a class derived from RunBefore / RunAfter. *)
Definition marker_class (a : arg) : Prop :=
  exists b c, snd a = TClass b c /\ (b = true \/ c = true).

(** Two results describe the same schedule up to the order inside the groups, or are
    exceptions of the same class. *)
Definition same_result (r1 r2 : res berr (list (list sid))) : Prop :=
  match r1, r2 with
  | Ok s1, Ok s2 => Forall2 (@Permutation sid) s1 s2
  | Err e1, Err e2 => exn_class e1 = exn_class e2
  | _, _ => False
  end.

(** Marker aliases read as ordinary annotations: a translation of annotations to annotations
    without RunBefore[X] / RunAfter[X], in which different annotations stay different. *)
Definition unmark (t : ptype) : ptype :=
  match t with
  | TPlain n => TPlain (3 * n)
  | TAlias RunBefore s => TPlain (3 * s + 1)
  | TAlias RunAfter s => TPlain (3 * s + 2)
  | TClass b a => TClass b a
  end.
Definition unmark_arg (a : arg) : arg := (fst a, unmark (snd a)).
Definition unmark_decls (D : decls) : decls :=
  {| d_in := fun s => map unmark_arg (d_in D s);
     d_out := fun s => map unmark_arg (d_out D s) |}.

(** Same schedule, or exceptions of the same class. *)
Definition same_outcome (r1 r2 : res berr (list (list sid))) : Prop :=
  match r1, r2 with
  | Ok s1, Ok s2 => s1 = s2
  | Err e1, Err e2 => exn_class e1 = exn_class e2
  | _, _ => False
  end.
