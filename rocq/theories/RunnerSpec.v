(** Vocabulary for the runner properties. *)
From Verif Require Import Base BuilderModel RunnerModel.
Set Implicit Arguments.

Section Spec.
  Variable V : Type.

  (** What names mean at some moment. *)
  Definition env := string -> option V.

  (** The meaning of a list of named values (keyword arguments, fields of a NamedTuple). *)
  Fixpoint given (l : list (string * V)) : env := fun n =>
    match l with
    | [] => None
    | (k, v) :: t => match given t n with
                     | Some w => Some w
                     | None => if String.eqb k n then Some v else None
                     end
    end.

  (** [e] changed exactly at the names in [new]. *)
  Definition updated (e : env) (new : list (string * V)) : env := fun n =>
    match given new n with Some v => Some v | None => e n end.

  (** The named values, in order, or nothing if one has no value. *)
  Fixpoint read_fields (e : env) (names : list string) : option (list (string * V)) :=
    match names with
    | [] => Some []
    | n :: t => match e n, read_fields e t with
                | Some v, Some r => Some ((n, v) :: r)
                | _, _ => None
                end
    end.

  Variable fields : sid -> list string.
  Variable behave : list (event V) -> sid -> list (string * V) -> option (list (string * V)).

  (** Left-to-right composition of stages: every stage reads its fields from the environment
      and its outputs are written over it.  [h] is the list of executions so far. *)
  Fixpoint compose (h : list (event V)) (l : list sid) (e : env)
    : list (event V) * res rerr env :=
    match l with
    | [] => (h, Ok e)
    | s :: t =>
        match read_fields e (fields s) with
        | None => (h, Err KeyError)
        | Some i =>
            let o := behave h s i in
            let h1 := h ++ [{| ev_stage := s; ev_in := i; ev_out := o |}] in
            match o with
            | None => (h1, Err StageFailed)
            | Some outs => compose h1 t (updated e outs)
            end
        end
    end.

  (** Stages whose outcome depends only on their inputs. *)
  Definition deterministic : Prop := forall h1 h2 s i, behave h1 s i = behave h2 s i.

  Variable sched : list (list sid).

  (** A schedule of non-empty groups without repetition (what build returns: C01). *)
  Definition well_formed : Prop := NoDup (concat sched) /\ Forall (fun g => g <> []) sched.

  (** States of a runner after some history of calls. *)
  Definition reachable (st : rstate V) : Prop :=
    exists ops, st = steps fields behave sched (fresh_runner V) ops.

  (** The values available to stages now. *)
  Definition values (st : rstate V) : env := dget (hget (heap st) (avail st)).

  (** The content of a dictionary object now. *)
  Definition content (st : rstate V) (a : nat) : list (string * V) := hget (heap st) a.

  (** Stage [s] was executed successfully in history [h]. *)
  Definition succeeded_in (h : list (event V)) (s : sid) : Prop :=
    exists e o, In e h /\ ev_stage e = s /\ ev_out e = Some o.

  (** [n] consecutive calls of next on generator [k]. *)
  Fixpoint nexts (n : nat) (st : rstate V) (k : nat)
    : rstate V * list (res rerr (sid * list (string * V))) :=
    match n with
    | 0 => (st, [])
    | S n' => let '(st1, r) := gen_next fields behave sched st k in
              let '(st2, rs) := nexts n' st1 k in (st2, r :: rs)
    end.

  (** A call that starts a new run over the whole schedule. *)
  Definition starts_run (st : rstate V) (o : op V) : Prop :=
    match o with
    | RunAll _ | RunUntil _ _ => True
    | Next _ k => exists a, nth_error (gens st) k = Some (GNew a)
    | _ => False
    end.
End Spec.
