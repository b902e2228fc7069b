(** Model of the objects behind the values of a StageRunner (stage_runner.py:110-176): arrays that
    stages may change in place, and the deep copy made before each stage.  Definitions only.

    The store maps addresses to the contents of objects.  Objects are flat (an ndarray, a list of
    strings, a Series); objects that contain others (DataDense, footprints) are copied by Python in
    the same way, part by part, which is not modelled. *)
From Verif Require Import Base BuilderModel RunnerModel.
Set Implicit Arguments.

Section Objects.
  Variable O : Type.                         (** contents of an object *)
  Definition store := list O.
  Notation refs := (dict nat).               (** names bound to objects *)

  (** copy.deepcopy of the NamedTuple of inputs (stage_runner.py:155): one fresh object for each
      object met, remembered in a memo *)
  Fixpoint memo_find (memo : list (nat * nat)) (a : nat) : option nat :=
    match memo with
    | [] => None
    | (k, v) :: t => if Nat.eqb k a then Some v else memo_find t a
    end.
  Fixpoint deepcopy (h : store) (memo : list (nat * nat)) (inputs : refs) : store * refs :=
    match inputs with
    | [] => (h, [])
    | (f, a) :: t =>
        match memo_find memo a with
        | Some b => let r := deepcopy h memo t in (fst r, (f, b) :: snd r)
        | None => match nth_error h a with
                  | None => let r := deepcopy h memo t in (fst r, (f, a) :: snd r)   (* dangling: impossible *)
                  | Some v => let r := deepcopy (h ++ [v]) ((a, length h) :: memo) t in (fst r, (f, length h) :: snd r)
                  end
        end
    end.

  (** stage_runner.py:145-147: the input fields looked up by name *)
  Fixpoint bind (d : refs) (names : list string) : option refs :=
    match names with
    | [] => Some []
    | n :: t => match dget d n, bind d t with
                | Some a, Some r => Some ((n, a) :: r)
                | _, _ => None
                end
    end.

  Variable fields : sid -> list string.
  (** stage._run: the store afterwards, and the outputs unless it raised *)
  Variable body : sid -> store -> refs -> store * option refs.

  Record ostate := { objs : store; bound : refs }.
  (** stage_runner.py:139-158: run_stage with overriding arguments [args]; whether it returned.  The
      bookkeeping of schedule items is in RunnerModel.v. *)
  Definition run_stage (st : ostate) (s : sid) (args : refs) : ostate * bool :=
    match bind (dupdate (bound st) args) (fields s) with
    | None => (st, false)
    | Some i =>
        let '(h, copies) := deepcopy (objs st) [] i in
        let '(h', r) := body s h copies in
        match r with
        | None => ({| objs := h'; bound := bound st |}, false)
        | Some out => ({| objs := h'; bound := dupdate (bound st) out |}, true)
        end
    end.
  Definition run_stages (st : ostate) (l : list (sid * refs)) : ostate :=
    fold_left (fun st c => fst (run_stage st (fst c) (snd c))) l st.

  (** the contents a name is bound to *)
  Definition content (st : ostate) (n : string) : option O :=
    match dget (bound st) n with Some a => nth_error (objs st) a | None => None end.
End Objects.
