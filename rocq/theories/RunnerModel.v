(** Model of instancespace/stage_runner.py (StageRunner) as a state machine over a heap of
    dictionaries, and of the InstanceSpace class on top of it.  Definitions only.

    Values are an arbitrary type [V] with value semantics: stage._run receives a deepcopy of
    its inputs (stage_runner.py:151), so a stage cannot change values the runner holds; that
    callers do not modify values in place after receiving them is assumed.  Dictionaries are
    mutable objects with identity: they live in a heap and are referred to by address. *)
From Verif Require Import Base BuilderModel.
Set Implicit Arguments.

Section Runner.
  Variable V : Type.

  (** A Python dict with string keys: insertion ordered, keys distinct. *)
  Definition dict := list (string * V).
  Fixpoint dget (d : dict) (k : string) : option V :=
    match d with
    | [] => None
    | (k', v) :: t => if String.eqb k' k then Some v else dget t k
    end.
  (** d[k] = v *)
  Fixpoint dset (d : dict) (k : string) (v : V) : dict :=
    match d with
    | [] => [(k, v)]
    | (k', v') :: t => if String.eqb k' k then (k', v) :: t else (k', v') :: dset t k v
    end.
  (** for k, v in new.items(): d[k] = v *)
  Definition dupdate (d new : dict) : dict :=
    fold_left (fun d kv => dset d (fst kv) (snd kv)) new d.

  (** One execution of stage._run: the stage, what it was given (field name, value, in field
      order) and what it returned; [None] means that it raised. *)
  Record event := { ev_stage : sid; ev_in : dict; ev_out : option dict }.

  (** The stages: [fields s] is [stage._inputs()._fields] (line 143); [behave h s i] is what
      [stage._run] does on inputs [i] after the executions [h]: [None] = raises, [Some o] =
      returns a NamedTuple with [_asdict() = o].  Stages may be nondeterministic. *)
  Variable fields : sid -> list string.
  Variable behave : list event -> sid -> dict -> option dict.

  (** The constructor argument [stages]. *)
  Variable sched : list (list sid).

  Inductive rerr := KeyError | StageRunningError | StageFailed | StopIteration | NotImplemented.

  (** A generator object made by run_iter (lines 90-108): not started, suspended at a yield
      with the stages still to run, or finished. *)
  Inductive gen := GNew (args : dict) | GRun (rest : list sid) | GDone.

  (** The object's attributes.  [ran] lists the stages whose flag in [_stages_ran] is True.
      [log] is a ghost: all executions of stage._run so far, oldest first. *)
  Record rstate := {
    heap : list dict;
    avail : nat;            (* _available_arguments: address *)
    data : list nat;        (* _schedule_output_data: addresses *)
    cur : nat;              (* _current_schedule_item *)
    ran : list sid;         (* _stages_ran *)
    gens : list gen;        (* generators handed out *)
    log : list event
  }.

  (** stage_runner.py:57-78: [_schedule_output_data = [{}]], [_available_arguments = {}] *)
  Definition fresh_runner : rstate :=
    {| heap := [[]; []]; avail := 1; data := [0]; cur := 0; ran := []; gens := []; log := [] |}.

  (** the dictionary at an address *)
  Definition hget (h : list dict) (a : nat) : dict := nth a h [].
  Fixpoint hset (h : list dict) (a : nat) (d : dict) : list dict :=
    match h, a with
    | [], _ => []
    | _ :: t, 0 => d :: t
    | x :: t, S a' => x :: hset t a' d
    end.

  (** stage_runner.py:76-78 [_stage_to_schedule_index]: later elements overwrite. *)
  Fixpoint index_from (i : nat) (l : list (list sid)) (s : sid) : option nat :=
    match l with
    | [] => None
    | g :: t => match index_from (S i) t s with
                | Some j => Some j
                | None => if smem s g then Some i else None
                end
    end.
  Definition schedule_index (s : sid) : option nat := index_from 0 sched s.

  (** [data[i] = a] *)
  Fixpoint lset (l : list nat) (i : nat) (a : nat) : list nat :=
    match l, i with
    | [], _ => []
    | _ :: t, 0 => a :: t
    | x :: t, S i' => x :: lset t i' a
    end.

  (** stage_runner.py:256-267 [_rollback_to_schedule_index].  Callers only pass indices in
      range ([RunnerProofs.rollback_in_range]). *)
  Definition rollback (st : rstate) (i : nat) : rstate :=
    {| heap := heap st;
       avail := nth i (data st) 0;
       data := firstn (S i) (data st);
       cur := i;
       ran := sdiff Nat.eq_dec (ran st) (concat (skipn (S i) sched));
       gens := gens st; log := log st |}.

  (** stage_runner.py:269-284 [_progress_schedule] *)
  Definition progress (st : rstate) : rstate :=
    if forallb (fun s => smem s (ran st)) (nth (cur st) sched [])
    then
      let data1 := lset (data st) (cur st) (avail st) in
      let cur1 := S (cur st) in
      if length data1 <=? cur1
      then {| heap := heap st ++ [[]]; avail := avail st;
              data := data1 ++ [length (heap st)];
              cur := cur1; ran := ran st; gens := gens st; log := log st |}
      else {| heap := heap st; avail := avail st; data := data1; cur := cur1;
              ran := ran st; gens := gens st; log := log st |}
    else st.

  (** lines 145-147: the loop that looks the input fields up; [None] = KeyError *)
  Fixpoint lookup_all (d : dict) (names : list string) : option dict :=
    match names with
    | [] => Some []
    | n :: t => match dget d n with
                | None => None
                | Some v => match lookup_all d t with
                            | None => None
                            | Some r => Some ((n, v) :: r)
                            end
                end
    end.

  (** stage_runner.py:110-168 [run_stage] *)
  Definition run_stage (st : rstate) (s : sid) (kwargs : dict) : rstate * res rerr dict :=
    match schedule_index s with
    | None => (st, Err KeyError)
    | Some i =>
        if cur st <? i then (st, Err StageRunningError)
        else
          let st1 := if i =? cur st then st else rollback st i in
          let available := dupdate (hget (heap st1) (avail st1)) kwargs in
          match lookup_all available (fields s) with
          | None => (st1, Err KeyError)
          | Some inputs =>
              let o := behave (log st1) s inputs in
              let log1 := log st1 ++ [{| ev_stage := s; ev_in := inputs; ev_out := o |}] in
              match o with
              | None =>
                  ({| heap := heap st1; avail := avail st1; data := data st1; cur := cur st1;
                      ran := ran st1; gens := gens st1; log := log1 |}, Err StageFailed)
              | Some outputs =>
                  let d1 := dupdate (hget (heap st1) (avail st1)) outputs in
                  let st2 :=
                    {| heap := hset (heap st1) (avail st1) d1;
                       avail := avail st1;
                       data := lset (data st1) (cur st1) (avail st1);
                       cur := cur st1;
                       ran := sadd Nat.eq_dec s (ran st1);
                       gens := gens st1; log := log1 |} in
                  (progress st2, Ok outputs)
              end
          end
    end.

  (** [for stage in ...: self.run_stage(stage)] *)
  Fixpoint run_stages (st : rstate) (l : list sid) : rstate * res rerr unit :=
    match l with
    | [] => (st, Ok tt)
    | s :: t => match run_stage st s [] with
                | (st1, Ok _) => run_stages st1 t
                | (st1, Err e) => (st1, Err e)
                end
    end.

  (** lines 101-103 / 198-200 / 220-222: roll back to 0 and take the given arguments as a
      new dictionary object ([_asdict()] fills a new dict, field by field). *)
  Definition start (st : rstate) (args : dict) : rstate :=
    let st1 := rollback st 0 in
    {| heap := heap st1 ++ [dupdate [] args]; avail := length (heap st1); data := data st1;
       cur := cur st1; ran := ran st1; gens := gens st1; log := log st1 |}.

  (** stage_runner.py:190-207 [run_all].  Returns the address of the live dictionary. *)
  Definition run_all (st : rstate) (args : dict) : rstate * res rerr nat :=
    match run_stages (start st args) (concat sched) with
    | (st1, Ok _) => (st1, Ok (avail st1))
    | (st1, Err e) => (st1, Err e)
    end.

  (** stage_runner.py:209-231 [run_until_stage] *)
  Fixpoint groups_until (s : sid) (l : list (list sid)) : list (list sid) :=
    match l with
    | [] => []
    | g :: t => if smem s g then [] else g :: groups_until s t
    end.
  Definition run_until (st : rstate) (s : sid) (args : dict) : rstate * res rerr nat :=
    match run_stages (start st args) (concat (groups_until s sched)) with
    | (st1, Ok _) => (st1, Ok (avail st1))
    | (st1, Err e) => (st1, Err e)
    end.

  (** [gens[k] = g] *)
  Fixpoint gset (l : list gen) (k : nat) (g : gen) : list gen :=
    match l, k with
    | [], _ => []
    | _ :: t, 0 => g :: t
    | x :: t, S k' => x :: gset t k' g
    end.
  Definition with_gens (st : rstate) (gs : list gen) : rstate :=
    {| heap := heap st; avail := avail st; data := data st; cur := cur st; ran := ran st;
       gens := gs; log := log st |}.

  (** stage_runner.py:90-108 [run_iter]: calling it creates a suspended generator; nothing is executed *)
  Definition run_iter (st : rstate) (args : dict) : rstate * nat :=
    (with_gens st (gens st ++ [GNew args]), length (gens st)).

  (** running the body of generator [k] from a yield to the next one; an exception finishes
      the generator *)
  Definition gen_continue (st : rstate) (k : nat) (rest : list sid)
    : rstate * res rerr (sid * dict) :=
    match rest with
    | [] => (with_gens st (gset (gens st) k GDone), Err StopIteration)
    | s :: t => match run_stage st s [] with
                | (st1, Ok o) => (with_gens st1 (gset (gens st1) k (GRun t)), Ok (s, o))
                | (st1, Err e) => (with_gens st1 (gset (gens st1) k GDone), Err e)
                end
    end.
  (** next(generator k) *)
  Definition gen_next (st : rstate) (k : nat) : rstate * res rerr (sid * dict) :=
    match nth_error (gens st) k with
    | None | Some GDone => (st, Err StopIteration)
    | Some (GNew args) => gen_continue (start st args) k (concat sched)
    | Some (GRun rest) => gen_continue st k rest
    end.

  (** The calls a user can make. *)
  Inductive op :=
  | RunStage (s : sid) (kwargs : dict)
  | RunAll (args : dict)
  | RunUntil (s : sid) (args : dict)
  | RunIter (args : dict)
  | Next (k : nat)
  | RunManyParallel.

  Inductive reply :=
  | ROutputs (o : dict)          (* run_stage *)
  | RDict (a : nat)              (* run_all, run_until_stage: the live dictionary *)
  | RGen (k : nat)               (* run_iter *)
  | RYield (s : sid) (o : dict)  (* next *)
  | RErr (e : rerr).

  Definition step (st : rstate) (o : op) : rstate * reply :=
    match o with
    | RunStage s kw => match run_stage st s kw with
                       | (st1, Ok x) => (st1, ROutputs x) | (st1, Err e) => (st1, RErr e) end
    | RunAll a => match run_all st a with
                  | (st1, Ok x) => (st1, RDict x) | (st1, Err e) => (st1, RErr e) end
    | RunUntil s a => match run_until st s a with
                      | (st1, Ok x) => (st1, RDict x) | (st1, Err e) => (st1, RErr e) end
    | RunIter a => let '(st1, k) := run_iter st a in (st1, RGen k)
    | Next k => match gen_next st k with
                | (st1, Ok (s, x)) => (st1, RYield s x) | (st1, Err e) => (st1, RErr e) end
    | RunManyParallel => (st, RErr NotImplemented)   (* stage_runner.py:170-188 *)
    end.

  (** any history of calls *)
  Definition steps (st : rstate) (ops : list op) : rstate :=
    fold_left (fun st o => fst (step st o)) ops st.

  (* ---------------------------------------------------------------- *)
  (** instance_space.py: the InstanceSpace object.  [conv] stands for
      [Model.from_stage_runner_output] (model.py:48-78) with the fixed options; [None] = it
      raises. [inputs] stands for [_InstanceSpaceInputs.from_metadata_and_options]
      (instance_space.py:75-101); metadata and options are never reassigned. *)
  Variable M : Type.
  Variable conv : dict -> option M.
  Variable inputs : dict.

  Record space := { runner : rstate; model : option M; final_output : option nat }.

  (** instance_space.py:134-185, the fields set by the constructor *)
  Definition new_space : space :=
    {| runner := fresh_runner; model := None; final_output := None |}.

  Inductive serr := SRunner (e : rerr) | SNotRun | SConversion.

  (** instance_space.py:198-219 [model] *)
  Definition get_model (sp : space) : space * res serr M :=
    match model sp with
    | Some m => (sp, Ok m)
    | None =>
        match final_output sp with
        | None => (sp, Err SNotRun)
        | Some a =>
            match conv (hget (heap (runner sp)) a) with
            | None => (sp, Err SConversion)
            | Some m => ({| runner := runner sp; model := Some m;
                            final_output := final_output sp |}, Ok m)
            end
        end
    end.

  (** instance_space.py:221-240 [build] *)
  Definition space_build (sp : space) : space * res serr M :=
    match run_all (runner sp) inputs with
    | (r, Err e) => ({| runner := r; model := model sp; final_output := final_output sp |},
                     Err (SRunner e))
    | (r, Ok a) => get_model {| runner := r; model := model sp; final_output := Some a |}
    end.

  (** The calls on an InstanceSpace.  run_iter (instance_space.py:242-257) returns a generator whose body
      builds the inputs and delegates to runner.run_iter; run_stage (instance_space.py:259-283) only
      delegates; run_until_stage (instance_space.py:285-311) ignores its keyword arguments. *)
  Inductive sop :=
  | SBuild | SModel | SRunStage (s : sid) (kwargs : dict)
  | SRunUntil (s : sid) (kwargs : dict) | SRunIter | SNext (k : nat).

  Definition sstep (sp : space) (o : sop) : space :=
    let via o' := {| runner := fst (step (runner sp) o'); model := model sp;
                     final_output := final_output sp |} in
    match o with
    | SBuild => fst (space_build sp)
    | SModel => fst (get_model sp)
    | SRunStage s kw => via (RunStage s kw)
    | SRunUntil s _ => via (RunUntil s inputs)
    | SRunIter => via (RunIter inputs)
    | SNext k => via (Next k)
    end.
  Definition ssteps (sp : space) (ops : list sop) : space := fold_left sstep ops sp.
End Runner.
