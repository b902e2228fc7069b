(** Properties C14-C27: stage_runner.py and instance_space.py. *)
From Verif Require Import Base BaseLemmas BuilderModel BuilderSpec BuilderProofs BuilderSim
     RunnerModel RunnerSpec RunnerProofs RunnerRun RunnerMore RunnerPipeline RunnerEnd.
Set Implicit Arguments.
Open Scope string_scope.
Open Scope list_scope.
Local Arguments firstn : simpl never.
Local Arguments skipn : simpl never.

(* ---------------------------------------------------------------- *)
(** ** Concrete pipelines used in the examples *)

(** tests/test_stage_builder_runner.py: StageA (a -> b = str(a)), StageB (b -> c = b + " 2"). *)
Definition AB_decls : decls :=
  {| d_in := fun s => match s with 0 => [("a", TPlain 0)] | 1 => [("b", TPlain 1)] | _ => [] end;
     d_out := fun s => match s with 0 => [("b", TPlain 1)] | 1 => [("c", TPlain 1)] | _ => [] end |}.
Definition AB_fields (s : sid) : list string := map fst (d_in AB_decls s).
Definition AB_behave (h : list (event string)) (s : sid) (i : dict string) : option (dict string) :=
  match s, i with
  | 0, [(_, a)] => Some [("b", a)]
  | 1, [(_, b)] => Some [("c", (b ++ " 2")%string)]
  | _, _ => None
  end.
Definition AB_sched : list (list sid) := [[0]; [1]].
Definition AB_run := steps AB_fields AB_behave AB_sched (fresh_runner string).
Definition AB_done := AB_run [RunAll [("a", "1")]].

Example AB_builds : build AB_decls (fun _ l => l) (add_stages AB_decls [1; 0]) [("a", TPlain 0)] = Ok AB_sched.
Proof. vm_compute. reflexivity. Qed.
Example AB_wf : well_formed AB_sched.
Proof. split; repeat constructor; simpl; try discriminate; intuition discriminate. Qed.
Example AB_det : deterministic AB_behave.
Proof. intros h1 h2 s i. reflexivity. Qed.
(** the project's own test: run_all, then rerun A with a=2, then B *)
Example AB_test :
  (exists d, snd (run_all AB_fields AB_behave AB_sched (fresh_runner string) [("a", "1")]) = Ok d /\
     content AB_done d = [("a", "1"); ("b", "1"); ("c", "1 2")]) /\
  snd (step AB_fields AB_behave AB_sched (AB_run [RunAll [("a", "1")]; RunStage 0 [("a", "2")]])
        (RunStage 1 [])) = ROutputs [("c", "2 2")].
Proof. split; [exists 2|]; vm_compute; auto. Qed.
Example AB_reachable : reachable AB_fields AB_behave AB_sched AB_done.
Proof. eexists; reflexivity. Qed.

(* ---------------------------------------------------------------- *)
(** C14 *)
Theorem C14_built_pipeline_never_misses_argument :
  forall V D iter calls init sched behave (st : rstate V) args,
    any_order iter ->
    build D iter (add_stages D calls) init = Ok sched ->
    (* stages return their declared outputs *)
    (forall h s i o a, behave h s i = Some o -> In a (d_out D s) -> given o (fst a) <> None) ->
    (* there is a value for every initial input *)
    (forall a, In a init -> given args (fst a) <> None) ->
    let fields s := map fst (d_in D s) in
    reachable fields behave sched st ->
    match run_all fields behave sched st args with
    | (st', Ok d) => forall a,
        In a init \/ (exists s, In s (add_stages D calls) /\ In a (d_out D s)) ->
        dget (content st' d) (fst a) <> None
    | (_, Err e) => e = StageFailed
    end.
Proof.
  exact (fun V D iter calls init sched behave st args Hi Hb Ho Ha R =>
    let WF := build_well_formed D calls init Hi Hb in
    let P := proj1 (@build_partition D iter Hi _ init sched (add_stages_NoDup D calls) Hb) in
    let H := @run_all_complete V (fun s => map fst (d_in D s)) behave D sched WF init
               (fun s => eq_refl) Ho
               (@build_runnable D iter Hi _ init sched (add_stages_NoDup D calls) Hb)
               st args (reachable_inv WF R) Ha in
    match run_all (fun s => map fst (d_in D s)) behave sched st args as r return
      (match r with
       | (st', Ok d) => forall a, In a init \/ (exists s, In s (concat sched) /\ In a (d_out D s)) ->
                        dget (content st' d) (fst a) <> None
       | (_, Err x) => x = StageFailed end) ->
      (match r with
       | (st', Ok d) => forall a, In a init \/ (exists s, In s (add_stages D calls) /\ In a (d_out D s)) ->
                        dget (content st' d) (fst a) <> None
       | (_, Err x) => x = StageFailed end) with
    | (st', Ok d) => fun H a X => H a match X with
        | or_introl Y => or_introl Y
        | or_intror (ex_intro _ s (conj Hs Hy)) =>
            or_intror (ex_intro _ s (conj (Permutation_in s (Permutation_sym P) Hs) Hy))
        end
    | (_, Err x) => fun H => H
    end H).
Qed.
Print Assumptions C14_built_pipeline_never_misses_argument.
(** met by the test pipeline in a state with a history *)
Example C14_met :
  build AB_decls (fun _ l => l) (add_stages AB_decls [1; 0]) [("a", TPlain 0)] = Ok AB_sched /\
  (forall h s i o a, AB_behave h s i = Some o -> In a (d_out AB_decls s) -> given o (fst a) <> None) /\
  reachable AB_fields AB_behave AB_sched AB_done.
Proof.
  split; [apply AB_builds|]. split; [|apply AB_reachable].
  intros h [|[|s]] i o a; simpl; try tauto; destruct i as [|[? ?] [|? ?]]; simpl; try discriminate;
    intros H [<-|[]]; injection H as <-; simpl; discriminate.
Qed.
(** without the build (a schedule in the wrong order) run_all does miss an argument *)
Example C14_needs_build :
  snd (run_all AB_fields AB_behave [[1]; [0]] (fresh_runner string) [("a", "1")]) = Err KeyError.
Proof. vm_compute. reflexivity. Qed.

(* ---------------------------------------------------------------- *)
(** C15 *)
Theorem C15_run_all_is_composition :
  forall V fields behave sched (st : rstate V) args,
    well_formed sched -> reachable fields behave sched st ->
    match snd (compose fields behave (log st) (concat sched) (given args)),
          run_all fields behave sched st args with
    | Ok e, (st', Ok d) => forall n, dget (content st' d) n = e n
    | Err x, (_, Err y) => x = y
    | _, _ => False
    end.
Proof.
  exact (fun V fields behave sched st args WF R =>
    @run_all_is_composition V fields behave sched WF st args (reachable_inv WF R)).
Qed.
Print Assumptions C15_run_all_is_composition.

Theorem C15_run_all_forgets_history :
  forall V fields behave sched (st : rstate V) args,
    well_formed sched -> deterministic behave -> reachable fields behave sched st ->
    match run_all fields behave sched st args,
          run_all fields behave sched (fresh_runner V) args with
    | (st1, Ok d1), (st2, Ok d2) => forall n, dget (content st1 d1) n = dget (content st2 d2) n
    | (_, Err x), (_, Err y) => x = y
    | _, _ => False
    end.
Proof.
  exact (fun V fields behave sched st args WF Det R =>
    @run_all_forgets V fields behave sched WF Det st args (reachable_inv WF R)).
Qed.
Print Assumptions C15_run_all_forgets_history.
(** a history with a failure, an abandoned generator and an override *)
Example C15_met : reachable AB_fields AB_behave AB_sched
    (AB_run [RunAll []; RunIter [("a", "9")]; Next _ 0; RunStage 0 [("a", "7")]; RunUntil 1 [("a", "5")]]) /\
  snd (run_all AB_fields AB_behave AB_sched (AB_run [RunAll []]) [("a", "1")]) <> Err KeyError /\
  snd (step AB_fields AB_behave AB_sched (fresh_runner string) (RunAll [])) = RErr _ KeyError.
Proof. split; [eexists; reflexivity|]. split; vm_compute; congruence. Qed.

(* ---------------------------------------------------------------- *)
(** C16 *)
Theorem C16_runs_only_after_prerequisites :
  forall V fields behave sched (st : rstate V),
    well_formed sched -> reachable fields behave sched st ->
    forall before ev after, log st = before ++ ev :: after ->
    forall k, runs_in sched k (ev_stage ev) ->
    forall j t, j < k -> runs_in sched j t -> succeeded_in before t.
Proof.
  exact (fun V fields behave sched st WF R =>
    @prerequisites V sched WF st (reachable_inv WF R)).
Qed.
Print Assumptions C16_runs_only_after_prerequisites.

Theorem C16_refusal_has_no_effect :
  forall V fields behave sched (st : rstate V) s kw k j t,
    well_formed sched -> reachable fields behave sched st ->
    runs_in sched k s -> j < k -> runs_in sched j t -> ~ succeeded_in (log st) t ->
    run_stage fields behave sched st s kw = (st, Err StageRunningError).
Proof.
  exact (fun V fields behave sched st s kw k j t WF R =>
    @refused V fields behave sched WF st s kw k j t (reachable_inv WF R)).
Qed.
Print Assumptions C16_refusal_has_no_effect.
Example C16_met :
  log AB_done = [{| ev_stage := 0; ev_in := [("a", "1")]; ev_out := Some [("b", "1")] |}] ++
                {| ev_stage := 1; ev_in := [("b", "1")]; ev_out := Some [("c", "1 2")] |} :: [] /\
  runs_in AB_sched 1 1 /\ runs_in AB_sched 0 0 /\
  ~ succeeded_in (log (fresh_runner string)) 0.
Proof.
  split; [vm_compute; reflexivity|]. split; [exists [1]; simpl; auto|].
  split; [exists [0]; simpl; auto|]. intros (e & o & [] & _).
Qed.

(* ---------------------------------------------------------------- *)
(** C17.  Two stages in the first group.  After a complete run, a second run (run_iter) is
    abandoned after one stage; a stage of the second group is executed although the other
    stage of the first group has not been executed in the second run.  On a new runner the
    same calls are refused. *)
Definition two_one : list (list sid) := [[0; 1]; [2]].
Definition tag_fields (s : sid) : list string := match s with 0 | 1 => ["a"] | _ => ["x"] end.
Definition tag_behave (h : list (event nat)) (s : sid) (i : dict nat) : option (dict nat) :=
  match s, i with
  | 0, [(_, a)] => Some [("x", a)]
  | 1, [(_, a)] => Some [("y", a)]
  | 2, [(_, x)] => Some [("z", 10 * x)]
  | _, _ => None
  end.
Theorem C17_prerequisites_of_this_run_refuted :
  exists (sched : list (list sid)) fields (behave : list (event nat) -> sid -> dict nat -> option (dict nat))
         ops o new s t,
    well_formed sched /\ deterministic behave /\
    let st := steps fields behave sched (fresh_runner nat) ops in
    let st' := fst (step fields behave sched st o) in
    (* the call [o] starts a new run ... *)
    starts_run st o /\ log st' = log st ++ new /\
    (* ... in which stage [t] of the first group has not been executed ... *)
    runs_in sched 0 t /\ (forall ev, In ev new -> ev_stage ev <> t) /\
    (* ... and stage [s] of the second group is executed all the same, *)
    runs_in sched 1 s /\
    (exists out, snd (run_stage fields behave sched st' s []) = Ok out) /\
    (* while without the complete run before it would have been refused. *)
    let fresh' := steps fields behave sched (fresh_runner nat) [RunIter [("a", 2)]; Next nat 0] in
    snd (run_stage fields behave sched fresh' s []) = Err StageRunningError.
Proof.
  exists two_one, tag_fields, tag_behave, [RunAll [("a", 1)]; RunIter [("a", 2)]], (Next nat 0),
         [{| ev_stage := 0; ev_in := [("a", 2)]; ev_out := Some [("x", 2)] |}], 2, 1.
  split; [split; repeat constructor; simpl; try discriminate; intuition discriminate|].
  split; [intros h1 h2 s i; reflexivity|].
  split; [exists [("a", 2)]; vm_compute; reflexivity|].
  split; [vm_compute; reflexivity|].
  split; [exists [0; 1]; simpl; auto|].
  split; [intros ev [<-|[]]; discriminate|].
  split; [exists [2]; simpl; auto|].
  split; [eexists|]; vm_compute; reflexivity.
Qed.
Print Assumptions C17_prerequisites_of_this_run_refuted.

(* ---------------------------------------------------------------- *)
(** C18 *)
Theorem C18_run_stage_inputs_and_outputs :
  forall V fields behave sched (st : rstate V) s kw st' o,
    well_formed sched -> reachable fields behave sched st ->
    run_stage fields behave sched st s kw = (st', Ok o) ->
    exists i,
      (* for each input field in order: the override if given, else the available value *)
      read_fields (fun n => match given kw n with Some v => Some v | None => values st n end)
                  (fields s) = Some i /\
      (* the stage was executed once, on these, and its output is returned *)
      behave (log st) s i = Some o /\
      log st' = log st ++ [{| ev_stage := s; ev_in := i; ev_out := Some o |}] /\
      (* the available values change exactly at the outputs (so overrides are forgotten) *)
      (forall n, values st' n = match given o n with Some v => Some v | None => values st n end).
Proof.
  exact (fun V fields behave sched st s kw st' o WF R =>
    @run_stage_ok V fields behave sched WF st s kw st' o (reachable_inv WF R)).
Qed.
Print Assumptions C18_run_stage_inputs_and_outputs.

(** a field with neither raises KeyError, executes nothing and changes no value *)
Theorem C18_missing_field :
  forall V fields behave sched (st : rstate V) s kw k n,
    well_formed sched -> reachable fields behave sched st ->
    runs_in sched k s -> k <= cur st ->
    In n (fields s) -> given kw n = None -> values st n = None ->
    exists st', run_stage fields behave sched st s kw = (st', Err KeyError) /\
      log st' = log st /\ forall m, values st' m = values st m.
Proof.
  exact (fun V fields behave sched st s kw k n WF R =>
    @run_stage_missing V fields behave sched WF st s kw k n (reachable_inv WF R)).
Qed.
Print Assumptions C18_missing_field.
Example C18_met :
  snd (run_stage AB_fields AB_behave AB_sched AB_done 0 [("a", "2")]) = Ok [("b", "2")] /\
  snd (run_stage AB_fields AB_behave AB_sched AB_done 1 []) = Ok [("c", "1 2")] /\
  snd (run_stage AB_fields AB_behave AB_sched (fresh_runner string) 0 []) = Err KeyError /\
  0 <= cur (fresh_runner string) /\ In "a" (AB_fields 0).
Proof. repeat split; try (vm_compute; reflexivity). simpl; auto. Qed.

(* ---------------------------------------------------------------- *)
(** C19 *)
Theorem C19_rerunning_undoes_nothing :
  forall V fields behave sched (st : rstate V) s kw st' o n v,
    well_formed sched -> reachable fields behave sched st ->
    run_stage fields behave sched st s kw = (st', Ok o) ->
    values st n = Some v -> given o n = None -> values st' n = Some v.
Proof.
  exact (fun V fields behave sched st s kw st' o n v WF R =>
    @run_stage_undoes_nothing V fields behave sched WF st s kw st' o n v (reachable_inv WF R)).
Qed.
Print Assumptions C19_rerunning_undoes_nothing.
Example C19_met :
  (exists st', run_stage AB_fields AB_behave AB_sched AB_done 0 [("a", "2")] = (st', Ok [("b", "2")])) /\
  values AB_done "c" = Some "1 2".
Proof. split; [eexists|]; vm_compute; reflexivity. Qed.

(** The documented rollback: rerunning an early stage discards the outputs of later stages
    (a counter x := x + 1 rerun from the initial value gives the same result again). *)
Definition inc_fields (s : sid) : list string := ["x"].
Definition inc_behave (h : list (event nat)) (s : sid) (i : dict nat) : option (dict nat) :=
  match s, i with
  | 0, [(_, x)] => Some [("x", S x)]
  | 1, [(_, x)] => Some [("y", x)]
  | _, _ => None
  end.
Theorem C19_rollback_refuted :
  (* outputs of a later group survive the rerun of an earlier stage *)
  (exists st' o, run_stage AB_fields AB_behave AB_sched AB_done 0 [] = (st', Ok o) /\
     values st' "c" <> None) /\
  (* a stage that reads and writes an argument starts from its own previous result *)
  (let run := steps inc_fields inc_behave [[0]; [1]] (fresh_runner nat) in
   deterministic inc_behave /\
   values (run [RunAll [("x", 5)]]) "x" = Some 6 /\
   values (run [RunAll [("x", 5)]; RunStage 0 []]) "x" = Some 7).
Proof.
  split; [eexists; eexists; split; [vm_compute; reflexivity|vm_compute; discriminate]|].
  split; [intros h1 h2 s i; reflexivity|]. split; vm_compute; reflexivity.
Qed.
Print Assumptions C19_rollback_refuted.

(* ---------------------------------------------------------------- *)
(** C20.  [outs s] are the names stage [s] may output.  [reruns]: after the run, any sequence of reruns without overrides. *)
Theorem C20_rerun_is_idempotent :
  forall V fields behave sched (st : rstate V) args outs st1 d reruns,
    well_formed sched -> deterministic behave -> reachable fields behave sched st ->
    (forall h s i o n, behave h s i = Some o -> given o n <> None -> In n (outs s)) ->
    (* single assignment *)
    (forall s t n, In s (concat sched) -> In t (concat sched) ->
       In n (outs s) -> In n (outs t) -> s = t) ->
    (forall s n, In s (concat sched) -> In n (outs s) -> given args n = None) ->
    run_all fields behave sched st args = (st1, Ok d) ->
    let st2 := steps fields behave sched st1 (map (fun s => RunStage s []) reruns) in
    (forall n, values st2 n = values st1 n) /\
    (forall s, In s (concat sched) ->
       exists i o,
         (* what the stage returned in the run *)
         In {| ev_stage := s; ev_in := i; ev_out := Some o |} (skipn (length (log st)) (log st1)) /\
         (snd (run_stage fields behave sched st2 s []) = Ok o \/
          snd (run_stage fields behave sched st2 s []) = Err StageRunningError) /\
         (* directly after the run no stage is refused *)
         snd (run_stage fields behave sched st1 s []) = Ok o).
Proof.
  exact (fun V fields behave sched st args outs st1 d reruns WF Det R Ho =>
    @rerun_idempotent V fields behave sched WF Det outs Ho st args st1 d reruns (reachable_inv WF R)).
Qed.
Print Assumptions C20_rerun_is_idempotent.
Example C20_met :
  let outs s := map fst (d_out AB_decls s) in
  (forall h s i o n, AB_behave h s i = Some o -> given o n <> None -> In n (outs s)) /\
  (forall s t n, In s (concat AB_sched) -> In t (concat AB_sched) ->
       In n (outs s) -> In n (outs t) -> s = t) /\
  (forall s n, In s (concat AB_sched) -> In n (outs s) -> given [("a", "1")] n = None) /\
  exists st1 d, run_all AB_fields AB_behave AB_sched (fresh_runner string) [("a", "1")] = (st1, Ok d).
Proof.
  split; [|split; [|split]].
  - intros h [|[|s]] i o n; simpl; try discriminate; destruct i as [|[? ?] [|? ?]]; simpl; try discriminate;
      intro H; injection H as <-; apply given_one.
  - simpl. intros s t n [<-|[<-|[]]] [<-|[<-|[]]]; simpl; auto; intros [<-|[]] [H|[]]; discriminate.
  - simpl. intros s n [<-|[<-|[]]]; simpl; intros [<-|[]]; reflexivity.
  - eexists; eexists; vm_compute; reflexivity.
Qed.

(* ---------------------------------------------------------------- *)
(** C21 *)
Theorem C21_failed_stage_changes_no_value :
  forall V fields behave sched (st : rstate V) s kw st',
    well_formed sched -> reachable fields behave sched st ->
    run_stage fields behave sched st s kw = (st', Err StageFailed) ->
    (forall n, values st' n = values st n) /\
    (forall a, content st' a = content st a) /\
    (* if the stage was in the current group, only the record of executions is different *)
    (runs_in sched (cur st) s ->
       heap st' = heap st /\ avail st' = avail st /\ data st' = data st /\ cur st' = cur st /\
       ran st' = ran st /\ gens st' = gens st) /\
    (* retrying gives the stage the same inputs, and is accepted *)
    (forall i, read_fields (updated (values st) kw) (fields s) = Some i ->
       match behave (log st') s i with
       | Some o => snd (run_stage fields behave sched st' s kw) = Ok o
       | None => snd (run_stage fields behave sched st' s kw) = Err StageFailed
       end).
Proof.
  exact (fun V fields behave sched st s kw st' WF R =>
    @run_stage_failed V fields behave sched WF st s kw st' (reachable_inv WF R)).
Qed.
Print Assumptions C21_failed_stage_changes_no_value.
(** a stage that raises the first time and succeeds the second time *)
Definition flaky_behave (h : list (event nat)) (s : sid) (i : dict nat) : option (dict nat) :=
  match h with [] => None | _ => Some [("b", 1)] end.
Example C21_met :
  let rs := run_stage (fun _ => ["a"]) flaky_behave [[0]] in
  exists st', rs (fresh_runner nat) 0 [("a", 3)] = (st', Err StageFailed) /\
    runs_in [[0]] (cur (fresh_runner nat)) 0 /\
    read_fields (updated (values (fresh_runner nat)) [("a", 3)]) ["a"] = Some [("a", 3)] /\
    snd (rs st' 0 [("a", 3)]) = Ok [("b", 1)].
Proof.
  eexists. split; [vm_compute; reflexivity|]. split; [exists [0]; simpl; auto|].
  split; vm_compute; reflexivity.
Qed.

(* ---------------------------------------------------------------- *)
(** C22 *)
Theorem C22_run_until_stops_before_the_group :
  forall V fields behave sched (st : rstate V) s args,
    well_formed sched -> reachable fields behave sched st ->
    forall stages,
      (* the stages of the groups strictly before the group of [s]; all if [s] is unknown *)
      (exists k, runs_in sched k s /\ stages = concat (firstn k sched)) \/
      (~ In s (concat sched) /\ stages = concat sched) ->
    (* the run is the composition of exactly these stages *)
    let '(h, r) := compose fields behave (log st) stages (given args) in
    let '(st', r') := run_until fields behave sched st s args in
    log st' = h /\
    match r, r' with
    | Ok e, Ok d => forall n, dget (content st' d) n = e n
    | Err x, Err y => x = y
    | _, _ => False
    end.
Proof.
  exact (fun V fields behave sched st s args WF R =>
    @run_until_is_prefix V fields behave sched WF st s args (reachable_inv WF R)).
Qed.
Print Assumptions C22_run_until_stops_before_the_group.

Theorem C22_named_stage_never_runs :
  forall V fields behave sched (st : rstate V) s args,
    well_formed sched -> reachable fields behave sched st ->
    exists new, log (fst (run_until fields behave sched st s args)) = log st ++ new /\
      forall ev, In ev new -> ev_stage ev <> s.
Proof.
  exact (fun V fields behave sched st s args WF R =>
    @run_until_not_run V fields behave sched WF st s args (reachable_inv WF R)).
Qed.
Print Assumptions C22_named_stage_never_runs.
Example C22_met : runs_in AB_sched 1 1 /\ concat (firstn 1 AB_sched) = [0] /\
  log (fst (run_until AB_fields AB_behave AB_sched (fresh_runner string) 1 [("a", "1")])) =
    [{| ev_stage := 0; ev_in := [("a", "1")]; ev_out := Some [("b", "1")] |}].
Proof. split; [exists [1]; simpl; auto|]. split; vm_compute; reflexivity. Qed.

(* ---------------------------------------------------------------- *)
(** C23 *)
Theorem C23_creating_iterator_does_nothing :
  forall V (st : rstate V) args,
    let '(st0, k) := run_iter st args in
    heap st0 = heap st /\ avail st0 = avail st /\ data st0 = data st /\ cur st0 = cur st /\
    ran st0 = ran st /\ log st0 = log st /\
    nth_error (gens st0) k = Some (GNew args) /\
    (forall j, j < length (gens st) -> nth_error (gens st0) j = nth_error (gens st) j).
Proof. exact run_iter_pure. Qed.
Print Assumptions C23_creating_iterator_does_nothing.

(** The first [n] items, if the first [n] stages succeed: these stages with the outputs they
    returned, and the values are those of running them. [st] is any state with a generator
    that has not been started (other calls may have happened since its creation). *)
Theorem C23_items_are_the_stages_in_order :
  forall V fields behave sched (st : rstate V) args k n h e,
    well_formed sched -> reachable fields behave sched st ->
    nth_error (gens st) k = Some (GNew args) ->
    0 < n <= length (concat sched) ->
    compose fields behave (log st) (firstn n (concat sched)) (given args) = (h, Ok e) ->
    exists new st',
      h = log st ++ new /\ map (@ev_stage V) new = firstn n (concat sched) /\
      nexts fields behave sched n st k =
        (st', map (fun ev => Ok (ev_stage ev, match ev_out ev with Some o => o | None => [] end)) new) /\
      log st' = h /\ (forall m, values st' m = e m) /\
      (* after the last stage the generator is exhausted and the call changes no value *)
      (n = length (concat sched) ->
         snd (gen_next fields behave sched st' k) = Err StopIteration /\
         (forall m, values (fst (gen_next fields behave sched st' k)) m = e m) /\
         (* and the values are those of run_all *)
         exists st2 d, run_all fields behave sched st args = (st2, Ok d) /\
                       forall m, dget (content st2 d) m = e m).
Proof.
  exact (fun V fields behave sched st args k n h e WF R =>
    @iter_items V fields behave sched WF st args k n h e (reachable_inv WF R)).
Qed.
Print Assumptions C23_items_are_the_stages_in_order.

(** If stage [n+1] raises, the item request raises the same exception, and the generator is
    finished. *)
Theorem C23_failure_ends_the_iterator :
  forall V fields behave sched (st : rstate V) args k n e h h' x,
    well_formed sched -> reachable fields behave sched st ->
    nth_error (gens st) k = Some (GNew args) ->
    n < length (concat sched) ->
    compose fields behave (log st) (firstn n (concat sched)) (given args) = (h, Ok e) ->
    compose fields behave (log st) (firstn (S n) (concat sched)) (given args) = (h', Err x) ->
    let st1 := fst (nexts fields behave sched n st k) in
    let '(st2, r) := gen_next fields behave sched st1 k in
    r = Err x /\ log st2 = h' /\ gen_next fields behave sched st2 k = (st2, Err StopIteration).
Proof.
  exact (fun V fields behave sched st args k n e h h' x WF R =>
    @iter_failure V fields behave sched WF st args k n e h h' x (reachable_inv WF R)).
Qed.
Print Assumptions C23_failure_ends_the_iterator.
Example C23_met :
  let st := AB_run [RunIter [("a", "1")]] in
  nth_error (gens st) 0 = Some (GNew [("a", "1")]) /\
  (exists h e, compose AB_fields AB_behave (log st) (firstn 2 (concat AB_sched)) (given [("a", "1")]) = (h, Ok e)) /\
  snd (nexts AB_fields AB_behave AB_sched 3 st 0) =
    [Ok (0, [("b", "1")]); Ok (1, [("c", "1 2")]); Err StopIteration] /\
  (exists h', compose AB_fields AB_behave [] (firstn 1 (concat AB_sched)) (given []) = (h', Err KeyError)).
Proof.
  split; [reflexivity|]. split; [eexists; eexists; vm_compute; reflexivity|].
  split; [vm_compute; reflexivity|]. eexists; vm_compute; reflexivity.
Qed.

(* ---------------------------------------------------------------- *)
(** C24 *)
Theorem C24_returned_dictionary_is_live :
  forall V fields behave sched (st : rstate V) args st1 d ops s kw st2 o,
    well_formed sched -> reachable fields behave sched st ->
    run_all fields behave sched st args = (st1, Ok d) \/
    (exists u, run_until fields behave sched st u args = (st1, Ok d)) ->
    (* no new run is started by [ops] *)
    (forall pre op post, ops = pre ++ op :: post ->
       ~ starts_run (steps fields behave sched st1 pre) op) ->
    run_stage fields behave sched (steps fields behave sched st1 ops) s kw = (st2, Ok o) ->
    forall n v, given o n = Some v -> dget (content st2 d) n = Some v.
Proof.
  exact (fun V fields behave sched st args st1 d ops s kw st2 o WF R =>
    @returned_live V fields behave sched WF st args st1 d ops s kw st2 o (reachable_inv WF R)).
Qed.
Print Assumptions C24_returned_dictionary_is_live.

Theorem C24_frozen_after_next_run :
  forall V fields behave sched (st : rstate V) args st1 d before op after,
    well_formed sched -> reachable fields behave sched st ->
    run_all fields behave sched st args = (st1, Ok d) \/
    (exists u, run_until fields behave sched st u args = (st1, Ok d)) ->
    let st2 := steps fields behave sched st1 before in
    starts_run st2 op ->
    content (steps fields behave sched st2 (op :: after)) d = content st2 d.
Proof.
  exact (fun V fields behave sched st args st1 d before op after WF R =>
    @returned_frozen V fields behave sched WF st args st1 d before op after (reachable_inv WF R)).
Qed.
Print Assumptions C24_frozen_after_next_run.
Example C24_met :
  let '(st1, r) := run_all AB_fields AB_behave AB_sched (fresh_runner string) [("a", "1")] in
  r = Ok 2 /\ content st1 2 = [("a", "1"); ("b", "1"); ("c", "1 2")] /\
  content (fst (run_stage AB_fields AB_behave AB_sched st1 0 [("a", "2")])) 2 =
    [("a", "1"); ("b", "2"); ("c", "1 2")] /\
  content (steps AB_fields AB_behave AB_sched st1 [RunAll [("a", "8")]; RunStage 0 [("a", "9")]]) 2 =
    [("a", "1"); ("b", "1"); ("c", "1 2")].
Proof. vm_compute. auto. Qed.

(* ---------------------------------------------------------------- *)
(** C25 *)
Theorem C25_group_order_irrelevant :
  forall V fields behave sched1 sched2 (st1 st2 : rstate V) args outs,
    deterministic behave ->
    (forall h s i o n, behave h s i = Some o -> given o n <> None -> In n (outs s)) ->
    well_formed sched1 -> well_formed sched2 ->
    (* the same groups, in any order inside *)
    Forall2 (@Permutation sid) sched1 sched2 ->
    (* no stage of a group outputs a name another one reads or outputs *)
    (forall k s t n, runs_in sched1 k s -> runs_in sched1 k t -> s <> t -> In n (outs s) ->
       ~ In n (fields t) /\ ~ In n (outs t)) ->
    reachable fields behave sched1 st1 -> reachable fields behave sched2 st2 ->
    match run_all fields behave sched1 st1 args, run_all fields behave sched2 st2 args with
    | (st1', Ok d1), (st2', Ok d2) => forall n, dget (content st1' d1) n = dget (content st2' d2) n
    | (_, Err _), (_, Err _) => True
    | _, _ => False
    end.
Proof.
  exact (fun V fields behave s1 s2 st1 st2 args outs Det Ho W1 W2 F Hi R1 R2 =>
    @order_irrelevant V fields behave Det outs Ho s1 s2 st1 st2 args F W1 W2 Hi
      (reachable_inv W1 R1) (reachable_inv W2 R2)).
Qed.
Print Assumptions C25_group_order_irrelevant.
Example C25_met :
  Forall2 (@Permutation sid) [[0; 1]; [2]] [[1; 0]; [2]] /\
  let outs s := match s with 0 => ["x"] | 1 => ["y"] | _ => ["z"] end in
  (forall k s t n, runs_in two_one k s -> runs_in two_one k t -> s <> t -> In n (outs s) ->
       ~ In n (tag_fields t) /\ ~ In n (outs t)) /\
  (forall h s i o n, tag_behave h s i = Some o -> given o n <> None -> In n (outs s)).
Proof.
  split; [repeat constructor|]. split.
  - intros [|[|k]] s t n (g1 & E1 & H1) (g2 & E2 & H2); simpl in *;
      try (destruct k; discriminate); injection E1 as <-; injection E2 as <-; simpl in *;
      repeat (destruct H1 as [<-|H1]; try contradiction); repeat (destruct H2 as [<-|H2]; try contradiction);
      simpl; try congruence; intros _ [<-|[]]; split; intros [X|[]]; discriminate.
  - intros h [|[|[|s]]] i o n; simpl; try discriminate; destruct i as [|[? ?] [|? ?]]; simpl; try discriminate;
      intro H; injection H as <-; apply given_one.
Qed.

(** Without the condition the result depends on the order of the set, and build accepts such
    pipelines: both stages can run at once, one writes (under another annotation, hence not
    ambiguous) what the other reads. *)
Definition race_decls : decls :=
  {| d_in := fun s => match s with 0 => [("a", TPlain 0)] | 1 => [("x", TPlain 0)] | _ => [] end;
     d_out := fun s => match s with 0 => [("x", TPlain 1)] | 1 => [("y", TPlain 0)] | _ => [] end |}.
Definition race_behave (h : list (event nat)) (s : sid) (i : dict nat) : option (dict nat) :=
  match s, i with
  | 0, [(_, a)] => Some [("x", a)]
  | 1, [(_, x)] => Some [("y", x)]
  | _, _ => None
  end.
Theorem C25_order_dependence_refuted :
  exists init iter1 iter2 sched1 sched2 args,
    any_order iter1 /\ any_order iter2 /\
    build race_decls iter1 (add_stages race_decls [0; 1]) init = Ok sched1 /\
    build race_decls iter2 (add_stages race_decls [0; 1]) init = Ok sched2 /\
    deterministic race_behave /\
    let run sched := run_all (fun s => map fst (d_in race_decls s)) race_behave sched (fresh_runner nat) args in
    exists st1 st2 d1 d2, run sched1 = (st1, Ok d1) /\ run sched2 = (st2, Ok d2) /\
      dget (content st1 d1) "y" <> dget (content st2 d2) "y".
Proof.
  exists [("a", TPlain 0); ("x", TPlain 0)], (fun _ l => l), (fun _ l => rev l),
         [[0; 1]], [[1; 0]], [("a", 1); ("x", 2)].
  split; [intros n l; apply Permutation_refl|].
  split; [intros n l; apply Permutation_sym, Permutation_rev|].
  split; [vm_compute; reflexivity|]. split; [vm_compute; reflexivity|].
  split; [intros h1 h2 s i; reflexivity|].
  do 4 eexists. split; [vm_compute; reflexivity|]. split; [vm_compute; reflexivity|].
  vm_compute. discriminate.
Qed.
Print Assumptions C25_order_dependence_refuted.

(* ---------------------------------------------------------------- *)
(** C26 *)
Theorem C26_model_unavailable_until_a_build_completes :
  forall V M fields behave sched (conv : dict V -> option M) inputs ops,
    let after := ssteps fields behave sched conv inputs (new_space V M) in
    snd (get_model conv (after ops)) = Err SNotRun <->
    ~ exists pre post r d,
        ops = pre ++ SBuild V :: post /\
        run_all fields behave sched (runner (after pre)) inputs = (r, Ok d).
Proof. exact model_not_run_iff. Qed.
Print Assumptions C26_model_unavailable_until_a_build_completes.

(** Once the model has been returned (by model or by build), it is returned for ever. *)
Theorem C26_model_cached_for_ever :
  forall V M fields behave sched (conv : dict V -> option M) inputs ops sp' m later,
    let after := ssteps fields behave sched conv inputs in
    let sp := after (new_space V M) ops in
    get_model conv sp = (sp', Ok m) \/ space_build fields behave sched conv inputs sp = (sp', Ok m) ->
    snd (get_model conv (after sp' later)) = Ok m /\
    (snd (space_build fields behave sched conv inputs (after sp' later)) = Ok m \/
     exists e, snd (space_build fields behave sched conv inputs (after sp' later)) = Err (SRunner e)).
Proof. exact model_cached. Qed.
Print Assumptions C26_model_cached_for_ever.

(** The first build returns the model of its own run. *)
Theorem C26_first_build_reports_its_run :
  forall V M fields behave sched (conv : dict V -> option M) inputs sp sp' m,
    model sp = None ->
    space_build fields behave sched conv inputs sp = (sp', Ok m) ->
    exists r d, run_all fields behave sched (runner sp) inputs = (r, Ok d) /\
                conv (content r d) = Some m.
Proof. exact (fun V M fields behave sched conv inputs sp sp' m H =>
  @build_reports_run V fields behave sched M conv inputs sp m sp' H). Qed.
Print Assumptions C26_first_build_reports_its_run.

(** That build always returns the model of its own run is false. *)
Definition count_behave (h : list (event nat)) (s : sid) (i : dict nat) : option (dict nat) :=
  Some [("b", length h)].
Theorem C26_build_reports_its_run_refuted :
  exists fields (behave : list (event nat) -> sid -> dict nat -> option (dict nat)) sched
         (conv : dict nat -> option nat) inputs ops m r d,
    let sp := ssteps fields behave sched conv inputs (new_space nat nat) ops in
    snd (space_build fields behave sched conv inputs sp) = Ok m /\
    run_all fields behave sched (runner sp) inputs = (r, Ok d) /\
    conv (content r d) <> Some m.
Proof.
  exists (fun _ => ["a"]), count_behave, [[0]], (fun d => dget d "b"), [("a", 1)], [SBuild nat], 0.
  do 2 eexists. split; [vm_compute; reflexivity|]. split; [vm_compute; reflexivity|].
  vm_compute. discriminate.
Qed.
Print Assumptions C26_build_reports_its_run_refuted.
Example C26_met :
  let b := space_build AB_fields AB_behave AB_sched (fun d => dget d "c") [("a", "1")] in
  model (new_space string string) = None /\
  (exists sp', b (new_space string string) = (sp', Ok "1 2")) /\
  snd (get_model (fun d => dget d "c") (ssteps AB_fields AB_behave AB_sched (fun d => dget d "c") [("a", "1")]
     (new_space string string) [SRunIter string; SNext string 0; SNext string 0; SRunStage 0 []])) = Err SNotRun.
Proof. split; [reflexivity|]. split; [eexists|]; vm_compute; reflexivity. Qed.

(* ---------------------------------------------------------------- *)
(** C27.  [has_type v t]: value [v] has the annotated type [t]. *)
Theorem C27_types_respected_if_names_have_one_type :
  forall V (has_type : V -> ptype -> Prop) D fields behave sched (ty : string -> ptype) ops,
    well_formed sched ->
    (* every name has one annotation in the whole pipeline *)
    (forall s n t, In (n, t) (d_in D s) \/ In (n, t) (d_out D s) -> t = ty n) ->
    (* a stage that receives values of its annotations returns values of its annotations *)
    (forall h s i o, behave h s i = Some o ->
       (forall n v t, In (n, v) i -> In (n, t) (d_in D s) -> has_type v t) ->
       forall n v, In (n, v) o -> exists t, In (n, t) (d_out D s) /\ has_type v t) ->
    (* the caller passes values of the right types *)
    (forall o, In o ops -> typed_op has_type ty o) ->
    forall ev n v t,
      In ev (log (steps fields behave sched (fresh_runner V) ops)) ->
      In (n, v) (ev_in ev) -> In (n, t) (d_in D (ev_stage ev)) -> has_type v t.
Proof. exact types_respected. Qed.
Print Assumptions C27_types_respected_if_names_have_one_type.
(** values of type 0 are strings of length 1 *)
Definition C27_type (v : string) (t : ptype) : Prop := t = TPlain 0 -> String.length v = 1.
Example C27_met :
  let ty n := if String.eqb n "a" then TPlain 0 else TPlain 1 in
  (forall s n t, In (n, t) (d_in AB_decls s) \/ In (n, t) (d_out AB_decls s) -> t = ty n) /\
  (forall h s i o, AB_behave h s i = Some o ->
       (forall n v t, In (n, v) i -> In (n, t) (d_in AB_decls s) -> C27_type v t) ->
       forall n v, In (n, v) o -> exists t, In (n, t) (d_out AB_decls s) /\ C27_type v t) /\
  (forall o, In o [RunAll [("a", "1")]; RunStage 0 [("a", "2")]] -> typed_op C27_type ty o).
Proof.
  split; [|split].
  - intros [|[|s]] n t [H|H]; simpl in H; try contradiction; destruct H as [H|[]]; injection H as <- <-; reflexivity.
  - intros h [|[|s]] i o; simpl; try discriminate; destruct i as [|[? ?] [|? ?]]; simpl; try discriminate;
      intros H _ n v Hn; injection H as <-; destruct Hn as [Hn|[]]; injection Hn as <- <-;
      eexists; split; auto; discriminate.
  - intros o [<-|[<-|[]]]; simpl; intros n v [H|[]]; injection H as <- <-; intro; reflexivity.
Qed.

(** A pipeline that builds, in which the caller and all stages respect the annotations, but
    stage 1 receives a value of another type: values are looked up by name only. *)
Theorem C27_types_respected_refuted :
  let has_type (v : nat) (t : ptype) := t = TPlain v in
  let init := [("a", TPlain 0); ("x", TPlain 0)] in
  let args := [("a", 0); ("x", 0)] in
  let behave := fun (h : list (event nat)) (s : sid) (i : dict nat) =>
    match s with 0 => Some [("x", 1)] | _ => Some [("y", 0)] end in
  exists sched,
    build race_decls (fun _ l => l) (add_stages race_decls [0; 1]) init = Ok sched /\
    (forall n t, In (n, t) init -> exists v, given args n = Some v /\ has_type v t) /\
    (forall h s i o n v, In s [0; 1] -> behave h s i = Some o -> In (n, v) o ->
       exists t, In (n, t) (d_out race_decls s) /\ has_type v t) /\
    exists ev n v t,
      In ev (log (fst (run_all (fun s => map fst (d_in race_decls s)) behave sched (fresh_runner nat) args))) /\
      In (n, v) (ev_in ev) /\ In (n, t) (d_in race_decls (ev_stage ev)) /\ ~ has_type v t.
Proof.
  exists [[0; 1]]. split; [vm_compute; reflexivity|]. split; [|split].
  - simpl. intros n t [H|[H|[]]]; injection H as <- <-; simpl; eauto.
  - simpl. intros h s i o n v [<-|[<-|[]]] H; injection H as <-; simpl; intros [H|[]];
      injection H as <- <-; eauto.
  - exists {| ev_stage := 1; ev_in := [("x", 1)]; ev_out := Some [("y", 0)] |}, "x", 1, (TPlain 0).
    split; [vm_compute; auto|]. simpl. split; auto. split; auto. discriminate.
Qed.
Print Assumptions C27_types_respected_refuted.
