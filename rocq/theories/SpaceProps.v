(** C118: using an InstanceSpace step by step. *)
From Verif Require Import Base BaseLemmas BuilderModel RunnerModel SpaceProofs.
Set Implicit Arguments.
Open Scope string_scope.
Open Scope list_scope.

(** In every history of calls, a value that a stage is given for a name is the one made from metadata
    and options, one passed to run_stage for that stage, or one returned under that name by an earlier
    execution of a stage. *)
Theorem C118_where_the_inputs_come_from :
  forall V M fields behave sched (conv : dict V -> option M) inputs ops before ev later n v,
    log (runner (ssteps fields behave sched conv inputs (new_space V M) ops)) = before ++ ev :: later ->
    In (n, v) (ev_in ev) ->
    In (n, v) inputs \/
    (exists kwargs, In (SRunStage (ev_stage ev) kwargs) ops /\ In (n, v) kwargs) \/
    (exists earlier outputs, In earlier before /\ ev_out earlier = Some outputs /\ In (n, v) outputs).
Proof.
  intros V M fields behave sched conv inputs ops before ev later n v E I.
  pose proof (origin fields behave sched conv inputs ops) as G.
  destruct (@g_log _ _ _ _ G before ev later n v E I) as [X|[X|X]]; auto.
Qed.
Print Assumptions C118_where_the_inputs_come_from.

(** As long as only run_stage has been called, no stage is given anything made from metadata and options. *)
Theorem C118_single_stages_never_see_the_metadata :
  forall V M fields behave sched (conv : dict V -> option M) inputs ops,
    (forall o, In o ops -> o = SModel V \/ exists s kwargs, o = SRunStage s kwargs) ->
    forall before ev later n v,
      log (runner (ssteps fields behave sched conv inputs (new_space V M) ops)) = before ++ ev :: later ->
      In (n, v) (ev_in ev) ->
      (exists kwargs, In (SRunStage (ev_stage ev) kwargs) ops /\ In (n, v) kwargs) \/
      (exists earlier outputs, In earlier before /\ ev_out earlier = Some outputs /\ In (n, v) outputs).
Proof.
  intros V M fields behave sched conv inputs ops H before ev later n v E I.
  assert (X : forall l sp, (forall o, In o l -> o = SModel V \/ exists s kwargs, o = SRunStage s kwargs) ->
    ssteps fields behave sched conv inputs sp l = ssteps fields behave sched conv [] sp l).
  { induction l as [|o t IH]; intros sp Hl; [reflexivity|].
    transitivity (ssteps fields behave sched conv inputs (sstep fields behave sched conv inputs sp o) t); [reflexivity|].
    rewrite IH by (intros; apply Hl; right; auto).
    destruct (Hl o (or_introl eq_refl)) as [->|(s & kw & ->)]; reflexivity. }
  rewrite X in E by exact H.
  destruct (@C118_where_the_inputs_come_from V M fields behave sched conv [] ops before ev later n v E I) as [[]|Y]. exact Y.
Qed.
Print Assumptions C118_single_stages_never_see_the_metadata.

(** The arguments of run_until_stage, documented as overriding inputs for the stages, have no effect on
    anything, now or later. *)
Theorem C118_run_until_arguments_ignored :
  forall V M fields behave sched (conv : dict V -> option M) inputs ops ops',
    Forall2 (fun o o' => o = o' \/ exists s kw kw', o = SRunUntil s kw /\ o' = SRunUntil s kw') ops ops' ->
    ssteps fields behave sched conv inputs (new_space V M) ops =
    ssteps fields behave sched conv inputs (new_space V M) ops'.
Proof.
  intros V M fields behave sched conv inputs ops ops' F. generalize (new_space V M) as sp.
  induction F as [|o o' t t' H F IH]; intro sp; [reflexivity|]. unfold ssteps. simpl.
  destruct H as [->|(s & kw & kw' & -> & ->)]; apply IH.
Qed.
Print Assumptions C118_run_until_arguments_ignored.

(** Two stages: the first doubles a into b, the second needs b. *)
Definition double_fields (s : sid) : list string := match s with 0 => ["a"] | _ => ["b"] end.
Definition double_behave (_ : list (event nat)) (s : sid) (i : dict nat) : option (dict nat) :=
  match s, i with
  | 0, (_, v) :: _ => Some [("b", v + v)]
  | _, (_, v) :: _ => Some [("c", v)]
  | _, [] => None
  end.
Theorem C118_overriding_inputs_refuted :
  exists fields (behave : list (event nat) -> sid -> dict nat -> option (dict nat)) sched inputs stage kwargs ev n v,
    let sp := ssteps fields behave sched (fun d => Some d) inputs (new_space nat (dict nat)) [SRunUntil stage kwargs] in
    In (n, v) kwargs /\ log (runner sp) = [ev] /\ ev_out ev <> None /\ In n (map fst (ev_in ev)) /\ ~ In (n, v) (ev_in ev).
Proof.
  exists double_fields, double_behave, [[0]; [1]], [("a", 1)], 1, [("a", 5)], {| ev_stage := 0; ev_in := [("a", 1)]; ev_out := Some [("b", 2)] |}, "a", 5.
  vm_compute. repeat split; auto; try discriminate. intros [H|[]]. discriminate.
Qed.
Print Assumptions C118_overriding_inputs_refuted.
Example C118_met :
  let sp := ssteps double_fields double_behave [[0]; [1]] (fun d => Some d) [("a", 1)] (new_space nat (dict nat)) in
  map (@ev_in nat) (log (runner (sp [SRunUntil 1 []; SRunStage 1 []; SRunStage 0 [("a", 5)]; SRunStage 1 []]))) =
    [[("a", 1)]; [("b", 2)]; [("a", 5)]; [("b", 10)]] /\
  map (@ev_in nat) (log (runner (sp [SRunStage 0 []; SRunStage 0 [("a", 7)]; SRunStage 1 []]))) = [[("a", 7)]; [("b", 14)]] /\
  snd (get_model (fun d => Some d) (sp [SRunUntil 1 []; SRunStage 1 []])) = Err SNotRun.
Proof. vm_compute. auto. Qed.
