(** Property theorems C01-C13 (and C56) about StageBuilder and the StageRunner constructor.
    [calls] is any sequence of add_stage calls on a new builder (rejected calls are
    survived); [iter] is any enumeration order of the Python sets. *)
From Verif Require Import Base BaseLemmas BuilderModel BuilderSpec BuilderProofs BuilderSim.
Set Implicit Arguments.

(* ------------------------------------------------------------------ *)
(** Concrete pipelines used by the examples. *)

Definition A (n : string) : arg := (n, TPlain 0).
Definition in_order : nat -> list sid -> list sid := fun _ l => l.
Definition reversed : nat -> list sid -> list sid := fun _ l => rev l.

Example in_order_any : any_order in_order.
Proof. intros n l. apply Permutation_refl. Qed.
Example reversed_any : any_order reversed.
Proof. intros n l. symmetry. apply Permutation_rev. Qed.

Definition table (t : list (sid * (list arg * list arg))) : decls :=
  let get s := match find (fun r => Nat.eqb (fst r) s) t with
               | Some r => snd r | None => ([], []) end in
  {| d_in := fun s => fst (get s); d_out := fun s => snd (get s) |}.

(** 1 and 2 read the initial input a; 3 mutates a; 4 needs the results of 1 and 2. *)
Definition ex_pipe : decls := table
  [ (1, ([A "a"], [A "b"])); (2, ([A "a"], [A "c"]));
    (3, ([A "a"], [A "a"; A "d"])); (4, ([A "b"; A "c"], [A "e"])) ]%string.

Example ex_pipe_builds :
  build ex_pipe in_order (add_stages ex_pipe [4; 2; 1; 3; 2]) [A "a"]%string
    = Ok [[3]; [2; 1]; [4]]
  /\ build ex_pipe reversed (add_stages ex_pipe [1; 2; 3; 4]) [A "a"]%string
    = Ok [[3]; [2; 1]; [4]]
  /\ build ex_pipe in_order (add_stages ex_pipe [1; 2; 3; 4]) [A "a"]%string
    = Ok [[3]; [1; 2]; [4]].
Proof. repeat split; vm_compute; reflexivity. Qed.

(* ------------------------------------------------------------------ *)

(** C01 *)
Theorem C01_every_stage_once :
  forall D iter calls init sched,
    any_order iter ->
    build D iter (add_stages D calls) init = Ok sched ->
    Permutation (concat sched) (add_stages D calls) /\
    Forall (fun g => g <> []) sched.
Proof. exact (fun D iter calls init sched Hi =>
  @build_partition D iter Hi _ init sched (add_stages_NoDup D calls)). Qed.
Print Assumptions C01_every_stage_once.
(** hypotheses met by [ex_pipe_builds] *)

(** C02 *)
Theorem C02_built_schedule_runnable :
  forall D iter calls init sched,
    any_order iter ->
    build D iter (add_stages D calls) init = Ok sched ->
    runnable D init sched.
Proof. exact (fun D iter calls init sched Hi =>
  @build_runnable D iter Hi _ init sched (add_stages_NoDup D calls)). Qed.
Print Assumptions C02_built_schedule_runnable.

(** C03.  [calls1] and [calls2] may differ in order and in repetitions; the initial
    annotations are sets too.  The content left in the caller's set is also the same. *)
Theorem C03_order_of_adding_irrelevant :
  forall D iter1 iter2 calls1 calls2 init1 init2,
    any_order iter1 -> any_order iter2 ->
    (forall s, In s calls1 <-> In s calls2) ->
    (forall a, In a init1 <-> In a init2) ->
    same_result (build D iter1 (add_stages D calls1) init1)
                (build D iter2 (add_stages D calls2) init2) /\
    (forall a, In a (snd (build_set D iter1 (add_stages D calls1) init1)) <->
               In a (snd (build_set D iter2 (add_stages D calls2) init2))).
Proof. exact (fun D i1 i2 c1 c2 n1 n2 H1 H2 Hc Hn =>
  @build_order_independent D i1 i2 H1 H2 _ _ n1 n2 (add_stages_perm D c1 c2 Hc)
    (add_stages_NoDup D c1) Hn). Qed.
Print Assumptions C03_order_of_adding_irrelevant.

(** C04 *)
Theorem C04_no_race_in_a_group :
  forall D iter calls init sched,
    any_order iter ->
    build D iter (add_stages D calls) init = Ok sched ->
    forall k s t a, runs_in sched k s -> runs_in sched k t -> s <> t ->
      (In a (d_out D s) -> ~ In a (d_out D t)) /\
      (mutates D s a -> ~ In a (d_in D t)).
Proof. exact (fun D iter calls init sched Hi =>
  @build_no_race D iter Hi _ init sched (add_stages_NoDup D calls)). Qed.
Print Assumptions C04_no_race_in_a_group.
Example C04_met : runs_in [[3]; [2; 1]; [4]] 1 2 /\ runs_in [[3]; [2; 1]; [4]] 1 1 /\ 2 <> 1.
Proof. repeat split; try (exists [2; 1]; simpl; auto); lia. Qed.
(** The converse hazard, a stage of the group writing (not mutating) what another reads, is
    not excluded. *)
Example C04_write_read_hazard_possible :
  build (table [(1, ([A "x"], [A "a"])); (2, ([A "a"], [A "b"]))]%string) in_order [1; 2]
        [A "x"; A "a"]%string = Ok [[1; 2]].
Proof. vm_compute. reflexivity. Qed.

(** C05 *)
Theorem C05_build_fails_only_when_it_must :
  forall D iter calls init,
    any_order iter ->
    let stages := add_stages D calls in
    (forall s, In s stages -> d_out D s <> []) ->
    (forall s a, In s stages -> In a (d_in D s) -> ~ marker_class a) ->
    (forall s t a, In s stages -> In t stages -> In a (d_out D s) -> In a (d_out D t) -> s = t) ->
    (forall s a, In s stages -> In a (d_in D s) -> ~ In a (d_out D s)) ->
    (exists sched, build D iter stages init = Ok sched) <->
    (exists seq, Permutation seq stages /\ executable_sequence D init seq).
Proof. exact (fun D iter calls init Hi =>
  @build_complete D iter Hi _ init (add_stages_NoDup D calls)). Qed.
Print Assumptions C05_build_fails_only_when_it_must.
Definition ex_single : decls := table
  [ (1, ([A "a"], [A "b"])); (2, ([A "b"], [A "c"])); (3, ([A "b"; A "c"], [A "d"])) ]%string.
Example C05_met :
  let stages := add_stages ex_single [3; 2; 1] in
  stages = [3; 2; 1] /\
  (forall s, In s stages -> d_out ex_single s <> []) /\
  (forall s a, In s stages -> In a (d_in ex_single s) -> ~ marker_class a) /\
  (forall s t a, In s stages -> In t stages ->
     In a (d_out ex_single s) -> In a (d_out ex_single t) -> s = t) /\
  (forall s a, In s stages -> In a (d_in ex_single s) -> ~ In a (d_out ex_single s)) /\
  build ex_single in_order stages [A "a"]%string = Ok [[1]; [2]; [3]].
Proof.
  cbv zeta. change (add_stages ex_single [3; 2; 1]) with [3; 2; 1].
  repeat split; try (vm_compute; reflexivity); intros s; simpl In;
    [ intros [<-|[<-|[<-|[]]]]; discriminate
    | intros a [<-|[<-|[<-|[]]]]; simpl; intros H (b & c & E & [->| ->]);
        repeat (destruct H as [<-|H]; [discriminate|]); destruct H
    | intros t a [<-|[<-|[<-|[]]]] [<-|[<-|[<-|[]]]]; simpl;
        intros [<-|[]] [H|[]]; auto; discriminate
    | intros a [<-|[<-|[<-|[]]]]; simpl; intros H [E|[]]; subst a;
        repeat (destruct H as [H|H]; [discriminate|]); destruct H ].
Qed.

(** C06: the loop head is evaluated at most (number of stages + 1) times - with that much
    fuel or more the loop returns the result that [build] uses, and that is never the
    model's out-of-fuel value; the exceptions are StageResolutionError, or IndexError for
    marker classes. *)
Theorem C06_resolution_terminates :
  forall D iter calls init,
    any_order iter ->
    let stages := add_stages D calls in
    build D iter stages init <> Err EOutOfFuel /\
    (forall restr fuel, get_ordering_restrictions D stages = Ok restr ->
       length stages + 1 <= fuel ->
       resolve_loop D iter fuel 0 stages (get_mutating_stages D stages) restr None [] [] init
       = resolve_stages D iter stages init).
Proof. exact (fun D iter calls init Hi =>
  @build_terminates D iter Hi _ init (add_stages_NoDup D calls)). Qed.
Print Assumptions C06_resolution_terminates.

Theorem C06_only_documented_exceptions :
  forall D iter calls init e,
    any_order iter ->
    build D iter (add_stages D calls) init = Err e ->
    exn_class e = "StageResolutionError"%string \/ exn_class e = "IndexError"%string.
Proof. exact (fun D iter calls init e Hi H =>
  match @build_errors D iter _ init e Hi (add_stages_NoDup D calls) H with
  | or_introl x => or_introl x
  | or_intror x => or_intror (f_equal exn_class x)
  end). Qed.
Print Assumptions C06_only_documented_exceptions.

(** C07 *)
Theorem C07_mutating_stage_before_ready_readers :
  forall D iter calls init sched,
    any_order iter ->
    build D iter (add_stages D calls) init = Ok sched ->
    forall m r a i j,
      mutates D m a -> In a (d_in D r) -> ~ In a (d_out D r) ->
      runs_in sched i r -> runs_in sched j m -> i <= j ->
      exists b, In b (d_in D m) /\ ~ available_before D init sched i b.
Proof. exact (fun D iter calls init sched Hi =>
  @build_mutating_first D iter Hi _ init sched (add_stages_NoDup D calls)). Qed.
Print Assumptions C07_mutating_stage_before_ready_readers.

(** The documentation's unconditional claim (readers run after the mutating stage). *)
Definition ex_late_mutation : decls := table
  [ (1, ([A "a"], [A "r"])); (2, ([A "c"], [A "b"])); (3, ([A "a"; A "b"], [A "a"])) ]%string.
Theorem C07_readers_after_mutation_refuted :
  exists D calls init sched m r a i j,
    build D in_order (add_stages D calls) init = Ok sched /\
    mutates D m a /\ In a (d_in D r) /\ ~ In a (d_out D r) /\
    runs_in sched i r /\ runs_in sched j m /\ i < j.
Proof.
  exists ex_late_mutation, [1; 2; 3], [A "a"; A "c"]%string, [[1; 2]; [3]], 3, 1, (A "a"), 0, 1.
  split; [vm_compute; reflexivity|]. split; [split; simpl; auto|].
  split; [simpl; auto|]. split; [simpl; intros [H|[]]; discriminate|].
  split; [exists [1; 2]; simpl; auto|]. split; [exists [3]; simpl; auto|]. lia.
Qed.
Print Assumptions C07_readers_after_mutation_refuted.
(** this witness also meets the hypotheses of C07_mutating_stage_before_ready_readers *)

(** C08: RunBefore[X] / RunAfter[X] annotations have no special meaning: replacing them by
    ordinary annotations changes neither the schedule nor the kind of failure. *)
Theorem C08_markers_are_ordinary_inputs :
  forall D iter calls init,
    same_outcome (build (unmark_decls D) iter calls (map unmark_arg init))
                 (build D iter calls init) /\
    (forall s a k t, In a (d_in (unmark_decls D) s ++ d_out (unmark_decls D) s) ->
                     snd a <> TAlias k t).
Proof. exact (fun D iter calls init =>
  conj (build_unmark D iter calls init) (unmark_no_alias D)). Qed.
Print Assumptions C08_markers_are_ordinary_inputs.

(** Hence a marker is required like any other input ... *)
Theorem C08_marker_must_be_supplied :
  forall D iter calls init sched s k x n,
    any_order iter ->
    build D iter (add_stages D calls) init = Ok sched ->
    In s (add_stages D calls) -> In (n, TAlias k x) (d_in D s) ->
    In (n, TAlias k x) init \/
    exists t, In t (add_stages D calls) /\ In (n, TAlias k x) (d_out D t).
Proof.
  exact (fun D iter calls init sched s k x n Hi Hb Hs Ha =>
    @build_supplied D iter Hi _ init sched (add_stages_NoDup D calls) Hb s _ Hs Ha).
Qed.
Print Assumptions C08_marker_must_be_supplied.

(** ... and does not order anything: stage 1 declares it runs before 2, and yet 2 is first. *)
Definition ex_marker : decls := table
  [ (1, ([A "b"; ("m", TAlias RunBefore 2)], [A "c"])); (2, ([A "a"], [A "b"]));
    (3, ([A "a"; ("m", TAlias RunAfter 4)], [A "f"])); (4, ([A "f"], [A "g"])) ]%string.
Theorem C08_markers_honoured_refuted :
  (exists D calls init sched s t i j n,
     build D in_order (add_stages D calls) init = Ok sched /\
     In (n, TAlias RunBefore t) (d_in D s) /\ runs_in sched i s /\ runs_in sched j t /\ j < i) /\
  (exists D calls init sched s t i j n,
     build D in_order (add_stages D calls) init = Ok sched /\
     In (n, TAlias RunAfter t) (d_in D s) /\ runs_in sched i s /\ runs_in sched j t /\ i < j).
Proof.
  split.
  - exists ex_marker, [1; 2], [A "a"; ("m", TAlias RunBefore 2)]%string, [[2]; [1]], 1, 2, 1, 0,
      "m"%string.
    split; [vm_compute; reflexivity|]. split; [simpl; auto|].
    split; [exists [1]; simpl; auto|]. split; [exists [2]; simpl; auto|]. lia.
  - exists ex_marker, [3; 4], [A "a"; ("m", TAlias RunAfter 4)]%string, [[3]; [4]], 3, 4, 0, 1,
      "m"%string.
    split; [vm_compute; reflexivity|]. split; [simpl; auto|].
    split; [exists [3]; simpl; auto|]. split; [exists [4]; simpl; auto|]. lia.
Qed.
Print Assumptions C08_markers_honoured_refuted.

(** A marker class as annotation makes build raise IndexError, and nothing else does. *)
Theorem C08_marker_class_index_error :
  forall D iter calls init,
    any_order iter ->
    build D iter (add_stages D calls) init = Err EIndexError <->
    exists s a, In s (add_stages D calls) /\ In a (d_in D s) /\ marker_class a.
Proof. exact (fun D iter calls init Hi =>
  @build_index_error D iter _ init Hi (add_stages_NoDup D calls)). Qed.
Print Assumptions C08_marker_class_index_error.
Example C08_marker_class_met :
  build (table [(1, ([("m", TClass true false)], [A "b"]))]%string) in_order [1] []
  = Err EIndexError.
Proof. vm_compute. reflexivity. Qed.

(** C09 *)
Theorem C09_add_stage :
  forall D b s,
    (In s b -> add_stage D b s = Err EValueError) /\
    (~ In s b -> (exists o, In o (d_out D s) /\ marker_class o) ->
       add_stage D b s = Err ETypeError) /\
    (~ In s b -> (forall o, In o (d_out D s) -> ~ marker_class o) ->
       add_stage D b s = Ok (b ++ [s])).
Proof. exact add_stage_cases. Qed.
Print Assumptions C09_add_stage.

Theorem C09_builder_holds_accepted_stages_once :
  forall D calls,
    NoDup (add_stages D calls) /\
    forall s, In s (add_stages D calls) <->
              In s calls /\ forall o, In o (d_out D s) -> ~ marker_class o.
Proof. exact (fun D calls => conj (add_stages_NoDup D calls) (in_add_stages D calls)). Qed.
Print Assumptions C09_builder_holds_accepted_stages_once.
Example C09_met :
  add_stages (table [(1, ([], [A "x"])); (2, ([], [("m", TClass false true)]))]%string)
             [1; 2; 1; 3] = [1; 3]
  /\ add_stage (table []) [1] 1 = Err EValueError
  /\ add_stage (table [(2, ([], [("m", TClass false true)]))]%string) [1] 2 = Err ETypeError.
Proof. repeat split; vm_compute; reflexivity. Qed.

(** C10 *)
Theorem C10_stage_without_outputs_never_builds :
  forall D iter calls init s,
    any_order iter ->
    In s (add_stages D calls) -> d_out D s = [] ->
    forall sched, build D iter (add_stages D calls) init <> Ok sched.
Proof. exact (fun D iter calls init s Hi =>
  @build_no_outputs D iter Hi _ init s (add_stages_NoDup D calls)). Qed.
Print Assumptions C10_stage_without_outputs_never_builds.
Example C10_met :
  build (table [(1, ([A "a"], [])); (2, ([A "a"], [A "b"]))]%string) in_order [1; 2]
        [A "a"]%string
  = Err (EMissing [(1, [])] [A "a"; A "b"])%string.
Proof. vm_compute. reflexivity. Qed.

(** C11 *)
Theorem C11_build_grows_the_given_set :
  forall D iter calls init sched after,
    any_order iter ->
    build_set D iter (add_stages D calls) init = (Ok sched, after) ->
    forall a, In a after <->
      In a init \/ exists s, In s (add_stages D calls) /\ In a (d_out D s).
Proof. exact (fun D iter calls init sched after Hi =>
  @build_set_effect D iter Hi _ init sched after (add_stages_NoDup D calls)). Qed.
Print Assumptions C11_build_grows_the_given_set.
Theorem C11_second_build_same_set_refuted :
  exists D calls init sched after,
    build_set D in_order (add_stages D calls) init = (Ok sched, after) /\
    fst (build_set D in_order (add_stages D calls) after) = Err EAmbiguousOutput.
Proof.
  exists (table [(1, ([A "x"], [A "y"])); (2, ([A "y"], [A "y"]))]%string), [1; 2],
         [A "x"]%string, [[1]; [2]], [A "x"; A "y"]%string.
  split; vm_compute; reflexivity.
Qed.
Print Assumptions C11_second_build_same_set_refuted.

(** C12: the report of the missing-inputs error.  [placed] are the stages that were placed. *)
Theorem C12_missing_inputs_report :
  forall D iter calls init rep available,
    any_order iter ->
    let stages := add_stages D calls in
    build D iter stages init = Err (EMissing rep available) ->
    exists placed,
      executable_sequence D init placed /\ NoDup placed /\ incl placed stages /\
      (forall a, In a available <->
         In a init \/ exists t, In t placed /\ In a (d_out D t)) /\
      rep <> [] /\
      (forall s, In s (map fst rep) <-> In s stages /\ ~ In s placed) /\
      (forall s m, In (s, m) rep -> forall a, In a m <-> In a (d_in D s) /\ ~ In a available) /\
      (forall s, In (s, []) rep ->
         d_out D s = [] \/
         exists t a, In (t, []) rep /\ mutates D t a /\ In a (d_in D s) /\ ~ In a (d_out D s)).
Proof. exact (fun D iter calls init rep av Hi =>
  @build_missing D iter Hi _ init rep av (add_stages_NoDup D calls)). Qed.
Print Assumptions C12_missing_inputs_report.
(** Two mutating stages reading each other's argument: nothing is missing, yet the error
    says so. *)
Example C12_met_deadlock :
  build (table [(1, ([A "a"; A "b"], [A "a"])); (2, ([A "a"; A "b"], [A "b"]))]%string)
        in_order [1; 2] [A "a"; A "b"]%string
  = Err (EMissing [(1, []); (2, [])] [A "a"; A "b"])%string.
Proof. vm_compute. reflexivity. Qed.
Example C12_met_missing :
  build ex_single in_order [3; 2; 1] [A "b"]%string
  = Err (EMissing [(1, [A "a"])] [A "b"; A "c"; A "d"])%string.
Proof. vm_compute. reflexivity. Qed.

(** C13 *)
Theorem C13_constructor_accepts_exactly_runnable :
  forall D sched init,
    (new_runner D sched init = Ok sched <-> runnable D init sched) /\
    (new_runner D sched init = Err ERunningError <-> ~ runnable D init sched).
Proof. exact new_runner_iff. Qed.
Print Assumptions C13_constructor_accepts_exactly_runnable.
Example C13_met :
  new_runner ex_single [[1]; [2]; [3]] [A "a"]%string = Ok [[1]; [2]; [3]] /\
  new_runner ex_single [[1]; [2; 3]] [A "a"]%string = Err ERunningError.
Proof. split; vm_compute; reflexivity. Qed.

(** C56: no stage is scheduled later than necessary. *)
Theorem C56_stages_run_as_early_as_possible :
  forall D iter calls init sched,
    any_order iter ->
    build D iter (add_stages D calls) init = Ok sched ->
    forall k s, runs_in sched k s -> forall i, i < k ->
      (exists b, In b (d_in D s) /\ ~ available_before D init sched i b) \/
      (exists m a j, mutates D m a /\ In a (d_in D s) /\ ~ In a (d_out D s) /\
         runs_in sched j m /\ i <= j /\
         forall b, In b (d_in D m) -> available_before D init sched i b).
Proof. exact (fun D iter calls init sched Hi =>
  @build_asap D iter Hi _ init sched (add_stages_NoDup D calls)). Qed.
Print Assumptions C56_stages_run_as_early_as_possible.
