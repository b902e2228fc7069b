(** Model of instancespace/stage_builder.py and of the constructor check of
    instancespace/stage_runner.py.  Definitions only, no proofs. *)
From Verif Require Import Base.

(** A stage class.  Python compares classes by identity; a number stands for the class
    object. *)
Notation sid := nat (only parsing).

(** stages/stage.py:47-52.  The two marker classes. *)
Inductive marker := RunBefore | RunAfter.

(** The annotation [parameter_type] of an argument (stage_runner.py:15-19), as far as the
    builder distinguishes annotations:
    - [TPlain n]    any annotation that is not a marker (n identifies it);
    - [TAlias k s]  the subscripted generic [RunBefore[S]] / [RunAfter[S]].  This is a
                    [typing._GenericAlias] object: [isinstance(_, type)] is False and
                    [get_args] gives [(S,)];
    - [TClass b a]  a class ([isinstance(_, type)] is True) that is a subclass of RunBefore
                    (b), of RunAfter (a) or both: the bare marker class or a class derived
                    from it, e.g. [class P(RunBefore[S])]; [get_args] of a class is [()]. *)
Inductive ptype :=
| TPlain (n : nat)
| TAlias (k : marker) (s : sid)
| TClass (before after : bool).

(** stage_runner.py:15-19 [_StageArgument(parameter_name, parameter_type)] *)
Definition arg := (string * ptype)%type.

Definition marker_dec (x y : marker) : {x = y} + {x <> y}.
Proof. decide equality. Defined.
Definition ptype_dec (x y : ptype) : {x = y} + {x <> y}.
Proof. decide equality; try apply Nat.eq_dec; try apply marker_dec; apply Bool.bool_dec. Defined.
(** [_StageArgument] is a NamedTuple: equality is equality of both fields. *)
Definition arg_dec (x y : arg) : {x = y} + {x <> y}.
Proof. decide equality; [apply ptype_dec | apply string_dec]. Defined.

Definition amem := mem arg_dec.
Definition smem := mem Nat.eq_dec.

(** What the classes declare: [stage._inputs().__annotations__] and
    [stage._outputs().__annotations__] turned into arguments
    (stage_builder.py:396-405 [_named_tuple_to_stage_arguments]).
    Simplification: a class declares the same annotations every time it is asked. *)
Record decls := { d_in : sid -> list arg; d_out : sid -> list arg }.

(** isinstance(t, type) and (issubclass(t, RunBefore) or issubclass(t, RunAfter)) *)
Definition is_type_before (t : ptype) : bool :=
  match t with TClass b _ => b | _ => false end.
Definition is_type_after (t : ptype) : bool :=
  match t with TClass _ a => a | _ => false end.
Definition is_type_marker (t : ptype) : bool := is_type_before t || is_type_after t.

(** typing.get_args *)
Definition get_args (t : ptype) : list sid :=
  match t with TAlias _ s => [s] | _ => [] end.

(** Exceptions of the builder.  [EMissing] carries the content of the message. *)
Inductive berr :=
| EValueError
| ETypeError
| EIndexError
| EAmbiguousMutation
| EAmbiguousOutput
| EMissing (report : list (sid * list arg)) (available : list arg)
| ERunningError
| EOutOfFuel.

(** The Python exception class. *)
Definition exn_class (e : berr) : string :=
  match e with
  | EValueError => "ValueError"
  | ETypeError => "TypeError"
  | EIndexError => "IndexError"
  | EAmbiguousMutation | EAmbiguousOutput | EMissing _ _ => "StageResolutionError"
  | ERunningError => "StageRunningError"
  | EOutOfFuel => "(model only: out of fuel)"
  end%string.

(** stage_builder.py:70-81: the builder object.  [_stage_inputs]/[_stage_outputs] are the
    restrictions of [decls] to the added stages, so the list of stages is the state. *)
Definition builder := list sid.
Definition new_builder : builder := [].

Section Builder.
  Variable D : decls.

  (** stage_builder.py:83-122 [add_stage] *)
  Definition add_stage (b : builder) (s : sid) : res berr builder :=
    if smem s b then Err EValueError
    else if existsb (fun o => is_type_marker (snd o)) (d_out D s) then Err ETypeError
    else Ok (b ++ [s]).

  (** stage_builder.py:261-273 [_strip_run_restriction_arguments] *)
  Definition strip_markers (args : list arg) : list arg :=
    filter (fun a => negb (is_type_marker (snd a))) args.

  (** stage_builder.py:275-288 [_get_mutating_stages]: a dict from stages to the arguments
      they both read and write; stages with none are absent. *)
  Definition get_mutating_stages (stages : list sid) : list (sid * list arg) :=
    flat_map
      (fun s =>
         let m := filter (fun i => amem i (d_out D s)) (d_in D s) in
         if nonempty m then [(s, m)] else [])
      stages.

  (** stage_builder.py:290-312 [_get_ordering_restrictions]: pairs (before, after).
      [get_args(t)[0]] raises IndexError when there are no type arguments. *)
  Definition restrictions_of_arg (s : sid) (a : arg) : res berr (list (sid * sid)) :=
    let r1 := if is_type_before (snd a)
              then match get_args (snd a) with
                   | x :: _ => Ok [(s, x)]
                   | [] => Err EIndexError
                   end
              else Ok [] in
    let r2 := if is_type_after (snd a)
              then match get_args (snd a) with
                   | x :: _ => Ok [(x, s)]
                   | [] => Err EIndexError
                   end
              else Ok [] in
    match r1, r2 with
    | Ok l1, Ok l2 => Ok (l1 ++ l2)
    | Err e, _ => Err e
    | _, Err e => Err e
    end.

  Fixpoint restrictions_of_args (s : sid) (l : list arg) : res berr (list (sid * sid)) :=
    match l with
    | [] => Ok []
    | a :: t =>
        match restrictions_of_arg s a with
        | Err e => Err e
        | Ok r => match restrictions_of_args s t with
                  | Err e => Err e
                  | Ok rs => Ok (r ++ rs)
                  end
        end
    end.

  Fixpoint get_ordering_restrictions (stages : list sid) : res berr (list (sid * sid)) :=
    match stages with
    | [] => Ok []
    | s :: t =>
        match restrictions_of_args s (d_in D s) with
        | Err e => Err e
        | Ok r => match get_ordering_restrictions t with
                  | Err e => Err e
                  | Ok rs => Ok (r ++ rs)
                  end
        end
    end.

  (** stage_builder.py:314-328 [_get_restrictions_for_stage], the [run_after] component (the
      other one is discarded by the only caller, line 340). *)
  Definition run_after_stages (restr : list (sid * sid)) (s : sid) : list sid :=
    map fst (filter (fun r => Nat.eqb (snd r) s) restr).

  (** stage_builder.py:330-348 [_stage_resolves] *)
  Definition stage_resolves (s : sid) (resolved : list sid) (available : list arg)
             (restr : list (sid * sid)) : bool :=
    let required := strip_markers (d_in D s) in
    let inputs_ok := negb (nonempty (sdiff arg_dec required available)) in
    let restr_ok := negb (nonempty (sdiff Nat.eq_dec (run_after_stages restr s) resolved)) in
    inputs_ok && restr_ok.

  (** [mutating_stages[stage]] / [stage in mutating_stages] *)
  Fixpoint dict_get (m : list (sid * list arg)) (s : sid) : option (list arg) :=
    match m with
    | [] => None
    | (k, v) :: t => if Nat.eqb k s then Some v else dict_get t s
    end.

  Definition dict_at (m : list (sid * list arg)) (s : sid) : list arg :=
    match dict_get m s with Some v => v | None => [] end.

  (** [exists s in l, exists t in l - {s}, f s t] — the double loops at 204-215, 361-373 *)
  Definition exists_pair (f : sid -> sid -> bool) (l : list sid) : bool :=
    existsb (fun s => existsb (fun t => f s t) (sdiff Nat.eq_dec l [s])) l.

  (** stage_builder.py:350-394 [_mutating_stages_check] *)
  Definition mutating_stages_check (can_run : list sid) (mut : list (sid * list arg))
    : res berr (list sid) :=
    let mut_can_run := sinter Nat.eq_dec (map fst mut) can_run in
    if negb (nonempty mut_can_run) then Ok can_run
    else if exists_pair
              (fun s t => nonempty (sinter arg_dec (dict_at mut s) (dict_at mut t)))
              mut_can_run
         then Err EAmbiguousMutation
         else
           let mut_args := flat_map (dict_at mut) mut_can_run in
           Ok (filter
                 (fun s =>
                    let clash := sinter arg_dec mut_args (d_in D s) in
                    let clash := match dict_get mut s with
                                 | Some own => sdiff arg_dec clash own
                                 | None => clash
                                 end in
                    negb (nonempty clash))
                 can_run).

  (** [list(some_set)] (line 223) enumerates a set in hash order: an oracle, indexed by the
      round, that may return any permutation of its argument. *)
  Variable iter : nat -> list sid -> list sid.

  (** stage_builder.py:217-221.  Note that [resolved_stages.add(stage)] is inside the loop
      over the outputs, so a stage without outputs is not added. *)
  Definition add_outputs (post : list sid) (available : list arg) : list arg :=
    fold_left (fun av s => sunion arg_dec av (d_out D s)) post available.
  Definition add_resolved (post : list sid) (resolved : list sid) : list sid :=
    fold_left
      (fun rs s => fold_left (fun rs' _ => sadd Nat.eq_dec s rs') (d_out D s) rs)
      post resolved.

  (** stage_builder.py:225-257: the detailed error. *)
  Definition missing_report (stages resolved : list sid) (available : list arg) : berr :=
    EMissing
      (map (fun s => (s, sdiff arg_dec (strip_markers (d_in D s)) available))
           (sdiff Nat.eq_dec stages resolved))
      available.

  (** stage_builder.py:153-259 [_resolve_stages].  [available] is the caller's set object
      itself (line 161 makes no copy), so its final content is returned next to the result.
      [fuel] bounds the number of evaluations of the loop head. *)
  Fixpoint resolve_loop (fuel round : nat) (stages : list sid)
           (mut : list (sid * list arg)) (restr : list (sid * sid))
           (prev : option (list sid)) (resolved : list sid)
           (order : list (list sid)) (available : list arg)
    : res berr (list (list sid)) * list arg :=
    match fuel with
    | 0 => (Err EOutOfFuel, available)
    | S fuel' =>
        let continue := match prev with
                        | None => true
                        | Some p => nonempty (sdiff Nat.eq_dec resolved p)
                        end in
        if continue then
          if negb (nonempty (sdiff Nat.eq_dec stages resolved)) then (Ok order, available)
          else
            let can_run :=
              filter (fun s => stage_resolves s resolved available restr)
                     (sdiff Nat.eq_dec stages resolved) in
            match mutating_stages_check can_run mut with
            | Err e => (Err e, available)
            | Ok post =>
                if exists_pair
                     (fun s t => nonempty (sinter arg_dec (d_out D s) (d_out D t))) post
                then (Err EAmbiguousOutput, available)
                else
                  resolve_loop fuel' (S round) stages mut restr
                    (Some resolved)
                    (add_resolved post resolved)
                    (order ++ [iter round post])
                    (add_outputs post available)
            end
        else
          if nonempty (sdiff Nat.eq_dec stages resolved)
          then (Err (missing_report stages resolved available), available)
          else (Ok order, available)
    end.

  (** Enough loop-head evaluations for any stage set; [BuilderProofs.resolve_fuel] proves
      that any larger number gives the same result. *)
  Definition resolve_fuel (stages : list sid) : nat := length stages + 2.

  Definition resolve_stages (stages : list sid) (initial : list arg)
    : res berr (list (list sid)) * list arg :=
    let mut := get_mutating_stages stages in
    match get_ordering_restrictions stages with
    | Err e => (Err e, initial)
    | Ok restr =>
        resolve_loop (resolve_fuel stages) 0 stages mut restr None [] [] initial
    end.

  (** stage_runner.py:235-254 [_check_stage_order_is_runnable]: true = accepted. *)
  Fixpoint check_runnable (sched : list (list sid)) (available : list arg) : bool :=
    match sched with
    | [] => true
    | g :: rest =>
        if existsb (fun s => nonempty (sdiff arg_dec (d_in D s) available)) g
        then false
        else check_runnable rest
               (fold_left (fun av s => sunion arg_dec av (d_out D s)) g available)
    end.

  (** stage_runner.py:57-88, the part of the constructor that can fail: the schedule of the
      new runner or StageRunningError. *)
  Definition new_runner (sched : list (list sid)) (initial : list arg)
    : res berr (list (list sid)) :=
    if check_runnable sched initial then Ok sched else Err ERunningError.

  (** stage_builder.py:124-151 [build] with a set argument: the schedule of the runner, and
      the content of the caller's set object after the call.  The same object is given to
      the runner's constructor (line 150). *)
  Definition build_set (b : builder) (initial : list arg)
    : res berr (list (list sid)) * list arg :=
    let '(r, available) := resolve_stages b initial in
    match r with
    | Err e => (Err e, available)
    | Ok sched => (new_runner sched available, available)
    end.

  (** [build] with a NamedTuple class: a fresh set is made from the annotations (140). *)
  Definition build (b : builder) (initial : list arg) : res berr (list (list sid)) :=
    fst (build_set b initial).
End Builder.

(** A sequence of add_stage calls on a new builder, continuing after exceptions. *)
Definition add_stages (D : decls) (calls : list sid) : builder :=
  fold_left (fun b s => match add_stage D b s with Ok b' => b' | Err _ => b end)
            calls new_builder.
