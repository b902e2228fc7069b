(** Properties C102-C106: the pipeline of the seven default stages. *)
From Verif Require Import Base BaseLemmas BuilderModel BuilderSpec BuilderProofs BuilderSim BuilderProps
     RunnerModel RunnerSpec RunnerProofs RunnerRun RunnerMore RunnerPipeline RunnerEnd RunnerProps DefaultModel DefaultSpec DefaultProofs.
Set Implicit Arguments.
Open Scope list_scope.

Notation default_build iter calls init := (build default_decls iter (add_stages default_decls calls) init).
Notation default_fields := (fun s : sid => map fst (d_in default_decls s)).

Lemma forall2_single (A : Type) (a : A) l : Permutation l [a] -> l = [a].
Proof. intro P. apply Permutation_sym, Permutation_length_1_inv in P. auto. Qed.

(* ========================================================== C102 *)
(** Whatever the order in which the default stages are added and the order in which sets are
    iterated, the schedule is the same, except that PYTHIA and CLOISTER, which share a group, may
    change places. *)
Theorem C102_default_schedule :
  forall iter calls init, any_order iter ->
    (forall s, In s calls <-> In s default_stages) -> (forall a, In a init <-> In a default_inputs) ->
    default_build iter calls init = Ok default_schedule \/ default_build iter calls init = Ok default_schedule'.
Proof.
  intros iter calls init Hi Hc Ha.
  assert (Hid : any_order (fun _ l => l)) by (intros n l; auto).
  destruct (@C03_order_of_adding_irrelevant default_decls iter (fun _ l => l) calls default_stages init default_inputs Hi Hid Hc Ha) as [S _].
  replace (default_build (fun _ l => l) default_stages default_inputs) with (Ok (E := berr) default_schedule) in S by (vm_compute; reflexivity).
  destruct (default_build iter calls init) as [sched|e]; [|contradiction]. simpl in S. unfold default_schedule in S.
  repeat match goal with H : Forall2 _ _ (_ :: _) |- _ => inversion H; clear H; subst | H : Forall2 _ _ [] |- _ => inversion H; clear H; subst end.
  repeat match goal with H : Permutation ?l [_] |- _ => apply forall2_single in H; subst l end.
  match goal with H : Permutation ?l [_; _] |- _ => apply Permutation_sym, Permutation_length_2_inv in H; destruct H; subst l end; auto.
Qed.
(** The groups really may come out in either order. *)
Theorem C102_both_orders_occur :
  exists iter iter', any_order iter /\ any_order iter' /\
    default_build iter default_stages default_inputs = Ok default_schedule /\
    default_build iter' default_stages default_inputs = Ok default_schedule'.
Proof.
  exists (fun _ l => l), (fun _ l => rev l). split; [intros n l; auto|]. split; [intros n l; apply Permutation_sym, Permutation_rev|].
  split; vm_compute; reflexivity.
Qed.

(* ========================================================== C103 *)
Fixpoint sublists (l : list sid) : list (list sid) :=
  match l with [] => [[]] | a :: t => sublists t ++ map (cons a) (sublists t) end.
Lemma sublists_filter f l : In (filter f l) (sublists l).
Proof. induction l as [|a l IH]; simpl; auto. apply in_or_app. destruct (f a); [right; apply in_map|left]; auto. Qed.
Definition closedb (l : list sid) : bool := forallb (fun s => forallb (fun t => smem t l) (needs s)) l.
Fixpoint orderedb (sched : list (list sid)) : bool :=
  match sched with
  | [] => true
  | g :: t => forallb (fun a => forallb (fun b => Nat.eqb (rank a) (rank b)) g) g &&
              forallb (fun a => forallb (fun h => forallb (fun b => Nat.ltb (rank a) (rank b)) h) t) g && orderedb t
  end.
Definition check (l : list sid) : bool :=
  match default_build (fun _ l => l) l default_inputs with
  | Ok sched => closedb l && orderedb sched
  | Err (EMissing _ _) => negb (closedb l)
  | Err _ => false
  end.
Lemma checked : forallb check (sublists default_stages) = true.
Proof. vm_compute. reflexivity. Qed.
Lemma ordered_spec sched : orderedb sched = true -> forall k j s t, runs_in sched k s -> runs_in sched j t -> (k < j <-> rank s < rank t).
Proof.
  induction sched as [|g sched IH]; intros O k j s t (gk & Ek & Hs) (gj & Ej & Ht); [destruct k; discriminate|].
  simpl in O. rewrite !andb_true_iff, !forallb_forall in O. destruct O as [[O1 O2] O3].
  assert (A : forall k a b, runs_in sched k b -> In a g -> rank a < rank b).
  { intros k' a b (g' & E & I) Ia. specialize (O2 a Ia). rewrite forallb_forall in O2. specialize (O2 g' (nth_error_In _ _ E)).
    rewrite forallb_forall in O2. specialize (O2 b I). apply Nat.ltb_lt in O2. auto. }
  destruct k as [|k], j as [|j]; simpl in Ek, Ej.
  - injection Ek as <-. injection Ej as <-. specialize (O1 s Hs). rewrite forallb_forall in O1. specialize (O1 t Ht). apply Nat.eqb_eq in O1. lia.
  - injection Ek as <-. assert (rank s < rank t) by (apply (A j); auto; exists gj; auto). lia.
  - injection Ej as <-. assert (rank t < rank s) by (apply (A k); auto; exists gk; auto). lia.
  - rewrite <- (IH O3 k j s t); [lia|exists gk; auto|exists gj; auto].
Qed.
Lemma selection_check iter calls init : any_order iter -> (forall s, In s calls -> In s default_stages) -> (forall a, In a init <-> In a default_inputs) ->
  exists l, (forall s, In s l <-> In s calls) /\ check l = true /\
    same_result (default_build iter calls init) (default_build (fun _ l => l) l default_inputs).
Proof.
  intros Hi Hc Ha. exists (filter (fun s => smem s calls) default_stages).
  assert (E : forall s, In s (filter (fun s => smem s calls) default_stages) <-> In s calls).
  { intro s. rewrite filter_In. unfold smem. rewrite mem_true. split; [tauto|auto]. }
  split; auto. split.
  - pose proof checked as C. rewrite forallb_forall in C. apply C. apply sublists_filter.
  - apply C03_order_of_adding_irrelevant; auto; [intros n l; auto|]. intro s. rewrite E. tauto.
Qed.
Lemma closedb_spec l : closedb l = true <-> forall s t, In s l -> In t (needs s) -> In t l.
Proof.
  unfold closedb. rewrite forallb_forall. split; intros H s.
  - intros t Hs Ht. specialize (H s Hs). rewrite forallb_forall in H. specialize (H t Ht). unfold smem in H. apply mem_true in H. auto.
  - intro Hs. apply forallb_forall. intros t Ht. unfold smem. apply mem_true. eauto.
Qed.
(** Of the default stages those selections can be built that contain, with every stage, the
    stages it needs; any other selection is rejected with a StageResolutionError. *)
Theorem C103_which_selections_build :
  forall iter calls init, any_order iter ->
    (forall s, In s calls -> In s default_stages) -> (forall a, In a init <-> In a default_inputs) ->
    ((exists sched, default_build iter calls init = Ok sched) <-> forall s t, In s calls -> In t (needs s) -> In t calls) /\
    (forall e, default_build iter calls init = Err e -> exn_class e = "StageResolutionError"%string).
Proof.
  intros iter calls init Hi Hc Ha. destruct (@selection_check iter calls init Hi Hc Ha) as (l & El & C & S). unfold check in C.
  assert (X : closedb l = true <-> forall s t, In s calls -> In t (needs s) -> In t calls).
  { rewrite closedb_spec. split; intros H s t Hs Ht; apply El; apply El in Hs; eauto. }
  rewrite <- X. destruct (default_build (fun _ l => l) l default_inputs) as [sd|e], (default_build iter calls init) as [si|e']; simpl in S; try contradiction.
  - apply andb_true_iff in C. destruct C as [C _]. split; [split; eauto|]. intros e E. discriminate.
  - destruct e; try discriminate. apply negb_true_iff in C. split; [split; [intros (s & E); discriminate|congruence]|].
    intros x E. injection E as <-. rewrite S. reflexivity.
Qed.
(** In every such selection the stages run in the order of the full pipeline. *)
Theorem C103_order_is_kept :
  forall iter calls init sched, any_order iter ->
    (forall s, In s calls -> In s default_stages) -> (forall a, In a init <-> In a default_inputs) ->
    default_build iter calls init = Ok sched ->
    forall k j s t, runs_in sched k s -> runs_in sched j t -> (k < j <-> rank s < rank t).
Proof.
  intros iter calls init sched Hi Hc Ha B. destruct (@selection_check iter calls init Hi Hc Ha) as (l & El & C & S). unfold check in C.
  rewrite B in S. destruct (default_build (fun _ l => l) l default_inputs) as [sd|e]; simpl in S; [|contradiction].
  apply andb_true_iff in C. destruct C as [_ C].
  assert (P : forall k s, runs_in sched k s -> runs_in sd k s).
  { intros k s (g & E & I). clear - S E I. revert k E. induction S as [|g1 g2 l1 l2 P S IH]; intros [|k] E; simpl in E; try discriminate.
    - injection E as ->. exists g2. split; auto. eapply Permutation_in; eauto.
    - destruct (IH k E) as (g' & E' & I'). exists g'. auto. }
  intros k j s t Hk Hj. apply (@ordered_spec sd C); auto.
Qed.

(* ========================================================== the runner and InstanceSpace *)
Section Space.
  Variable V : Type.
  Variable D : decls.
  Variable behave : list (event V) -> sid -> dict V -> option (dict V).
  Variable sched : list (list sid).
  Notation fields := (fun s : sid => map fst (d_in D s)).
  Variable attr : string -> V.
  Notation inputs := (space_inputs attr).
  Variable conv : dict V -> option (model_parts V).
  Notation after := (ssteps fields behave sched conv inputs).

  Lemma space_runner_reachable ops : reachable fields behave sched (runner (after (new_space V (model_parts V)) ops)).
  Proof.
    induction ops as [|o ops IH] using rev_ind; [exists []; reflexivity|].
    unfold ssteps in *. rewrite fold_left_app. simpl. set (sp := fold_left _ ops _) in *. destruct IH as (l & E).
    assert (S : forall r, r = fst (step fields behave sched (runner sp) (RunAll inputs)) -> reachable fields behave sched r).
    { intros r ->. rewrite E. exists (l ++ [RunAll inputs]). unfold steps. rewrite fold_left_app. reflexivity. }
    destruct o; cbn [sstep].
    - unfold space_build. destruct (run_all fields behave sched (runner sp) inputs) as [r [a|e]] eqn:R; cbn [fst runner].
      + assert (X : runner (fst (get_model conv {| runner := r; model := model sp; final_output := Some a |})) = r).
        { unfold get_model. cbn [model final_output runner]. destruct (model sp); auto. destruct (conv _); auto. }
        rewrite X. apply S. simpl. rewrite R. auto.
      + apply S. simpl. rewrite R. auto.
    - unfold get_model. destruct (model sp); [exists l; auto|]. destruct (final_output sp); [|exists l; auto]. destruct (conv _); exists l; auto.
    - exists (l ++ [RunStage s kwargs]). unfold steps. rewrite fold_left_app. simpl. rewrite E. reflexivity.
    - exists (l ++ [RunUntil s inputs]). unfold steps. rewrite fold_left_app. simpl. rewrite E. reflexivity.
    - exists (l ++ [RunIter inputs]). unfold steps. rewrite fold_left_app. simpl. rewrite E. reflexivity.
    - exists (l ++ [Next V k]). unfold steps. rewrite fold_left_app. simpl. rewrite E. reflexivity.
  Qed.
End Space.

Lemma given_map V (attr : string -> V) l n : given (map (fun na => (fst na, attr (snd na))) l) n <> None <-> In n (map fst l).
Proof.
  induction l as [|[k a] l IH]; simpl; [split; congruence|].
  destruct (given (map (fun na => (fst na, attr (snd na))) l) n).
  - split; [right; apply IH; discriminate|discriminate].
  - destruct (String.eqb_spec k n) as [->|N]; [split; [auto|discriminate]|]. split; [congruence|]. intros [E|H]; [contradiction|]. apply IH in H. congruence.
Qed.
Lemma inputs_named V (attr : string -> V) n : given (space_inputs attr) n <> None <-> In n (map fst default_inputs).
Proof. unfold space_inputs. rewrite given_map. reflexivity. Qed.

Lemma built_wf D iter calls init sched : any_order iter -> build D iter (add_stages D calls) init = Ok sched -> well_formed sched.
Proof. intros. eapply build_well_formed; eauto. Qed.

(** The last execution of each stage in a completed run, and what it read. *)
Lemma run_all_flow V D (behave : list (event V) -> sid -> dict V -> option (dict V)) sched (st st' : rstate V) args d :
  well_formed sched -> returns_declared behave D -> reachable (fun s => map fst (d_in D s)) behave sched st ->
  run_all (fun s => map fst (d_in D s)) behave sched st args = (st', Ok d) ->
  exists ev : sid -> event V,
    log st' = log st ++ map ev (concat sched) /\
    (forall s, In s (concat sched) -> ev_stage (ev s) = s /\ ev_out (ev s) <> None /\ (forall n, returned (ev s) n <> None <-> In n (map fst (d_out D s))) /\
       forall n, given (ev_in (ev s)) n <> None <-> In n (map fst (d_in D s))) /\
    (forall n, dget (content st' d) n = value_from ev args (writer (fun s => map fst (d_out D s)) (concat sched) n) n) /\
    forall p s q, concat sched = p ++ s :: q -> forall n, In n (map fst (d_in D s)) ->
      given (ev_in (ev s)) n = value_from ev args (writer (fun s => map fst (d_out D s)) p n) n.
Proof.
  intros WF HD R H. pose proof (@run_all_compose V (fun s => map fst (d_in D s)) behave sched WF st args (reachable_inv WF R)) as C.
  destruct (compose (fun s => map fst (d_in D s)) behave (log st) (concat sched) (given args)) as [h r] eqn:E.
  rewrite H in C. destruct C as (L & _ & C). destruct r as [e|]; [|contradiction]. destruct C as (-> & _ & EV & _).
  destruct (@compose_flow V (fun s => map fst (d_in D s)) behave (fun s => map fst (d_out D s)) HD {| ev_stage := 0; ev_in := []; ev_out := None |} args
              (concat sched) (log st) h e (proj1 WF) E) as (evs & -> & M & O & Ve & Vi).
  eexists. split; [rewrite L; f_equal; rewrite <- M; rewrite event_of_map; [reflexivity|rewrite M; apply WF]|].
  split. { intros s Hs. rewrite <- M in Hs. unfold event_of. destruct (find (fun ev => Nat.eqb (ev_stage ev) s) evs) as [x|] eqn:F.
    - apply find_some in F. destruct F as [I X]. apply Nat.eqb_eq in X. subst s. auto.
    - exfalso. apply in_map_iff in Hs. destruct Hs as (x & <- & I). eapply find_none in F; eauto. simpl in F. rewrite Nat.eqb_refl in F. discriminate. }
  split; [|exact Vi]. intro n. rewrite <- Ve. apply EV.
Qed.

(* ========================================================== C104 *)
Fixpoint flows_from (p l : list sid) : bool :=
  match l with
  | [] => true
  | s :: q => forallb (fun n => match writer (fun s => map fst (d_out default_decls s)) p n, input_source s n with
                                | Some a, Some b => Nat.eqb a b | None, None => true | _, _ => false end)
                      (map fst (d_in default_decls s)) && flows_from (p ++ [s]) q
  end.
Lemma flows_spec l : flows_from [] l = true -> forall p s q, l = p ++ s :: q -> forall n, In n (map fst (d_in default_decls s)) ->
  writer (fun s => map fst (d_out default_decls s)) p n = input_source s n.
Proof.
  intros H p s q. change p with ([] ++ p) at 2. revert H. generalize (@nil sid) as p0. revert p.
  induction l as [|a l IH]; intros p p0 H E n Hn; [destruct p; discriminate|]. cbn [flows_from] in H. apply andb_true_iff in H. destruct H as [H1 H2].
  destruct p as [|b p]; simpl in E; injection E as <- ->.
  - rewrite app_nil_r. rewrite forallb_forall in H1. specialize (H1 n Hn). destruct (writer _ p0 n), (input_source _ n); try discriminate; auto.
    apply Nat.eqb_eq in H1. congruence.
  - specialize (IH p (p0 ++ [a]) H2 eq_refl n Hn). rewrite <- app_assoc in IH. exact IH.
Qed.
Lemma model_sources : forall l, l = concat default_schedule \/ l = concat default_schedule' ->
  forallb (fun part => forallb (fun ak => match writer (fun s => map fst (d_out default_decls s)) l (snd ak) with
     | Some s => Nat.eqb s (model_source (fst part) (fst ak)) && String.eqb (snd ak) (output_name (fst part) (fst ak))
     | None => false end) (snd part)) model_attributes = true.
Proof. intros l [->| ->]; vm_compute; reflexivity. Qed.
Lemma read_keys_some V (d : dict V) keys : (forall a k, In (a, k) keys -> dget d k <> None) -> exists l, read_keys d keys = Some l.
Proof.
  induction keys as [|[a k] t IH]; intro H; simpl; [eauto|]. destruct (dget d k) eqn:E; [|exfalso; eapply (H a k); [left|]; auto].
  destruct IH as (l & ->); [intros; eapply H; right; eauto|]. eauto.
Qed.
Lemma read_keys_given V (d : dict V) keys l : NoDup (map fst keys) -> read_keys d keys = Some l -> forall a k, In (a, k) keys -> given l a = dget d k.
Proof.
  revert l. induction keys as [|[a k] t IH]; intros l N H b j I; [destruct I|]. simpl in H. inversion N; subst.
  destruct (dget d k) eqn:E; [|discriminate]. destruct (read_keys d t) as [r|] eqn:R; [|discriminate]. injection H as <-.
  simpl. destruct I as [I|I].
  - injection I as -> ->. rewrite String.eqb_refl. destruct (given r b) eqn:G; [|auto].
    exfalso. apply given_in in G. match goal with H : ~ In _ _ |- _ => apply H end. clear - R G. revert r R G.
    induction t as [|[x z] t IH]; simpl; intros r R G; [injection R as <-; destruct G|]. destruct (dget d z); [|discriminate].
    destruct (read_keys d t) as [r'|] eqn:R'; [|discriminate]. injection R as <-. destruct G as [G|G]; [injection G as -> _; auto|right; eapply IH; eauto].
  - specialize (IH r ltac:(auto) eq_refl b j I). rewrite IH. destruct (dget d j) eqn:X; auto.
    exfalso. clear - R I X. revert r R. induction t as [|[x z] t IH]; intros r R; [destruct I|]. simpl in R. destruct I as [I|I].
    + injection I as -> ->. rewrite X in R. discriminate.
    + destruct (dget d z); [|discriminate]. destruct (read_keys d t) eqn:R'; [|discriminate]. eapply IH; eauto.
Qed.
Lemma read_parts_some V (d : dict V) parts : (forall p keys a k, In (p, keys) parts -> In (a, k) keys -> dget d k <> None) -> exists m, read_parts d parts = Some m.
Proof.
  induction parts as [|[p keys] t IH]; intro H; simpl; [eauto|]. destruct (@read_keys_some V d keys) as (l & ->); [intros; eapply H; [left|]; eauto|].
  destruct IH as (m & ->); [intros; eapply H; [right|]; eauto|]. eauto.
Qed.
Lemma read_parts_find V (d : dict V) parts m : read_parts d parts = Some m -> forall p keys, find (fun x => String.eqb (fst x) p) parts = Some (p, keys) ->
  exists l, find (fun x => String.eqb (fst x) p) m = Some (p, l) /\ read_keys d keys = Some l.
Proof.
  revert m. induction parts as [|[q ks] t IH]; intros m H p keys F; [discriminate|]. simpl in H.
  destruct (read_keys d ks) as [l|] eqn:K; [|discriminate]. destruct (read_parts d t) as [r|] eqn:R; [|discriminate]. injection H as <-.
  simpl in *. destruct (String.eqb_spec q p) as [->|N]; [injection F as <-; eauto|]. eauto.
Qed.
Lemma parts_listed part keys : In (part, keys) model_attributes -> find (fun x => String.eqb (fst x) part) model_attributes = Some (part, keys) /\ NoDup (map fst keys).
Proof.
  intro H. simpl in H. repeat (destruct H as [H|H]; [injection H as <- <-; split; [reflexivity|]|]); try destruct H;
    match goal with |- NoDup ?l => let l' := eval vm_compute in l in change l with l' end;
    repeat constructor; simpl; intuition discriminate.
Qed.
Lemma fields_read part names a : In (part, names) model_fields -> In a names -> exists keys k, In (part, keys) model_attributes /\ In (a, k) keys.
Proof.
  assert (C : forallb (fun f => existsb (fun q => String.eqb (fst q) (fst f) && forallb (fun n => existsb (fun e => String.eqb (fst e) n) (snd q)) (snd f))
                                model_attributes) model_fields = true) by (vm_compute; reflexivity).
  intros Hp Ha. rewrite forallb_forall in C. specialize (C _ Hp). apply existsb_exists in C. destruct C as ((p & keys) & I & C).
  apply andb_true_iff in C. destruct C as [C1 C2]. apply String.eqb_eq in C1. simpl in C1, C2. subst p. rewrite forallb_forall in C2.
  specialize (C2 _ Ha). apply existsb_exists in C2. destruct C2 as ((b & k) & J & E). apply String.eqb_eq in E. simpl in E. subst b. eauto.
Qed.
(** What is taken from the metadata and the options. *)
Theorem C104_what_the_caller_gives :
  forall V (attr : string -> V),
    (forall n, In n metadata_names -> given (space_inputs attr) n = Some (attr ("metadata." ++ n)%string)) /\
    (forall n, In n options_names -> given (space_inputs attr) (n ++ "_options")%string = Some (attr ("options." ++ n)%string)) /\
    given (space_inputs attr) "prelim_options"%string = Some (attr "PrelimOptions.from_options(options)"%string) /\
    forall s n, In s default_stages -> In n (map fst (d_in default_decls s)) -> input_source s n = None -> given (space_inputs attr) n <> None.
Proof.
  intros V attr. split; [|split; [|split]].
  - intros n H. simpl in H. repeat (destruct H as [<-|H]; [reflexivity|]). destruct H.
  - intros n H. simpl in H. repeat (destruct H as [<-|H]; [reflexivity|]). destruct H.
  - reflexivity.
  - assert (C : forallb (fun s => forallb (fun n => match input_source s n with Some _ => true | None => existsb (String.eqb n) (map fst default_inputs) end)
                  (map fst (d_in default_decls s))) default_stages = true) by (vm_compute; reflexivity).
    intros s n Hs Hn E. rewrite forallb_forall in C. specialize (C s Hs). rewrite forallb_forall in C. specialize (C n Hn). rewrite E in C.
    apply existsb_exists in C. destruct C as (x & I & X). apply String.eqb_eq in X. subst x. apply inputs_named. auto.
Qed.
Lemma inputs_listed s : In s default_stages -> forall n, In n (default_fields s) <-> In n (inputs_of s).
Proof. intros H n. simpl in H. repeat (destruct H as [<-|H]; [vm_compute; tauto|]). destruct H. Qed.
Section Default.
  Variable V : Type.
  Variable behave : list (event V) -> sid -> dict V -> option (dict V).
  Hypothesis declared : returns_declared behave default_decls.
  Variable iter : nat -> list sid -> list sid.
  Variables (calls : list sid) (init : list arg) (sched : list (list sid)).
  Hypothesis any : any_order iter.
  Hypothesis all_stages : forall s, In s calls <-> In s default_stages.
  Hypothesis the_inputs : forall a, In a init <-> In a default_inputs.
  Hypothesis built : default_build iter calls init = Ok sched.

  Lemma the_schedule : sched = default_schedule \/ sched = default_schedule'.
  Proof. destruct (@C102_default_schedule iter calls init any all_stages the_inputs) as [E|E]; rewrite built in E; injection E as ->; auto. Qed.
  Lemma concat_in s : In s default_stages -> In s (concat sched).
  Proof. intro H. destruct the_schedule as [-> | ->]; simpl in *; tauto. Qed.
  (** In a completed run of the default pipeline every stage is executed once, and every input of
      every stage has the source listed in [input_table].  The Model made of the result exists, and
      each of its attributes is the output of the stage named by [model_source]. *)
  Theorem C104_where_values_come_from :
    forall st args st' d, reachable default_fields behave sched st ->
      run_all default_fields behave sched st args = (st', Ok d) ->
      exists ev : sid -> event V,
        (log st' = log st ++ map ev [PREPROCESSING; PRELIM; SIFTED; PILOT; PYTHIA; CLOISTER; TRACE] \/
         log st' = log st ++ map ev [PREPROCESSING; PRELIM; SIFTED; PILOT; CLOISTER; PYTHIA; TRACE]) /\
        (forall s, In s default_stages -> ev_stage (ev s) = s /\
           (forall n, In n (inputs_of s) -> given (ev_in (ev s)) n = value_from ev args (input_source s n) n) /\
           (forall n, given (ev_in (ev s)) n <> None <-> In n (inputs_of s))) /\
        exists m, from_stage_runner_output (content st' d) = Some m /\
          forall part names a, In (part, names) model_fields -> In a names ->
            attribute_of m part a = returned (ev (model_source part a)) (output_name part a) /\ attribute_of m part a <> None.
  Proof.
    intros st args st' d R H. assert (WF := build_well_formed default_decls calls init any built).
    destruct (@run_all_flow V default_decls behave sched st st' args d WF declared R H) as (ev & L & S & Vd & Vi). exists ev.
    split; [destruct the_schedule as [E|E]; rewrite E in L; auto|]. split.
    - intros s Hs. split; [apply S, concat_in; auto|]. assert (I := @inputs_listed s Hs).
      split; [|intro n; rewrite <- I; apply S, concat_in; auto]. intros n Hn. apply I in Hn. destruct (in_split _ _ (@concat_in s Hs)) as (p & q & E).
      rewrite (Vi p s q E n Hn). f_equal. eapply flows_spec; eauto.
      destruct the_schedule as [-> | ->]; vm_compute; reflexivity.
    - assert (X : forall part keys a k, In (part, keys) model_attributes -> In (a, k) keys ->
         dget (content st' d) k = returned (ev (model_source part a)) (output_name part a) /\ dget (content st' d) k <> None).
      { intros part keys a k Hp Ha. assert (W := @model_sources (concat sched)).
        rewrite forallb_forall in W. specialize (W ltac:(destruct the_schedule as [-> | ->]; auto) _ Hp). rewrite forallb_forall in W. specialize (W _ Ha).
        cbn [fst snd] in W. rewrite Vd. destruct (writer _ (concat sched) k) as [w|] eqn:Ew; [|discriminate].
        apply andb_true_iff in W. destruct W as [W1 W2]. apply Nat.eqb_eq in W1. apply String.eqb_eq in W2. subst w. rewrite <- W2. split; auto.
        simpl. apply S; [eapply writer_in; eauto|]. exact (@writer_out (fun s => map fst (d_out default_decls s)) _ _ _ Ew). }
      destruct (@read_parts_some V (content st' d) model_attributes) as (m & Em); [intros; eapply X; eauto|].
      exists m. split; auto. intros part names a Hp' Ha'. destruct (@fields_read _ _ _ Hp' Ha') as (keys & k & Hp & Ha). destruct (@parts_listed _ _ Hp) as [F N].
      destruct (@read_parts_find _ _ _ _ Em _ _ F) as (l & Fl & K). unfold attribute_of. rewrite Fl, (@read_keys_given _ _ _ _ N K _ _ Ha). eapply X; eauto.
  Qed.

  (* ========================================================== C105 *)
  (** build() of the default pipeline returns a model or raises what a stage raised, whatever was
      done with the object before: no missing argument, no missing key when the Model is made. *)
  Theorem C105_build_returns_or_a_stage_raises :
    forall attr ops,
      let conv := @from_stage_runner_output V in
      let sp := ssteps default_fields behave sched conv (space_inputs attr) (new_space V (model_parts V)) ops in
      match snd (space_build default_fields behave sched conv (space_inputs attr) sp) with
      | Ok _ => True
      | Err e => e = SRunner StageFailed
      end.
  Proof.
    intros attr ops conv sp. assert (R := space_runner_reachable default_decls behave sched attr conv ops). fold conv sp in R.
    assert (C := @C14_built_pipeline_never_misses_argument V default_decls iter calls init sched behave (runner sp) (space_inputs attr) any built).
    cbv zeta in C. specialize (C ltac:(intros h s i o a B Ha; apply (declared B); apply in_map; auto)).
    specialize (C ltac:(intros a Ha; apply inputs_named, in_map, the_inputs; auto) R).
    unfold space_build. destruct (run_all default_fields behave sched (runner sp) (space_inputs attr)) as [r [d|e]] eqn:E; [|cbn [snd]; congruence].
    unfold get_model. cbn [model final_output runner]. destruct (model sp); cbn [snd]; auto.
    destruct (@C104_where_values_come_from (runner sp) (space_inputs attr) r d R E) as (_ & _ & _ & m & M & _).
    unfold content in M. fold conv in M. rewrite M. cbn [snd]. auto.
  Qed.
End Default.

(* ========================================================== C103 *)
(** the output by which a missing stage is noticed *)
Definition telltale (s : sid) : string :=
  nth s ["algo_labels"; "med_val"; "idx"; "X0"; "mu"; "z_edge"; "space"]%string EmptyString.
Lemma telltale_unique : forall s t, In s default_stages -> In t default_stages -> In (telltale s) (map fst (d_out default_decls t)) -> s = t.
Proof.
  intros s t Hs Ht. unfold default_stages in *. simpl in Hs, Ht. intro H.
  destruct Hs as [<-|[<-|[<-|[<-|[<-|[<-|[<-|[]]]]]]]]; destruct Ht as [<-|[<-|[<-|[<-|[<-|[<-|[<-|[]]]]]]]]; try reflexivity;
    exfalso; vm_compute in H; intuition discriminate.
Qed.
Lemma read_keys_none V (d : dict V) keys a k : In (a, k) keys -> dget d k = None -> read_keys d keys = None.
Proof.
  induction keys as [|[b j] t IH]; intros I E; [destruct I|]. simpl. destruct I as [I|I]; [injection I as -> ->; rewrite E; auto|].
  rewrite (IH I E). destruct (dget d j); auto.
Qed.
Lemma read_parts_none V (d : dict V) parts p keys a k : In (p, keys) parts -> In (a, k) keys -> dget d k = None -> read_parts d parts = None.
Proof.
  induction parts as [|[q ks] t IH]; intros I Ia E; [destruct I|]. simpl. destruct I as [I|I].
  - injection I as -> ->. rewrite (@read_keys_none _ _ _ _ _ Ia E). auto.
  - rewrite (IH I Ia E). destruct (read_keys d ks); auto.
Qed.
(** Without one of the default stages build() cannot return a model: it raises what a stage
    raised, or fails to make the Model of the stages' outputs. *)
Theorem C103_model_needs_every_stage :
  forall V (behave : list (event V) -> sid -> dict V -> option (dict V)) iter calls init sched attr s,
    returns_declared behave default_decls -> any_order iter ->
    (forall t, In t calls -> In t default_stages) -> (forall a, In a init <-> In a default_inputs) ->
    default_build iter calls init = Ok sched ->
    In s default_stages -> ~ In s calls ->
    let conv := @from_stage_runner_output V in
    let e := snd (space_build default_fields behave sched conv (space_inputs attr) (new_space V (model_parts V))) in
    e = Err (SRunner StageFailed) \/ e = Err SConversion.
Proof.
  intros V behave iter calls init sched attr s HD Hi Hc Ha B Hs Ns conv. cbv zeta.
  assert (R : reachable default_fields behave sched (fresh_runner V)) by (exists []; reflexivity).
  assert (C := @C14_built_pipeline_never_misses_argument V default_decls iter calls init sched behave (fresh_runner V) (space_inputs attr) Hi B).
  cbv zeta in C. specialize (C ltac:(intros h t i o a X Y; apply (HD _ _ _ _ X (fst a)); apply in_map; auto)).
  specialize (C ltac:(intros a Y; apply inputs_named, in_map, Ha; auto) R).
  unfold space_build. change (runner (new_space V (model_parts V))) with (fresh_runner V).
  destruct (run_all default_fields behave sched (fresh_runner V) (space_inputs attr)) as [r [d|e]] eqn:E; [|cbn [snd]; left; congruence].
  unfold get_model. cbn [model final_output runner new_space]. right.
  assert (WF := build_well_formed default_decls calls init Hi B).
  destruct (@run_all_flow V default_decls behave sched _ r (space_inputs attr) d WF HD R E) as (ev & _ & _ & Vd & _).
  assert (G : dget (hget (heap r) d) (telltale s) = None).
  { unfold content in Vd. rewrite Vd. destruct (writer _ (concat sched) (telltale s)) as [t|] eqn:W.
    - exfalso. assert (I := @writer_in _ _ _ _ W). assert (O := @writer_out (fun s => map fst (d_out default_decls s)) _ _ _ W). simpl in O.
      assert (J : In t calls).
      { destruct (@C01_every_stage_once default_decls iter calls init sched Hi B) as [P _]. eapply Permutation_in in I; [|exact P].
        apply in_add_stages in I. tauto. }
      apply telltale_unique in O; auto. subst. contradiction.
    - simpl. destruct (given (space_inputs attr) (telltale s)) eqn:Y; auto. exfalso.
      assert (Z : In (telltale s) (map fst default_inputs)) by (apply (inputs_named attr); congruence).
      clear - Z Hs. unfold default_stages in Hs. simpl in Hs. destruct Hs as [<-|[<-|[<-|[<-|[<-|[<-|[<-|[]]]]]]]]; vm_compute in Z; intuition discriminate. }
  assert (M : from_stage_runner_output (hget (heap r) d) = None).
  { unfold from_stage_runner_output. clear - G Hs. unfold default_stages in Hs. simpl in Hs.
    destruct Hs as [<-|[<-|[<-|[<-|[<-|[<-|[<-|[]]]]]]]].
    - eapply read_parts_none with (p := "data"%string) (keys := data_keys) (a := "algo_labels"%string); [unfold model_attributes; simpl; auto 20|unfold data_keys, telltale; simpl; auto 20|exact G].
    - eapply read_parts_none with (p := "prelim"%string) (keys := prelim_keys) (a := "med_val"%string); [unfold model_attributes; simpl; auto 20|unfold prelim_keys, telltale; simpl; auto 20|exact G].
    - eapply read_parts_none with (p := "feat_sel"%string) (keys := feat_sel_keys) (a := "idx"%string); [unfold model_attributes; simpl; auto 20|unfold feat_sel_keys, telltale; simpl; auto 20|exact G].
    - eapply read_parts_none with (p := "pilot"%string) (keys := pilot_keys) (a := "X0"%string); [unfold model_attributes; simpl; auto 20|unfold pilot_keys, telltale; simpl; auto 20|exact G].
    - eapply read_parts_none with (p := "pythia"%string) (keys := pythia_keys) (a := "mu"%string); [unfold model_attributes; simpl; auto 20|unfold pythia_keys, telltale; simpl; auto 20|exact G].
    - eapply read_parts_none with (p := "cloister"%string) (keys := cloister_keys) (a := "z_edge"%string); [unfold model_attributes; simpl; auto 20|unfold cloister_keys, telltale; simpl; auto 20|exact G].
    - eapply read_parts_none with (p := "trace"%string) (keys := trace_keys) (a := "space"%string); [unfold model_attributes; simpl; auto 20|unfold trace_keys, telltale; simpl; auto 20|exact G]. }
  fold conv in M. rewrite M. reflexivity.
Qed.

(* ========================================================== C106 *)
Lemma compose_errors V fields (behave : list (event V) -> sid -> dict V -> option (dict V)) l : forall h e h' x,
  compose fields behave h l e = (h', Err x) -> x = KeyError \/ x = StageFailed.
Proof.
  induction l as [|s l IH]; intros h e h' x H; simpl in H; [discriminate|].
  destruct (read_fields e (fields s)) as [i|]; [|injection H as _ <-; auto].
  destruct (behave h s i) as [o|]; [eauto|injection H as _ <-; auto].
Qed.
(** additional_initial_inputs_type lets a pipeline be built whose stages read further initial
    inputs; but build() supplies only metadata and options, so it always raises. *)
Theorem C106_additional_inputs_never_arrive :
  forall V D (behave : list (event V) -> sid -> dict V -> option (dict V)) iter calls extra sched attr conv ops s n,
    (forall h s i o n, behave h s i = Some o -> given o n <> None -> In n (map fst (d_out D s))) -> any_order iter ->
    build D iter (add_stages D calls) (default_inputs ++ extra) = Ok sched ->
    In s (add_stages D calls) -> In n (map fst (d_in D s)) ->
    ~ In n (map fst default_inputs) -> (forall t, In t calls -> ~ In n (map fst (d_out D t))) ->
    let fields s := map fst (d_in D s) in
    let sp := ssteps fields behave sched conv (space_inputs attr) (new_space V (model_parts V)) ops in
    snd (space_build fields behave sched conv (space_inputs attr) sp) = Err (SRunner KeyError) \/
    snd (space_build fields behave sched conv (space_inputs attr) sp) = Err (SRunner StageFailed).
Proof.
  intros V D behave iter calls extra sched attr conv ops s n HD Hi B Hs Hn N1 N2. cbv zeta.
  set (sp := ssteps _ _ _ _ _ _ _).
  assert (R := @space_runner_reachable V D behave sched attr conv ops). fold sp in R.
  assert (WF := build_well_formed D calls (default_inputs ++ extra) Hi B).
  assert (H := @run_all_compose V (fun s => map fst (d_in D s)) behave sched WF (runner sp) (space_inputs attr) (reachable_inv WF R)).
  unfold space_build. destruct (run_all (fun s => map fst (d_in D s)) behave sched (runner sp) (space_inputs attr)) as [r [d|e]].
  - exfalso. destruct (compose (fun s => map fst (d_in D s)) behave (log (runner sp)) (concat sched) (given (space_inputs attr))) as [h [e|x]] eqn:E; [|tauto].
    assert (I : In s (concat sched)).
    { destruct (@C01_every_stage_once D iter calls _ sched Hi B) as [P _]. eapply Permutation_in; [apply Permutation_sym; exact P|].
      auto. }
    destruct (in_split _ _ I) as (p & q & Es). rewrite Es, compose_app in E.
    destruct (compose (fun s => map fst (d_in D s)) behave (log (runner sp)) p (given (space_inputs attr))) as [h1 [e1|x]] eqn:E1; [|discriminate].
    assert (K : e1 n = given (space_inputs attr) n).
    { eapply (@compose_keeps V (fun s => map fst (d_in D s)) behave (fun s => map fst (d_out D s)) HD p (log (runner sp))); [rewrite E1; reflexivity|].
      intros t Ht. apply N2. assert (It : In t (concat sched)) by (rewrite Es; apply in_or_app; auto).
      destruct (@C01_every_stage_once D iter calls _ sched Hi B) as [P _]. eapply Permutation_in in It; [|exact P]. apply in_add_stages in It. tauto. }
    assert (Z : given (space_inputs attr) n = None).
    { destruct (given (space_inputs attr) n) eqn:Y; auto. exfalso. apply N1. apply (inputs_named attr). congruence. }
    simpl in E. destruct (read_fields e1 (map fst (d_in D s))) as [i|] eqn:RF; [|discriminate].
    eapply read_fields_some in RF; eauto. congruence.
  - destruct (compose (fun s => map fst (d_in D s)) behave (log (runner sp)) (concat sched) (given (space_inputs attr))) as [h [e'|x]] eqn:E; [tauto|].
    destruct H as (_ & _ & <-). cbn [snd]. destruct (@compose_errors _ _ _ _ _ _ _ _ E) as [-> | ->]; auto.
Qed.

(** Stages that return values telling where they come from. *)
Definition tag (s : sid) (n : string) : string :=
  append (nth s ["PREPROCESSING."; "PRELIM."; "SIFTED."; "PILOT."; "PYTHIA."; "CLOISTER."; "TRACE."]%string "?"%string) n.
Definition tag_behave (h : list (event string)) (s : sid) (i : dict string) : option (dict string) :=
  Some (map (fun a => (fst a, tag s (fst a))) (d_out default_decls s)).
Example default_met :
  returns_declared tag_behave default_decls /\
  (forall s, In s default_stages <-> In s default_stages) /\ any_order (fun _ l => l) /\
  default_build (fun _ l => l) default_stages default_inputs = Ok default_schedule /\
  reachable default_fields tag_behave default_schedule (fresh_runner string) /\
  exists st d m, run_all default_fields tag_behave default_schedule (fresh_runner string) (space_inputs (fun a => a)) = (st, Ok d) /\
    from_stage_runner_output (content st d) = Some m /\
    attribute_of m "data" "inst_labels" = Some "SIFTED.inst_labels"%string /\
    attribute_of m "trace" "summary" = Some "TRACE.trace_summary"%string /\
    map (fun ev => given (ev_in ev) "inst_labels"%string) (log st) =
      [None; Some "PREPROCESSING.inst_labels"; Some "PREPROCESSING.inst_labels"; None; None; None; None]%string.
Proof.
  split.
  { intros h s i o H n. unfold tag_behave in H. assert (X : o = map (fun a => (fst a, tag s (fst a))) (d_out default_decls s)) by congruence. rewrite X. clear X H. generalize (d_out default_decls s) as l. clear.
    induction l as [|a l IH]; simpl; [split; [intro X; exfalso; auto|tauto]|]. destruct (given (map (fun a => (fst a, tag s (fst a))) l) n).
    - split; [right; apply IH; discriminate|discriminate].
    - destruct (String.eqb_spec (fst a) n) as [->|N]; [split; [auto|discriminate]|]. split; [congruence|]. intros [E|X]; [contradiction|]. apply IH in X. congruence. }
  split; [tauto|]. split; [intros n l; auto|]. split; [vm_compute; reflexivity|]. split; [exists []; reflexivity|].
  do 3 eexists. split; [vm_compute; reflexivity|]. split; [vm_compute; reflexivity|]. repeat split; vm_compute; reflexivity.
Qed.
(** a selection that builds, and two that do not *)
Example selections_met :
  (exists sched, default_build (fun _ l => l) [CLOISTER; PILOT; PREPROCESSING] default_inputs = Ok sched) /\
  (forall sched, default_build (fun _ l => l) [PREPROCESSING; PRELIM; PILOT; TRACE] default_inputs <> Ok sched) /\
  snd (space_build default_fields tag_behave [[PREPROCESSING]; [PILOT]; [CLOISTER]] (@from_stage_runner_output string) (space_inputs (fun a => a))
         (new_space string (model_parts string))) = Err SConversion.
Proof. split; [eexists; vm_compute; reflexivity|]. split; [intros sched H; vm_compute in H; discriminate|]. vm_compute. reflexivity. Qed.
(** a plugin stage with an additional initial input *)
Definition plugin_decls : decls := {| d_in s := [("threshold"%string, TFloat)]; d_out s := [("answer"%string, TFloat)] |}.
Example C106_met :
  exists sched, build plugin_decls (fun _ l => l) (add_stages plugin_decls [7]) (default_inputs ++ [("threshold"%string, TFloat)]) = Ok sched /\
    In 7 (add_stages plugin_decls [7]) /\ ~ In "threshold"%string (map fst default_inputs) /\
    snd (space_build (fun s => map fst (d_in plugin_decls s)) (fun _ _ _ => Some [("answer"%string, 42)]) sched (fun _ => None) (space_inputs (fun _ => 0))
           (new_space nat (model_parts nat))) = Err (SRunner KeyError).
Proof.
  eexists. split; [vm_compute; reflexivity|]. split; [vm_compute; auto|]. split; [vm_compute; intuition discriminate|]. vm_compute. reflexivity.
Qed.

Print Assumptions C102_default_schedule.
Print Assumptions C102_both_orders_occur.
Print Assumptions C103_which_selections_build.
Print Assumptions C103_order_is_kept.
Print Assumptions C103_model_needs_every_stage.
Print Assumptions C104_where_values_come_from.
Print Assumptions C104_what_the_caller_gives.
Print Assumptions C105_build_returns_or_a_stage_raises.
Print Assumptions C106_additional_inputs_never_arrive.
