(** C138: a stage of the user's own beside the default stages. *)
From Verif Require Import Base BaseLemmas BuilderModel BuilderSpec BuilderProofs BuilderSim BuilderProps
     RunnerModel RunnerSpec RunnerProofs RunnerRun RunnerMore RunnerPipeline RunnerEnd RunnerProps
     DefaultModel DefaultSpec DefaultProofs DefaultProps PluginModel PluginSpec PluginProofs.
Set Implicit Arguments.
Open Scope list_scope.

Lemma without_perm p s1 s2 : Forall2 (@Permutation sid) s1 s2 -> Forall2 (@Permutation sid) (without p s1) (without p s2).
Proof.
  induction 1 as [|g1 g2 t1 t2 P F IH]; [constructor|]. unfold without in *. cbn [map filter].
  assert (Q := filter_perm _ (fun s => negb (Nat.eqb s p)) (fun x => eq_refl) P).
  destruct (filter (fun s => negb (Nat.eqb s p)) g1) as [|a l1] eqn:E1, (filter (fun s => negb (Nat.eqb s p)) g2) as [|b l2] eqn:E2; cbn [nonempty]; auto.
  - apply Permutation_nil in Q. discriminate.
  - symmetry in Q. apply Permutation_nil in Q. discriminate.
Qed.
Lemma forall2_perm_trans l1 l2 l3 : Forall2 (@Permutation sid) l1 l2 -> Forall2 (@Permutation sid) l2 l3 -> Forall2 (@Permutation sid) l1 l3.
Proof.
  intros H. revert l3. induction H as [|a b t1 t2 P F IH]; intros l3 G; inversion G; subst; constructor; auto.
  etransitivity; eauto.
Qed.

(** A stage that only looks on is scheduled, and the others are scheduled as without it. *)
Theorem C138_plugin_is_scheduled :
  forall D iter iter' calls calls' init p sched,
    any_order iter -> any_order iter' ->
    build D iter (add_stages D calls) init = Ok sched ->
    ~ In p calls -> (forall s, In s calls' <-> s = p \/ In s calls) ->
    onlooker D (add_stages D calls) init p ->
    exists sched', build D iter' (add_stages D calls') init = Ok sched' /\
      Forall2 (@Permutation sid) (without p sched') sched /\
      exists k, runs_in sched' k p.
Proof.
  intros D iter iter' calls calls' init p sched Hi Hi' B Np Hc O.
  set (st := add_stages D calls) in *.
  assert (Nd : NoDup st) by apply add_stages_NoDup.
  assert (Nps : ~ In p st) by (intros X; apply in_add_stages in X; tauto).
  assert (Pst : Permutation (p :: st) (add_stages D calls')).
  { apply NoDup_Permutation; [constructor; auto|apply add_stages_NoDup|]. intros s. rewrite in_add_stages, Hc. unfold st. simpl. rewrite in_add_stages.
    destruct O as (_ & O1 & _). split.
    - intros [<-|X]; tauto.
    - intros [[->|X] Y]; tauto. }
  pose proof (BuilderProofs.build_ok D Hi init Nd B) as (av & R).
  destruct (resolve_cases D iter init Nd R) as [(X & _)|(Pl & _ & _)]; [discriminate|].
  destruct (@plugin_resolves D iter iter' Hi Hi' st init p Nps Pl O sched av R) as (s1 & av1 & R1 & F1).
  assert (B1 : build D iter' (p :: st) init = Ok s1).
  { unfold build. rewrite build_set_resolve; auto; [rewrite R1; auto|constructor; auto]. }
  destruct (@build_order_independent D iter' iter' Hi' Hi' (p :: st) (add_stages D calls') init init Pst) as [S _]; [constructor; auto|intros x; split; auto|].
  rewrite B1 in S. destruct (build D iter' (add_stages D calls') init) as [s2|e] eqn:B2; [|contradiction].
  exists s2. split; auto. split.
  - eapply forall2_perm_trans; [|exact F1]. apply without_perm. clear - S. simpl in S. induction S; constructor; auto. symmetry. auto.
  - destruct (@C01_every_stage_once D iter' calls' init s2 Hi' B2) as [P _]. apply runs_in_concat.
    apply (Permutation_in _ (Permutation_sym P)). apply (Permutation_in _ Pst). left. auto.
Qed.

(** The values of the others are the same with it as without it; the run can fail where it did not, but then it is the
    stage itself that raised. *)
Theorem C138_results_do_not_change :
  forall V D iter iter' calls calls' init p sched sched' (behave : list (event V) -> sid -> dict V -> option (dict V))
         (st st' : rstate V) args,
    any_order iter -> any_order iter' ->
    build D iter (add_stages D calls) init = Ok sched -> build D iter' (add_stages D calls') init = Ok sched' ->
    ~ In p calls -> (forall s, In s calls' <-> s = p \/ In s calls) ->
    onlooker D (add_stages D calls) init p ->
    (* no other stage reads something of the same name *)
    (forall s n, s <> p -> In n (map fst (d_in D s)) -> ~ In n (map fst (d_out D p))) ->
    (* no two stages of a group interfere (C25) *)
    (forall k s t n, runs_in sched k s -> runs_in sched k t -> s <> t -> In n (map fst (d_out D s)) ->
       ~ In n (map fst (d_in D t)) /\ ~ In n (map fst (d_out D t))) ->
    deterministic behave -> returns_declared behave D ->
    (forall a, In a init -> given args (fst a) <> None) ->
    let fields s := map fst (d_in D s) in
    reachable fields behave sched st -> reachable fields behave sched' st' ->
    match run_all fields behave sched st args, run_all fields behave sched' st' args with
    | (r, Ok d), (r', Ok d') => forall n, ~ In n (map fst (d_out D p)) -> dget (content r' d') n = dget (content r d) n
    | (_, Err _), (_, Err _) => True
    | (_, Ok _), (_, Err e) => e = StageFailed /\ exists h i, behave h p i = None
    | (_, Err _), (_, Ok _) => False
    end.
Proof.
  intros V D iter iter' calls calls' init p sched sched' behave st st' args Hi Hi' B B' Np Hc O Fr NI Det RD Ia fields R R'.
  destruct (@C138_plugin_is_scheduled D iter iter' calls calls' init p sched Hi Hi' B Np Hc O) as (s2 & B2 & F & _).
  rewrite B' in B2. injection B2 as <-.
  pose proof (@built_wf D iter calls init sched Hi B) as W. pose proof (@built_wf D iter' calls' init sched' Hi' B') as W'.
  assert (Wo := without_wf p W').
  assert (Rf : reachable fields behave (without p sched') (fresh_runner V)) by (exists []; reflexivity).
  assert (F' : Forall2 (@Permutation sid) sched (without p sched')) by (clear - F; induction F; constructor; auto; symmetry; auto).
  pose proof (@C25_group_order_irrelevant V fields behave sched (without p sched') st (fresh_runner V) args
    (fun s => map fst (d_out D s)) Det (fun h s i o n X Y => proj1 (RD h s i o X n) Y) W Wo F' NI R Rf) as C25.
  pose proof (@C15_run_all_is_composition V fields behave (without p sched') (fresh_runner V) args Wo Rf) as C1.
  pose proof (@C15_run_all_is_composition V fields behave sched' st' args W' R') as C2.
  rewrite concat_without in C1.
  pose proof (@compose_without V fields behave p (map fst (d_out D p)) Det (fun h i o n X Y => proj1 (RD h p i o X n) Y) Fr
    (concat sched') (log st') (log (fresh_runner V)) (given args) (given args) (fun n _ => eq_refl)) as CW.
  pose proof (@C14_built_pipeline_never_misses_argument V D iter' calls' init sched' behave st' args Hi' B'
    ltac:(intros h s i o a X Y; apply (proj2 (RD h s i o X (fst a))); apply in_map; auto) Ia R') as C14. fold fields in C14.
  destruct (run_all fields behave sched st args) as [r [d|e]],
           (run_all fields behave (without p sched') (fresh_runner V) args) as [r1 [d1|e1]]; try contradiction;
  destruct (run_all fields behave sched' st' args) as [r2 [d2|e2]];
  destruct (snd (compose fields behave (log st') (concat sched') (given args))) as [a|x],
           (snd (compose fields behave (log (fresh_runner V)) (filter (fun s => negb (Nat.eqb s p)) (concat sched')) (given args))) as [b|y];
  try contradiction; auto.
  - intros n Hn. rewrite C25, C1, C2. auto.
  - split; [exact C14|]. destruct CW as [CW|CW]; auto. exfalso. congruence.
Qed.

(* ========================================================== beside the default stages *)
Section Default.
  Variables (pin pout : list arg).
  Notation D := (plugin_decls pin pout).
  Hypothesis ok : plugin_for_default pin pout.

  Lemma same_in s : In s default_stages -> d_in D s = d_in default_decls s.
  Proof. intros H. repeat (destruct H as [<-|H]; [reflexivity|]). destruct H. Qed.
  Lemma same_out s : In s default_stages -> d_out D s = d_out default_decls s.
  Proof. intros H. repeat (destruct H as [<-|H]; [reflexivity|]). destruct H. Qed.
  Lemma no_markers : forall s a, In s default_stages -> In a (d_in default_decls s) \/ In a (d_out default_decls s) -> is_type_marker (snd a) = false.
  Proof.
    assert (X : forallb (fun s => forallb (fun a => negb (is_type_marker (snd a))) (d_in default_decls s ++ d_out default_decls s)) default_stages = true) by (vm_compute; reflexivity).
    intros s a Hs Ha. rewrite forallb_forall in X. specialize (X s Hs). rewrite forallb_forall in X. apply negb_true_iff. apply X. apply in_or_app. auto.
  Qed.
  Lemma no_marker_inputs : forall a, In a default_inputs -> is_type_marker (snd a) = false.
  Proof.
    assert (X : forallb (fun a => negb (is_type_marker (snd a))) default_inputs = true) by (vm_compute; reflexivity).
    intros a Ha. rewrite forallb_forall in X. apply negb_true_iff. auto.
  Qed.
  Lemma in_default_stages calls s : (forall t, In t calls <-> In t default_stages) -> (In s (add_stages D calls) <-> In s default_stages).
  Proof.
    intros Hc. rewrite in_add_stages, Hc. split; [tauto|]. intros Hs. split; auto. intros a Ha M. rewrite same_out in Ha by auto.
    apply marker_class_iff in M. rewrite (@no_markers s a Hs) in M by auto. discriminate.
  Qed.
  Lemma plugin_onlooker calls init : (forall t, In t calls <-> In t default_stages) -> (forall a, In a init <-> In a default_inputs) ->
    onlooker D (add_stages D calls) init PLUGIN.
  Proof.
    intros Hc Ha. destruct ok as (O1 & O2 & O3 & O4).
    assert (Nm : forall a, In a pin -> In (fst a) default_names).
    { intros a I. unfold default_names. apply in_or_app. destruct (O3 a I) as [X|(s & Hs & X)]; [left; apply in_map; auto|].
      right. apply in_flat_map. exists s. split; auto. apply in_or_app. right. apply in_map. auto. }
    split; [exact O1|]. split; [exact O2|]. split.
    - intros a I. change (In a pin) in I. split.
      + intros M. apply marker_class_iff in M. destruct (O3 a I) as [X|(s & Hs & X)].
        * rewrite no_marker_inputs in M by auto. discriminate.
        * rewrite (@no_markers s a Hs) in M by auto. discriminate.
      + destruct (O3 a I) as [X|(s & Hs & X)]; [left; apply Ha; auto|]. right. exists s.
        split; [apply in_default_stages; auto|rewrite same_out; auto].
    - intros a I. change (In a pout) in I. specialize (O4 a I). split.
      + intros J. change (In a pin) in J. auto.
      + intros s Hs. apply in_default_stages in Hs; auto. rewrite same_in, same_out by auto.
        split; intros J; apply O4; unfold default_names; apply in_or_app; right; apply in_flat_map; exists s; split; auto;
          apply in_or_app; [left|right]; apply in_map; auto.
  Qed.
  Lemma default_built iter calls init : any_order iter ->
    (forall s, In s calls <-> In s default_stages) -> (forall a, In a init <-> In a default_inputs) ->
    build D iter (add_stages D calls) init = Ok default_schedule \/ build D iter (add_stages D calls) init = Ok default_schedule'.
  Proof.
    intros Hi Hc Ha.
    assert (Hid : any_order (fun _ l => l)) by (intros n l; auto).
    destruct (@C03_order_of_adding_irrelevant D iter (fun _ l => l) calls default_stages init default_inputs Hi Hid Hc Ha) as [S _].
    replace (build D (fun _ l => l) (add_stages D default_stages) default_inputs) with (Ok (E := berr) default_schedule) in S by (vm_compute; reflexivity).
    destruct (build D iter (add_stages D calls) init) as [sched|e]; [|contradiction]. simpl in S. unfold default_schedule in S.
    repeat match goal with H : Forall2 _ _ (_ :: _) |- _ => inversion H; clear H; subst | H : Forall2 _ _ [] |- _ => inversion H; clear H; subst end.
    repeat match goal with H : Permutation ?l [_] |- _ => apply forall2_single in H; subst l end.
    match goal with H : Permutation ?l [_; _] |- _ => apply Permutation_sym, Permutation_length_2_inv in H; destruct H; subst l end; auto.
  Qed.
End Default.

(** Beside the default stages every such plugin can be used, and the default stages keep their schedule. *)
Theorem C138_default_schedule :
  forall pin pout iter calls init, plugin_for_default pin pout -> any_order iter ->
    (forall s, In s calls <-> s = PLUGIN \/ In s default_stages) -> (forall a, In a init <-> In a default_inputs) ->
    exists sched, build (plugin_decls pin pout) iter (add_stages (plugin_decls pin pout) calls) init = Ok sched /\
      (without PLUGIN sched = default_schedule \/ without PLUGIN sched = default_schedule') /\
      exists k, runs_in sched k PLUGIN.
Proof.
  intros pin pout iter calls init ok Hi Hc Ha.
  assert (Hid : any_order (fun _ l => l)) by (intros n l; auto).
  assert (X : forall sd, build (plugin_decls pin pout) (fun _ l => l) (add_stages (plugin_decls pin pout) default_stages) init = Ok sd ->
    exists sched, build (plugin_decls pin pout) iter (add_stages (plugin_decls pin pout) calls) init = Ok sched /\
      Forall2 (@Permutation sid) (without PLUGIN sched) sd /\ exists k, runs_in sched k PLUGIN).
  { intros sd B. eapply C138_plugin_is_scheduled with (3 := B); auto.
    - intros Y. vm_compute in Y. intuition discriminate.
    - apply plugin_onlooker; auto. tauto. }
  destruct (@default_built pin pout (fun _ l => l) default_stages init Hid) as [B|B]; auto; try tauto;
  destruct (X _ B) as (sched & B' & F & K); exists sched; split; auto; split; auto;
  unfold default_schedule, default_schedule' in F |- *; generalize dependent (without PLUGIN sched); intros w F;
    repeat match goal with H : Forall2 _ _ (_ :: _) |- _ => inversion H; clear H; subst | H : Forall2 _ _ [] |- _ => inversion H; clear H; subst end;
    repeat match goal with H : Permutation ?l [_] |- _ => apply forall2_single in H; subst l end;
    match goal with H : Permutation ?l [_; _] |- _ => apply Permutation_sym, Permutation_length_2_inv in H; destruct H; subst l end; auto.
Qed.

Lemma default_no_race pin pout sched : sched = default_schedule \/ sched = default_schedule' ->
  let D := plugin_decls pin pout in
  forall k s t n, runs_in sched k s -> runs_in sched k t -> s <> t -> In n (map fst (d_out D s)) ->
    ~ In n (map fst (d_in D t)) /\ ~ In n (map fst (d_out D t)).
Proof.
  intros E D.
  assert (X : forallb (fun st => let '(s, t) := st in forallb (fun n => negb (if in_dec string_dec n (map fst (d_in D t)) then true else false) &&
      negb (if in_dec string_dec n (map fst (d_out D t)) then true else false)) (map fst (d_out D s))) [(PYTHIA, CLOISTER); (CLOISTER, PYTHIA)] = true)
    by (vm_compute; reflexivity).
  rewrite forallb_forall in X.
  assert (Y : forall s t n, In (s, t) [(PYTHIA, CLOISTER); (CLOISTER, PYTHIA)] -> In n (map fst (d_out D s)) ->
    ~ In n (map fst (d_in D t)) /\ ~ In n (map fst (d_out D t))).
  { intros s t n I Hn. specialize (X (s, t) I). rewrite forallb_forall in X. specialize (X n Hn).
    destruct (in_dec string_dec n (map fst (d_in D t))); [discriminate|]. destruct (in_dec string_dec n (map fst (d_out D t))); [discriminate|]. auto. }
  intros k s t n (g & Eg & Hs) (g' & Eg' & Ht) N. rewrite Eg in Eg'. injection Eg' as <-. apply Y.
  destruct E as [->| ->]; do 6 (destruct k as [|k]; [injection Eg as <-; simpl in Hs, Ht;
    repeat (destruct Hs as [<-|Hs]; [|try contradiction]); repeat (destruct Ht as [<-|Ht]; [|try contradiction]); try congruence; simpl; auto|]);
    destruct k; discriminate.
Qed.

Lemma read_keys_same V (d d' : dict V) keys : (forall a k, In (a, k) keys -> dget d k = dget d' k) -> read_keys d keys = read_keys d' keys.
Proof. induction keys as [|[a k] t IH]; simpl; intros H; auto. rewrite (H a k) by auto. rewrite IH; auto. intros a' k' I. eapply H. eauto. Qed.
Lemma read_parts_same V (d d' : dict V) parts :
  (forall p l a k, In (p, l) parts -> In (a, k) l -> dget d k = dget d' k) -> read_parts d parts = read_parts d' parts.
Proof.
  induction parts as [|[p l] t IH]; simpl; intros H; auto.
  rewrite (@read_keys_same V d d' l) by (intros a k I; eapply H; eauto). rewrite IH; auto. intros; eapply H; eauto.
Qed.

Lemma read_keys_some V (d : dict V) keys : (forall a k, In (a, k) keys -> dget d k <> None) -> read_keys d keys <> None.
Proof.
  induction keys as [|[a k] t IH]; simpl; intros H; [discriminate|]. pose proof (H a k (or_introl eq_refl)) as X. destruct (dget d k); [|congruence].
  assert (Y : read_keys d t <> None) by (apply IH; intros; eapply H; eauto). destruct (read_keys d t); [discriminate|congruence].
Qed.
Lemma read_parts_some V (d : dict V) parts :
  (forall p l a k, In (p, l) parts -> In (a, k) l -> dget d k <> None) -> read_parts d parts <> None.
Proof.
  induction parts as [|[p l] t IH]; simpl; intros H; [discriminate|].
  assert (X : read_keys d l <> None) by (apply read_keys_some; intros a k I; eapply H; eauto). destruct (read_keys d l); [|congruence].
  assert (Y : read_parts d t <> None) by (apply IH; intros; eapply H; eauto). destruct (read_parts d t); [discriminate|congruence].
Qed.
Definition available_names : list string := map fst default_inputs ++ flat_map (fun s => map fst (d_out default_decls s)) default_stages.
Lemma model_keys : forallb (fun pl => forallb (fun ak => if in_dec string_dec (snd ak) available_names then true else false) (snd pl)) model_attributes = true.
Proof. vm_compute. reflexivity. Qed.

(** The Model is the same with the plugin as without. *)
Theorem C138_same_model :
  forall V pin pout iter iter' calls calls' init sched sched' (behave : list (event V) -> sid -> dict V -> option (dict V))
         (st st' : rstate V) attr,
    plugin_for_default pin pout -> any_order iter -> any_order iter' ->
    let D := plugin_decls pin pout in
    build D iter (add_stages D calls) init = Ok sched -> build D iter' (add_stages D calls') init = Ok sched' ->
    (forall s, In s calls <-> In s default_stages) -> (forall s, In s calls' <-> s = PLUGIN \/ In s default_stages) ->
    (forall a, In a init <-> In a default_inputs) ->
    deterministic behave -> returns_declared behave D ->
    let fields s := map fst (d_in D s) in
    reachable fields behave sched st -> reachable fields behave sched' st' ->
    match run_all fields behave sched st (space_inputs attr), run_all fields behave sched' st' (space_inputs attr) with
    | (r, Ok d), (r', Ok d') =>
        from_stage_runner_output (content r' d') = from_stage_runner_output (content r d) /\
        from_stage_runner_output (content r d) <> None
    | (_, Err _), (_, Err _) => True
    | (_, Ok _), (_, Err e) => e = StageFailed /\ exists h i, behave h PLUGIN i = None
    | (_, Err _), (_, Ok _) => False
    end.
Proof.
  intros V pin pout iter iter' calls calls' init sched sched' behave st st' attr ok Hi Hi' D B B' Hc Hc' Ha Det RD fields R R'.
  assert (Es : sched = default_schedule \/ sched = default_schedule').
  { destruct (@default_built pin pout iter calls init Hi Hc Ha) as [X|X]; fold D in X; rewrite B in X; injection X; auto. }
  assert (In_args : forall a, In a init -> given (space_inputs attr) (fst a) <> None).
  { intros a I. apply inputs_named, in_map, Ha. auto. }
  pose proof (@C138_results_do_not_change V D iter iter' calls calls' init PLUGIN sched sched' behave st st' (space_inputs attr) Hi Hi' B B') as C.
  specialize (C ltac:(intros X; apply Hc in X; vm_compute in X; intuition discriminate)).
  specialize (C ltac:(intros s; rewrite Hc', Hc; tauto)).
  specialize (C (@plugin_onlooker pin pout ok calls init Hc Ha)).
  assert (Fr : forall s n, s <> PLUGIN -> In n (map fst (d_in D s)) -> ~ In n (map fst (d_out D PLUGIN))).
  { intros s n N I J. change (In n (map fst pout)) in J. apply in_map_iff in J. destruct J as (a & <- & J).
    destruct ok as (_ & _ & _ & O4). apply (O4 a J). unfold default_names. apply in_or_app. right. apply in_flat_map.
    assert (Hs : In s default_stages \/ ~ In s default_stages) by (destruct (in_dec Nat.eq_dec s default_stages); auto).
    destruct Hs as [Hs|Hs].
    - exists s. split; auto. unfold D in I. rewrite same_in in I by auto. apply in_or_app. auto.
    - exfalso. unfold D, plugin_decls in I. cbn [d_in] in I. do 8 (destruct s as [|s]; [try (apply Hs; simpl; tauto); try (apply N; reflexivity)|]).
      destruct s; simpl in I; destruct I. }
  specialize (C Fr (@default_no_race pin pout sched Es) Det RD In_args R R').
  pose proof (@C14_built_pipeline_never_misses_argument V D iter calls init sched behave st (space_inputs attr) Hi B
    ltac:(intros h s i o a X Y; apply (proj2 (RD h s i o X (fst a))); apply in_map; auto) In_args R) as C14.
  fold fields in C, C14.
  destruct (run_all fields behave sched st (space_inputs attr)) as [r [d|e]], (run_all fields behave sched' st' (space_inputs attr)) as [r' [d'|e']]; auto.
  assert (Keys : forall p l a k, In (p, l) model_attributes -> In (a, k) l ->
            In k default_names /\ exists a, fst a = k /\ (In a default_inputs \/ exists s, In s default_stages /\ In a (d_out default_decls s))).
  { intros p l a k I J. pose proof model_keys as M. rewrite forallb_forall in M. specialize (M (p, l) I). cbn [snd] in M.
    rewrite forallb_forall in M. specialize (M (a, k) J). cbn [snd] in M.
    destruct (in_dec string_dec k available_names) as [K|]; [|discriminate]. split.
    - unfold available_names in K. unfold default_names. apply in_app_or in K. apply in_or_app. destruct K as [K|K]; auto. right.
      apply in_flat_map in K. destruct K as (s & Hs & K). apply in_flat_map. exists s. split; auto. apply in_or_app. auto.
    - unfold available_names in K. apply in_app_or in K. destruct K as [K|K].
      + apply in_map_iff in K. destruct K as (b & <- & K). eauto.
      + apply in_flat_map in K. destruct K as (s & Hs & K). apply in_map_iff in K. destruct K as (b & <- & K). exists b. split; auto. right. eauto. }
  split.
  - unfold from_stage_runner_output. apply read_parts_same. intros p l a k I J. apply C.
    intros X. change (In k (map fst pout)) in X. apply in_map_iff in X. destruct X as (b & <- & X).
    destruct ok as (_ & _ & _ & O4). apply (O4 b X). apply (Keys p l a); auto.
  - unfold from_stage_runner_output. apply read_parts_some. intros p l a k I J.
    destruct (Keys p l a k I J) as (_ & b & <- & K). apply C14. destruct K as [K|(s & Hs & K)]; [left; apply Ha; auto|]. right. exists s.
    split; [apply in_default_stages; auto|unfold D; rewrite same_out; auto].
Qed.

(* ========================================================== what the plugin reads *)
Lemma without_nil_app p g l : without p (g :: l) = without p [g] ++ without p l.
Proof. apply (without_app p [g] l). Qed.
Lemma pos_without p sched : forall i s, s <> p -> runs_in sched i s -> runs_in (without p sched) (length (without p (firstn i sched))) s.
Proof.
  induction sched as [|g l IH]; intros i s N (h & E & H); [destruct i; discriminate|].
  rewrite (without_nil_app p g l). destruct i as [|i].
  - injection E as ->. exists (filter (fun t => negb (Nat.eqb t p)) h). assert (I : In s (filter (fun t => negb (Nat.eqb t p)) h)).
    { apply filter_In. split; auto. destruct (Nat.eqb_spec s p); auto. }
    split; auto. unfold without. simpl. destruct (filter (fun t => negb (Nat.eqb t p)) h); [destruct I|reflexivity].
  - cbn [firstn]. rewrite (without_nil_app p g (firstn i l)), app_length. destruct (IH i s N) as (h' & E' & H'); [exists h; auto|].
    exists h'. split; auto. rewrite nth_error_app2 by lia. replace (_ + _ - _) with (length (without p (firstn i l))) by lia. auto.
Qed.
Lemma without_mono p sched i j : i <= j -> length (without p (firstn i sched)) <= length (without p (firstn j sched)).
Proof.
  revert i j. induction sched as [|g l IH]; intros i j H; [rewrite !firstn_nil; auto|].
  destruct i as [|i]; [simpl; lia|]. destruct j as [|j]; [lia|]. cbn [firstn]. rewrite (without_nil_app p g (firstn i l)), (without_nil_app p g (firstn j l)), !app_length.
  specialize (IH i j ltac:(lia)). lia.
Qed.

Section Reads.
  Variables (pin pout : list arg).
  Notation D := (plugin_decls pin pout).
  Variables (iter : nat -> list sid -> list sid) (calls : list sid) (init : list arg) (sched : list (list sid)).
  Hypothesis ok : plugin_for_default pin pout.
  Hypothesis Hi : any_order iter.
  Hypothesis Hc : forall s, In s calls <-> s = PLUGIN \/ In s default_stages.
  Hypothesis Ha : forall a, In a init <-> In a default_inputs.
  Hypothesis B : build D iter (add_stages D calls) init = Ok sched.

  Lemma reads_without : without PLUGIN sched = default_schedule \/ without PLUGIN sched = default_schedule'.
  Proof. destruct (@C138_default_schedule pin pout iter calls init ok Hi Hc Ha) as (s' & B' & W & _). rewrite B in B'. injection B' as <-. auto. Qed.
  Lemma reads_order i j s t : In s default_stages -> In t default_stages -> runs_in sched i s -> runs_in sched j t -> rank s < rank t -> i < j.
  Proof.
    intros Hs Ht Ri Rj R. destruct (Nat.lt_ge_cases i j) as [|G]; auto. exfalso.
    assert (Ns : forall u, In u default_stages -> u <> PLUGIN) by (intros u U ->; vm_compute in U; intuition discriminate).
    pose proof (@pos_without PLUGIN sched i s (Ns s Hs) Ri) as Pi. pose proof (@pos_without PLUGIN sched j t (Ns t Ht) Rj) as Pj.
    pose proof (@without_mono PLUGIN sched j i G) as M. revert Pi Pj M.
    generalize (length (without PLUGIN (firstn i sched))) (length (without PLUGIN (firstn j sched))). intros k l Pi Pj M.
    assert (X : forall k u, runs_in (without PLUGIN sched) k u -> k = rank u).
    { intros k0 u (g & E & U). destruct reads_without as [W|W]; rewrite W in E;
        do 6 (destruct k0 as [|k0]; [injection E as <-; simpl in U; repeat (destruct U as [<-|U]; [reflexivity|]); destruct U|]);
        destruct k0; discriminate. }
    apply X in Pi, Pj. lia.
  Qed.
  Lemma reads_runs s : In s default_stages \/ s = PLUGIN -> exists k, runs_in sched k s.
  Proof.
    intros H. destruct (@C01_every_stage_once D iter calls init sched Hi B) as [P _]. apply runs_in_concat.
    apply (Permutation_in _ (Permutation_sym P)). apply in_add_stages. rewrite Hc. split; [tauto|]. intros a Ia M.
    destruct H as [H| ->].
    - rewrite same_out in Ia by auto. apply marker_class_iff in M. rewrite (@no_markers s a H) in M by auto. discriminate.
    - destruct ok as (_ & O2 & _). exact (O2 a Ia M).
  Qed.
  Definition ain (a : arg) (l : list arg) : bool := if in_dec arg_dec a l then true else false.
  Lemma ain_iff a l : ain a l = true <-> In a l.
  Proof. unfold ain. destruct (in_dec arg_dec a l); split; auto; discriminate. Qed.

  Lemma pin_not_pout a : In a pin -> ~ In a pout.
  Proof.
    intros I J. destruct ok as (_ & _ & O3 & O4). apply (O4 a J). unfold default_names. apply in_or_app.
    destruct (O3 a I) as [X|(s & Hs & X)]; [left; apply in_map; auto|]. right. apply in_flat_map. exists s. split; auto.
    apply in_or_app. right. apply in_map. auto.
  Qed.
  (** an argument that the plugin reads and some stage returns has been returned by a stage before *)
  Lemma some_writer k s a : runs_in sched k PLUGIN -> In a pin -> In s default_stages -> In a (d_out default_decls s) ->
    exists j t, j < k /\ In t default_stages /\ runs_in sched j t /\ In a (d_out default_decls t).
  Proof.
    intros K I Hs Ho. destruct (@C02_built_schedule_runnable D iter calls init sched Hi B k PLUGIN a K I) as [X|(j & t & J & R & X)].
    - exfalso. apply Ha in X. assert (Y : forallb (fun s => forallb (fun a => negb (ain a default_inputs)) (d_out default_decls s)) default_stages = true)
        by (vm_compute; reflexivity).
      rewrite forallb_forall in Y. specialize (Y s Hs). rewrite forallb_forall in Y. specialize (Y a Ho). apply negb_true_iff in Y.
      apply ain_iff in X. congruence.
    - assert (Ht : In t (add_stages D calls)).
      { destruct (@C01_every_stage_once D iter calls init sched Hi B) as [P _]. apply (Permutation_in _ P). apply runs_in_concat. eauto. }
      apply in_add_stages in Ht. destruct Ht as [Ht _]. apply Hc in Ht. destruct Ht as [->|Ht].
      + exfalso. exact (pin_not_pout a I X).
      + exists j, t. rewrite same_out in X by auto. auto.
  Qed.
  Lemma avail s k b : In s default_stages -> In b (d_in default_decls s) ->
    (forall t, In t default_stages -> rank t < rank s -> exists j, j < k /\ runs_in sched j t) -> available_before D init sched k b.
  Proof.
    intros Hs Hb H.
    assert (Y : forallb (fun s => forallb (fun b => ain b default_inputs || existsb (fun t => Nat.ltb (rank t) (rank s) && ain b (d_out default_decls t)) default_stages)
        (d_in default_decls s)) default_stages = true) by (vm_compute; reflexivity).
    rewrite forallb_forall in Y. specialize (Y s Hs). rewrite forallb_forall in Y. specialize (Y b Hb). apply orb_true_iff in Y. destruct Y as [Y|Y].
    - left. apply Ha. apply ain_iff. auto.
    - apply existsb_exists in Y. destruct Y as (t & Ht & Y). apply andb_true_iff in Y. destruct Y as [Y1 Y2].
      apply Nat.ltb_lt in Y1. apply ain_iff in Y2. destruct (H t Ht Y1) as (j & J & R). right. exists j, t. split; auto. split; auto. rewrite same_out; auto.
  Qed.

  Definition seen_early (c : arg) : Prop := In c default_inputs \/ In (fst c) ["inst_labels"; "feat_labels"; "algo_labels"]%string.

  Lemma when_it_runs k j s a : runs_in sched k PLUGIN -> In a pin -> In s default_stages -> In a (d_out default_decls s) -> runs_in sched j s ->
    j < k \/ (s = SIFTED /\ In (fst a) ["inst_labels"; "feat_labels"]%string /\ forall c, In c pin -> seen_early c).
  Proof.
    intros K I Hs Ho J.
    assert (Dpos : forall t, In t default_stages -> exists i, runs_in sched i t) by (intros; apply reads_runs; auto).
    (* the first stage that returns it is before the plugin *)
    assert (First : forall a s j, In a pin -> In s default_stages -> In a (d_out default_decls s) -> runs_in sched j s ->
              (forall t, In t default_stages -> In a (d_out default_decls t) -> t = s \/ rank s < rank t) -> j < k).
    { clear - K ok Hi Hc Ha B. intros a s j I Hs Ho J F. destruct (@some_writer k s a K I Hs Ho) as (j' & t & L & Ht & R & X).
      destruct (F t Ht X) as [->|G].
      - destruct (@C01_every_stage_once D iter calls init sched Hi B) as [P _].
        enough (j = j') by lia. eapply runs_in_unique; eauto. eapply built_wf; eauto.
      - pose proof (@reads_order j j' s t Hs Ht J R G). lia. }
    assert (Bef : forall t i, In t default_stages -> runs_in sched i t -> i < k ->
              forall u, In u default_stages -> rank u <= rank t -> u = t \/ rank u < rank t -> exists i', i' < k /\ runs_in sched i' u).
    { intros t i Ht Ri Li u Hu _ [->|L]; [eauto|]. destruct (Dpos u Hu) as (i' & R'). exists i'. split; auto.
      pose proof (@reads_order i' i u t Hu Ht R' Ri L). lia. }
    (* what a stage mutates is not read before, once its inputs are there *)
    assert (Held : forall a m j, In a pin -> In m default_stages -> In a (d_in default_decls m) -> In a (d_out default_decls m) -> runs_in sched j m ->
              (forall t, In t default_stages -> rank t < rank m -> exists i, i < k /\ runs_in sched i t) -> j < k).
    { clear - K ok Hi Hc Ha B. intros a m j I Hm Hin Hout J F. destruct (Nat.lt_ge_cases j k) as [|G]; auto. exfalso.
      destruct (@C07_mutating_stage_before_ready_readers D iter calls init sched Hi B m PLUGIN a k j) as (b & Hb & Nb); auto.
      - split; [rewrite same_in|rewrite same_out]; auto.
      - apply pin_not_pout; auto.
      - apply Nb. rewrite same_in in Hb by auto. eapply avail; eauto. }
    assert (Mem : forall (P : arg -> bool) l, forallb P l = true -> forall c, In c l -> P c = true) by (intros P l X; apply forallb_forall; auto).
    assert (Wr : forall c s t, In c (d_out default_decls s) -> In c (d_out default_decls t) -> In s default_stages -> In t default_stages ->
              s = t \/ (s < 3 /\ t < 3)).
    { intros c s0 t C0 C1 S0 T0.
      assert (Y : forallb (fun s => forallb (fun t => forallb (fun c => negb (ain c (d_out default_decls t)) || Nat.eqb s t || (Nat.ltb s 3 && Nat.ltb t 3))
          (d_out default_decls s)) default_stages) default_stages = true) by (vm_compute; reflexivity).
      rewrite forallb_forall in Y. specialize (Y s0 S0). rewrite forallb_forall in Y. specialize (Y t T0). rewrite forallb_forall in Y. specialize (Y c C0).
      apply ain_iff in C1. rewrite C1 in Y. cbn [negb orb] in Y. apply orb_true_iff in Y. destruct Y as [Y|Y]; [left; apply Nat.eqb_eq; auto|right].
      apply andb_true_iff in Y. rewrite !Nat.ltb_lt in Y. auto. }
    destruct (Nat.lt_ge_cases s 3) as [S3|S3].
    2:{ left. apply (First a s j); auto. intros t Ht X. destruct (Wr a s t Ho X Hs Ht) as [->|[? ?]]; auto. lia. }
    assert (Zero : forall c j, In c pin -> In c (d_out default_decls PREPROCESSING) -> runs_in sched j PREPROCESSING -> j < k).
    { intros c j0 C0 C1 J0. apply (First c PREPROCESSING j0); auto; [simpl; auto|]. intros t Ht _.
      repeat (destruct Ht as [<-|Ht]; [vm_compute; auto; right; lia|]). destruct Ht. }
    destruct (Dpos PREPROCESSING ltac:(simpl; auto)) as (j0 & J0). destruct (Dpos PRELIM ltac:(simpl; auto)) as (j1 & J1).
    assert (One : forall c, In c pin -> In c (d_out default_decls PRELIM) -> j1 < k).
    { intros c C0 C1. destruct (in_dec arg_dec c (d_out default_decls PREPROCESSING)) as [X|X].
      - pose proof (Zero c j0 C0 X J0) as Z.
        assert (Y : forallb (fun c => negb (ain c (d_out default_decls PRELIM)) || ain c (d_in default_decls PRELIM)) (d_out default_decls PREPROCESSING) = true)
          by (vm_compute; reflexivity).
        rewrite forallb_forall in Y. specialize (Y c X). pose proof C1 as C2. apply ain_iff in C2. rewrite C2 in Y. cbn [negb orb] in Y. apply ain_iff in Y.
        apply (Held c PRELIM j1); auto; [simpl; auto|]. intros t Ht L. exists j0. split; auto.
        repeat (destruct Ht as [<-|Ht]; [vm_compute in L; try lia; auto|]). destruct Ht.
      - apply (First c PRELIM j1); auto; [simpl; auto|]. intros t Ht Y.
        repeat (destruct Ht as [<-|Ht]; [try contradiction; auto; right; vm_compute; lia|]). destruct Ht. }
    assert (Cs : s = PREPROCESSING \/ s = PRELIM \/ s = SIFTED) by (unfold PREPROCESSING, PRELIM, SIFTED; lia).
    destruct Cs as [->|[->| ->]].
    - left. eauto.
    - left. assert (j = j1) by (eapply runs_in_unique; eauto; eapply built_wf; eauto). subst. eauto.
    - destruct (Nat.lt_ge_cases j k) as [|G]; auto. right. split; auto.
      destruct (in_dec arg_dec a (d_out default_decls PREPROCESSING ++ d_out default_decls PRELIM)) as [X|X].
      + assert (Y : forallb (fun c => negb (ain c (d_out default_decls SIFTED)) || ain c (d_in default_decls SIFTED))
           (d_out default_decls PREPROCESSING ++ d_out default_decls PRELIM) = true) by (vm_compute; reflexivity).
        rewrite forallb_forall in Y. specialize (Y a X). pose proof Ho as C2. apply ain_iff in C2. rewrite C2 in Y. cbn [negb orb] in Y. apply ain_iff in Y.
        assert (K1 : k <= j1).
        { destruct (Nat.lt_ge_cases j1 k) as [L|]; auto. exfalso.
          enough (j < k) by lia. apply (Held a SIFTED j); auto. intros t Ht Lt.
          repeat (destruct Ht as [<-|Ht]; [vm_compute in Lt; try lia|]); [| |destruct Ht].
          - exists j0. split; auto. pose proof (@reads_order j0 j1 PREPROCESSING PRELIM ltac:(simpl; auto) ltac:(simpl; auto) J0 J1 ltac:(vm_compute; lia)). lia.
          - eauto. }
        assert (N1 : forall c, In c pin -> ~ In c (d_out default_decls PRELIM)) by (intros c C0 C1; specialize (One c C0 C1); lia).
        assert (Early : forall c t, In c pin -> In t default_stages -> In c (d_out default_decls t) -> In (fst c) ["inst_labels"; "feat_labels"; "algo_labels"]%string).
        { intros c t C0 Ht C1. destruct (@some_writer k t c K C0 Ht C1) as (j' & t' & L & Ht' & R & C3).
          assert (t' = PREPROCESSING).
          { destruct (Nat.eq_dec t' PREPROCESSING) as [|Ne]; auto. exfalso.
            assert (j1 <= j'); [|lia]. destruct (Nat.eq_dec t' PRELIM) as [->|Ne'].
            - assert (j' = j1) by (eapply runs_in_unique; eauto; eapply built_wf; eauto). lia.
            - apply Nat.lt_le_incl. apply (@reads_order j1 j' PRELIM t'); auto; [simpl; auto|].
              repeat (destruct Ht' as [<-|Ht']; [try congruence; vm_compute; lia|]). destruct Ht'. }
          subst t'. assert (Z : forallb (fun c => ain c (d_out default_decls PRELIM) ||
              (if in_dec string_dec (fst c) ["inst_labels"; "feat_labels"; "algo_labels"]%string then true else false)) (d_out default_decls PREPROCESSING) = true)
            by (vm_compute; reflexivity).
          rewrite forallb_forall in Z. specialize (Z c C3). apply orb_true_iff in Z. destruct Z as [Z|Z].
          - apply ain_iff in Z. exfalso. exact (N1 c C0 Z).
          - destruct (in_dec string_dec (fst c) _); [auto|discriminate]. }
        split.
        * pose proof (Early a SIFTED I ltac:(simpl; auto) Ho) as E. simpl in E |- *. destruct E as [E|[E|[E|[]]]]; auto. exfalso.
          assert (Z : forallb (fun c => negb (String.eqb "algo_labels" (fst c))) (d_out default_decls SIFTED) = true) by (vm_compute; reflexivity).
          rewrite forallb_forall in Z. specialize (Z a Ho). rewrite <- E in Z. discriminate.
        * intros c C0. unfold seen_early. destruct ok as (_ & _ & O3 & _). destruct (O3 c C0) as [|(t & Ht & X')]; auto. right. eapply Early; eauto.
      + exfalso. enough (j < k) by lia. apply (First a SIFTED j); auto. intros t Ht Y.
        repeat (destruct Ht as [<-|Ht]; [try (exfalso; apply X; apply in_or_app; auto; fail); auto; right; vm_compute; lia|]). destruct Ht.
  Qed.
End Reads.

Lemma writer_app outs l m n : writer outs (l ++ m) n = match writer outs m n with Some w => Some w | None => writer outs l n end.
Proof. induction l as [|s l IH]; simpl; [destruct (writer outs m n); auto|]. rewrite IH. destruct (writer outs m n); auto. Qed.

Lemma NoDup_app_disjoint A (l m : list A) x : NoDup (l ++ m) -> In x l -> In x m -> False.
Proof.
  induction l as [|y l IH]; simpl; [tauto|]. intros N [->|I] J; inversion N; subst.
  - apply H1, in_or_app. auto.
  - auto.
Qed.

(** in the default pipeline a name has one annotation *)
Lemma one_annotation : forall s t a b, In s default_stages -> In t default_stages -> In a (d_out default_decls s) -> In b (d_out default_decls t) ->
  fst a = fst b -> a = b.
Proof.
  assert (X : forallb (fun s => forallb (fun t => forallb (fun a => forallb (fun b => negb (String.eqb (fst a) (fst b)) || (if arg_dec a b then true else false))
    (d_out default_decls t)) (d_out default_decls s)) default_stages) default_stages = true) by (vm_compute; reflexivity).
  intros s t a b Hs Ht A B E. rewrite forallb_forall in X. specialize (X s Hs). rewrite forallb_forall in X. specialize (X t Ht).
  rewrite forallb_forall in X. specialize (X a A). rewrite forallb_forall in X. specialize (X b B). rewrite E, String.eqb_refl in X. simpl in X.
  destruct (arg_dec a b); [auto|discriminate].
Qed.
Lemma inputs_not_returned : forall s a b, In s default_stages -> In a (d_out default_decls s) -> In b default_inputs -> fst a <> fst b.
Proof.
  assert (X : forallb (fun s => forallb (fun a => forallb (fun b => negb (String.eqb (fst a) (fst b))) default_inputs) (d_out default_decls s)) default_stages = true)
    by (vm_compute; reflexivity).
  intros s a b Hs A B E. rewrite forallb_forall in X. specialize (X s Hs). rewrite forallb_forall in X. specialize (X a A).
  rewrite forallb_forall in X. specialize (X b B). rewrite E, String.eqb_refl in X. discriminate.
Qed.

(** In a completed run the plugin was given the final values, unless all it reads are the labels of instances, features or
    algorithms (or inputs of the pipeline). *)
Theorem C138_reads_final_values :
  forall V pin pout iter calls init sched (behave : list (event V) -> sid -> dict V -> option (dict V)) (st st' : rstate V) args d,
    plugin_for_default pin pout -> any_order iter ->
    let D := plugin_decls pin pout in
    build D iter (add_stages D calls) init = Ok sched ->
    (forall s, In s calls <-> s = PLUGIN \/ In s default_stages) -> (forall a, In a init <-> In a default_inputs) ->
    returns_declared behave D ->
    let fields s := map fst (d_in D s) in
    reachable fields behave sched st ->
    run_all fields behave sched st args = (st', Ok d) ->
    (exists c, In c pin /\ ~ In c default_inputs /\ ~ In (fst c) ["inst_labels"; "feat_labels"; "algo_labels"]%string) \/
    (forall c, In c pin -> ~ In (fst c) ["inst_labels"; "feat_labels"]%string) ->
    exists l e, log st' = log st ++ l /\ In e l /\ ev_stage e = PLUGIN /\
      forall a, In a pin -> given (ev_in e) (fst a) = dget (content st' d) (fst a).
Proof.
  intros V pin pout iter calls init sched behave st st' args d ok Hi D B Hc Ha RD fields R E Cond.
  pose proof (@built_wf D iter calls init sched Hi B) as W.
  destruct (@run_all_flow V D behave sched st st' args d W RD R E) as (ev & L & Ev & Fin & Rd).
  destruct (@reads_runs pin pout iter calls init sched ok Hi Hc B PLUGIN (or_intror eq_refl)) as (k & K).
  assert (Ic : In PLUGIN (concat sched)) by (apply runs_in_concat; eauto).
  exists (map ev (concat sched)), (ev PLUGIN). split; [exact L|]. split; [apply in_map; auto|]. split; [apply Ev; auto|].
  intros a I. destruct (in_split _ _ Ic) as (pre & q & Es). rewrite (Rd pre PLUGIN q Es (fst a)) by (apply in_map; exact I).
  rewrite Fin, Es, writer_app. destruct (writer (fun s => map fst (d_out D s)) (PLUGIN :: q) (fst a)) as [w|] eqn:Ew; auto. exfalso.
  pose proof (@writer_in _ _ _ _ Ew) as Iw. pose proof (@writer_out _ _ _ _ Ew) as Ow. cbv beta in Ow.
  assert (Iws : In w (concat sched)) by (rewrite Es; apply in_or_app; auto).
  apply in_map_iff in Ow. destruct Ow as (b & Eb & Ob).
  assert (Hw : w = PLUGIN \/ In w default_stages).
  { apply Hc. destruct (@C01_every_stage_once D iter calls init sched Hi B) as [P _]. apply (Permutation_in _ P) in Iws. apply in_add_stages in Iws. tauto. }
  pose proof ok as (O1 & O2 & O3 & O4). destruct Hw as [Hw|Hw].
  - subst w. change (In b pout) in Ob. apply (O4 b Ob). rewrite Eb. unfold default_names. apply in_or_app.
    destruct (O3 a I) as [X|(s & Hs & X)]; [left; apply in_map; auto|]. right. apply in_flat_map. exists s. split; auto. apply in_or_app. right. apply in_map. auto.
  - unfold D in Ob. rewrite same_out in Ob by auto.
    destruct (O3 a I) as [X|(s & Hs & X)]; [exact (@inputs_not_returned w b a Hw Ob X Eb)|].
    assert (b = a) as -> by (exact (@one_annotation w s b a Hw Hs Ob X Eb)).
    apply runs_in_concat in Iws. destruct Iws as (j & J).
    destruct (@concat_split sched pre PLUGIN q Es) as (k' & g & g1 & g2 & Ek & Eg & Ep).
    assert (k' = k) as -> by (eapply runs_in_unique; [exact W| |exact K]; exists g; split; auto; rewrite Eg; apply in_or_app; simpl; auto).
    destruct (@when_it_runs pin pout iter calls init sched ok Hi Hc Ha B k j w a K I Hw Ob J) as [L'|(_ & Y & Z)].
    + destruct W as [Nd _]. rewrite Es in Nd. apply NoDup_app_disjoint with (x := w) in Nd; auto. rewrite Ep. apply in_or_app. left.
      apply runs_in_concat. exists j. destruct J as (h & Eh & Ih). exists h. split; auto. rewrite nth_firstn; auto.
    + destruct Cond as [(c & Ic' & N1 & N2)|N]; [|exact (N a I Y)]. destruct (Z c Ic'); auto.
Qed.

(** The plugin runs after every stage that returns something it reads, unless all it reads are those labels (or inputs of the
    pipeline), and then only SIFTED may come later. *)
Theorem C138_when_it_runs :
  forall pin pout iter calls init sched k j s a,
    plugin_for_default pin pout -> any_order iter ->
    let D := plugin_decls pin pout in
    build D iter (add_stages D calls) init = Ok sched ->
    (forall s, In s calls <-> s = PLUGIN \/ In s default_stages) -> (forall a, In a init <-> In a default_inputs) ->
    runs_in sched k PLUGIN -> runs_in sched j s -> In s default_stages -> In a pin -> In a (d_out default_decls s) ->
    j < k \/
    s = SIFTED /\ In (fst a) ["inst_labels"; "feat_labels"]%string /\
    forall c, In c pin -> In c default_inputs \/ In (fst c) ["inst_labels"; "feat_labels"; "algo_labels"]%string.
Proof.
  intros pin pout iter calls init sched k j s a ok Hi D B Hc Ha K J Hs I Ho.
  exact (@when_it_runs pin pout iter calls init sched ok Hi Hc Ha B k j s a K I Hs Ho J).
Qed.

(* ========================================================== witnesses *)
(** stages that return their own number under every name *)
Definition number_behave (D : decls) (h : list (event nat)) (s : sid) (i : list (string * nat)) : option (list (string * nat)) :=
  Some (map (fun a => (fst a, s)) (d_out D s)).
Lemma number_declared D : returns_declared (number_behave D) D.
Proof.
  intros h s i o H n. unfold number_behave in H. assert (X : o = map (fun a => (fst a, s)) (d_out D s)) by congruence. rewrite X. clear X H.
  generalize (d_out D s) as l. clear.
  induction l as [|a l IH]; simpl; [split; [intro X; exfalso; auto|tauto]|]. destruct (given (map (fun a => (fst a, s)) l) n).
  - split; [right; apply IH; discriminate|discriminate].
  - destruct (String.eqb_spec (fst a) n) as [->|N]; [split; [auto|discriminate]|]. split; [congruence|]. intros [E|X]; [contradiction|]. apply IH in X. congruence.
Qed.
Lemma reader_ok : plugin_for_default [("feat_labels"%string, TStrings)] example_plugin_out.
Proof.
  split; [discriminate|]. split; [intros a [<-|[]] M; apply marker_class_iff in M; discriminate|]. split.
  - intros a [<-|[]]. right. exists PREPROCESSING. split; vm_compute; auto 10.
  - intros a [<-|[]] X. vm_compute in X. repeat (destruct X as [X|X]; [discriminate|]). destruct X.
Qed.

(** That a plugin is always given the final values is false: one that reads the labels of the features alone is given those
    from before SIFTED's selection. *)
Theorem C138_reads_final_values_refuted :
  ~ (forall V pin pout iter calls init sched (behave : list (event V) -> sid -> list (string * V) -> option (list (string * V)))
            (st st' : rstate V) args d,
    plugin_for_default pin pout -> any_order iter ->
    let D := plugin_decls pin pout in
    build D iter (add_stages D calls) init = Ok sched ->
    (forall s, In s calls <-> s = PLUGIN \/ In s default_stages) -> (forall a, In a init <-> In a default_inputs) ->
    returns_declared behave D ->
    let fields s := map fst (d_in D s) in
    reachable fields behave sched st ->
    run_all fields behave sched st args = (st', Ok d) ->
    exists l e, log st' = log st ++ l /\ In e l /\ ev_stage e = PLUGIN /\
      forall a, In a pin -> given (ev_in e) (fst a) = dget (content st' d) (fst a)).
Proof.
  intros H.
  set (pin := [("feat_labels"%string, TStrings)]). set (D := plugin_decls pin example_plugin_out).
  assert (B : exists sched, build D (fun _ l => l) (add_stages D (PLUGIN :: default_stages)) default_inputs = Ok sched) by (eexists; vm_compute; reflexivity).
  destruct B as (sched & B).
  destruct (run_all (fun s => map fst (d_in D s)) (number_behave D) sched (fresh_runner nat) (space_inputs (fun _ => 100))) as [st' [d|]] eqn:E.
  2: { vm_compute in B. injection B as <-. vm_compute in E. discriminate. }
  assert (X := @H nat pin example_plugin_out (fun _ l => l) (PLUGIN :: default_stages) default_inputs sched (number_behave D) (fresh_runner nat) st'
    (space_inputs (fun _ => 100)) d reader_ok (fun n l => Permutation_refl l) B
    ltac:(intros s; split; [intros [<-|X]; auto|intros [->|X]; simpl; auto])
    ltac:(intros a; split; auto)
    (@number_declared D) (ex_intro _ [] eq_refl) E). clear H.
  vm_compute in B. injection B as <-. vm_compute in E. injection E as <- <-.
  destruct X as (l & e & L & I & Ep & F). specialize (F _ (or_introl eq_refl)). simpl in L. subst l. simpl in I.
  repeat (destruct I as [<-|I]; [try discriminate Ep; vm_compute in F; discriminate F|]). destruct I.
Qed.

(** the example plugin of the repository *)
Example C138_met :
  plugin_for_default example_plugin_in example_plugin_out /\
  let D := plugin_decls example_plugin_in example_plugin_out in
  build D (fun _ l => l) (add_stages D (PLUGIN :: default_stages)) default_inputs =
    Ok [[PREPROCESSING]; [PRELIM]; [SIFTED]; [PILOT]; [PYTHIA; CLOISTER]; [PLUGIN; TRACE]] /\
  (exists c, In c example_plugin_in /\ ~ In c default_inputs /\ ~ In (fst c) ["inst_labels"; "feat_labels"; "algo_labels"]%string) /\
  exists st d, run_all (fun s => map fst (d_in D s)) (number_behave D)
    [[PREPROCESSING]; [PRELIM]; [SIFTED]; [PILOT]; [PYTHIA; CLOISTER]; [PLUGIN; TRACE]] (fresh_runner nat) (space_inputs (fun _ => 100)) = (st, Ok d) /\
    dget (content st d) "blank"%string = Some PLUGIN /\ dget (content st d) "feat_labels"%string = Some SIFTED.
Proof.
  split.
  { split; [discriminate|]. split; [intros a [<-|[]] M; apply marker_class_iff in M; discriminate|]. split.
    - intros a I. right. exists PYTHIA. split; [vm_compute; auto 10|]. repeat (destruct I as [<-|I]; [vm_compute; auto 30|]). destruct I.
    - intros a [<-|[]] X. vm_compute in X. repeat (destruct X as [X|X]; [discriminate|]). destruct X. }
  split; [vm_compute; reflexivity|]. split.
  { exists ("accuracy"%string, TFloats). split; [left; reflexivity|]. split; intros X; vm_compute in X; repeat (destruct X as [X|X]; [discriminate|]); destruct X. }
  do 2 eexists. split; [vm_compute; reflexivity|]. split; vm_compute; reflexivity.
Qed.
(** where the plugin that reads the labels of the features runs: together with PRELIM *)
Example C138_met_early :
  let D := plugin_decls [("feat_labels"%string, TStrings)] example_plugin_out in
  plugin_for_default [("feat_labels"%string, TStrings)] example_plugin_out /\
  exists sched, build D (fun _ l => l) (add_stages D (PLUGIN :: default_stages)) default_inputs = Ok sched /\
    runs_in sched 1 PLUGIN /\ runs_in sched 1 PRELIM /\ runs_in sched 2 SIFTED.
Proof.
  split; [exact reader_ok|]. eexists. split; [vm_compute; reflexivity|].
  repeat split; eexists; (split; [reflexivity|vm_compute; auto]).
Qed.

Print Assumptions C138_plugin_is_scheduled.
Print Assumptions C138_results_do_not_change.
Print Assumptions C138_default_schedule.
Print Assumptions C138_same_model.
Print Assumptions C138_when_it_runs.
Print Assumptions C138_reads_final_values.
Print Assumptions C138_reads_final_values_refuted.
