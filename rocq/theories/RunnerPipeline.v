(** Runs of built pipelines: no missing argument, order inside the groups, the model of an
    InstanceSpace.  Lemmas for RunnerProps.v. *)
From Verif Require Import Base BaseLemmas BuilderModel BuilderSpec BuilderProofs BuilderSim
     RunnerModel RunnerSpec RunnerProofs RunnerRun RunnerMore.
Set Implicit Arguments.
Local Arguments firstn : simpl never.
Local Arguments skipn : simpl never.

Lemma build_well_formed D iter calls init sched :
  any_order iter -> build D iter (add_stages D calls) init = Ok sched -> well_formed sched.
Proof.
  intros Hi Hb.
  destruct (@build_partition D iter Hi _ init sched (add_stages_NoDup D calls) Hb) as [P F].
  split; auto. eapply Permutation_NoDup; [apply Permutation_sym; exact P|]. apply add_stages_NoDup.
Qed.

Section Pipeline.
  Variable V : Type.
  Variable fields : sid -> list string.
  Variable behave : list (event V) -> sid -> dict V -> option (dict V).
  Notation compose := (compose fields behave).

  Lemma updated_mono (e : env V) o n : e n <> None -> updated e o n <> None.
  Proof. unfold updated. destruct (given o n); auto. discriminate. Qed.

  Lemma compose_mono l : forall h e e' n,
    snd (compose h l e) = Ok e' -> e n <> None -> e' n <> None.
  Proof.
    induction l as [|s l IH]; intros h e e' n H Hn; simpl in H; [congruence|].
    destruct (read_fields e (fields s)) as [i|]; [|discriminate].
    destruct (behave h s i) as [o|]; [|discriminate]. simpl in H.
    eapply IH; eauto. apply updated_mono; auto.
  Qed.

  Lemma read_fields_all (e : env V) names :
    (forall n, In n names -> e n <> None) -> exists i, read_fields e names = Some i.
  Proof.
    induction names as [|n t IH]; simpl; intro H; eauto.
    destruct (e n) eqn:E; [|exfalso; apply (H n); auto].
    destruct IH as [i ->]; eauto.
  Qed.

  Lemma compose_complete D (Hf : forall s, fields s = map fst (d_in D s))
    (Ho : forall h s i o a, behave h s i = Some o -> In a (d_out D s) -> given o (fst a) <> None) :
    forall l init h e,
      executable_sequence D init l -> (forall a, In a init -> e (fst a) <> None) ->
      match snd (compose h l e) with
      | Ok e' => forall a, In a init \/ (exists s, In s l /\ In a (d_out D s)) -> e' (fst a) <> None
      | Err x => x = StageFailed
      end.
  Proof.
    induction l as [|s l IH]; intros init h e Hx He; simpl.
    - intros a [H|(s & [] & _)]; auto.
    - destruct (@read_fields_all e (fields s)) as [i R].
      { intros n Hn. rewrite Hf in Hn. apply in_map_iff in Hn. destruct Hn as (a & <- & Ha).
        destruct (Hx [] s l eq_refl a Ha) as [H|(t & [] & _)]; auto. }
      rewrite R. destruct (behave h s i) as [o|] eqn:B; simpl; auto.
      specialize (IH (init ++ d_out D s) (h ++ [{| ev_stage := s; ev_in := i; ev_out := Some o |}])
                     (updated e o)).
      assert (X : executable_sequence D (init ++ d_out D s) l).
      { intros before t after -> a Ha.
        destruct (Hx (s :: before) t after eq_refl a Ha) as [H|(u & [->|Hu] & Hau)].
        - left. apply in_or_app; auto.
        - left. apply in_or_app; auto.
        - right. eauto. }
      assert (Y : forall a, In a (init ++ d_out D s) -> updated e o (fst a) <> None).
      { intros a Ha. apply in_app_or in Ha. destruct Ha as [Ha|Ha].
        - apply updated_mono; auto.
        - pose proof (Ho _ _ _ _ _ B Ha) as Z. unfold updated.
          destruct (given o (fst a)); congruence. }
      specialize (IH X Y).
      destruct (snd (compose _ l (updated e o))) as [e'|x]; auto.
      intros a H. apply IH. destruct H as [H|(t & [->|Ht] & Ha)]; eauto; left; apply in_or_app; auto.
  Qed.

  Lemma run_all_complete D sched (WF : well_formed sched) init
    (Hf : forall s, fields s = map fst (d_in D s))
    (Ho : forall h s i o a, behave h s i = Some o -> In a (d_out D s) -> given o (fst a) <> None)
    (Hr : runnable D init sched) (st : rstate V) args :
    Inv sched st -> (forall a, In a init -> given args (fst a) <> None) ->
    match run_all fields behave sched st args with
    | (st', Ok d) => forall a, In a init \/ (exists s, In s (concat sched) /\ In a (d_out D s)) ->
                     dget (content st' d) (fst a) <> None
    | (_, Err x) => x = StageFailed
    end.
  Proof.
    intros I Ha.
    pose proof (@compose_complete D Hf Ho (concat sched) init (log st) (given args)
                  (runnable_sequence Hr) Ha) as H.
    pose proof (@run_all_compose V fields behave sched WF st args I) as H2.
    destruct (compose (log st) (concat sched) (given args)) as [h [e|x]]; simpl in H;
      destruct (run_all fields behave sched st args) as [st' [d|y]];
      destruct H2 as (L & I' & H2); try contradiction; try congruence.
    destruct H2 as (-> & _ & E & _). intros a X. specialize (H a X). rewrite <- (E (fst a)) in H. exact H.
  Qed.

  (* ---------------------------------------------------------------- *)
  (** ** Order inside the groups *)
  Section Order.
    Hypothesis Det : deterministic behave.
    Variable outs : sid -> list string.
    Hypothesis Houts : forall h s i o n, behave h s i = Some o -> given o n <> None -> In n (outs s).

    Definition independent (s t : sid) : Prop :=
      forall n, In n (outs s) -> ~ In n (fields t) /\ ~ In n (outs t).

    Lemma swap_ok h s t e e1 :
      independent s t -> independent t s ->
      snd (compose h [s; t] e) = Ok e1 ->
      exists e2, snd (compose h [t; s] e) = Ok e2 /\ env_eq e1 e2.
    Proof.
      intros Hst Hts H. simpl in *.
      destruct (read_fields e (fields s)) as [i|] eqn:R; [|discriminate].
      destruct (behave h s i) as [o|] eqn:B; [|discriminate].
      destruct (read_fields (updated e o) (fields t)) as [i'|] eqn:R'; [|discriminate].
      match type of H with context [behave ?hh t i'] => destruct (behave hh t i') as [o'|] eqn:B' end;
        [|discriminate].
      simpl in H. injection H as <-.
      assert (Ko : forall n, given o n <> None -> In n (outs s)) by (intros; eapply Houts; eauto).
      assert (Ko' : forall n, given o' n <> None -> In n (outs t)) by (intros; eapply Houts; eauto).
      rewrite (read_fields_ext (updated e o) e) in R'.
      2:{ intros n Hn. apply updated_keeps. destruct (given o n) eqn:X; auto. exfalso.
          destruct (Hst n) as [K _]; [apply Ko; congruence|]. auto. }
      rewrite R'. rewrite (Det _ h) in B'. rewrite B'.
      rewrite (read_fields_ext (updated e o') e).
      2:{ intros n Hn. apply updated_keeps. destruct (given o' n) eqn:X; auto. exfalso.
          destruct (Hts n) as [K _]; [apply Ko'; congruence|]. auto. }
      rewrite R. rewrite (Det _ h), B. simpl. eexists. split; [reflexivity|].
      intro n. unfold updated. destruct (given o n) eqn:X, (given o' n) eqn:Y; auto.
      exfalso. destruct (Hst n) as [_ K]; [apply Ko; congruence|]. apply K. apply Ko'. congruence.
    Qed.

    Lemma perm_ok l1 l2 : Permutation l1 l2 -> NoDup l1 ->
      (forall s t, In s l1 -> In t l1 -> s <> t -> independent s t) ->
      forall h e e1, snd (compose h l1 e) = Ok e1 ->
      exists e2, snd (compose h l2 e) = Ok e2 /\ env_eq e1 e2.
    Proof.
      induction 1 as [|x l1 l2 P IH|x y l|l1 l2 l3 P1 IH1 P2 IH2]; intros ND Hi h e e1 H.
      - eexists; split; eauto. intro; auto.
      - simpl in *. destruct (read_fields e (fields x)); [|discriminate].
        destruct (behave h x l); [|discriminate].
        apply IH; auto. inversion ND; auto.
      - change (y :: x :: l) with ([y; x] ++ l) in H. change (x :: y :: l) with ([x; y] ++ l).
        rewrite compose_app in *.
        destruct (compose h [y; x] e) as [h1 [e'|z]] eqn:E; [|discriminate].
        assert (Hxy : x <> y).
        { inversion ND as [|? ? N _]; subst. intros ->. apply N. simpl; auto. }
        destruct (@swap_ok h y x e e') as (e2 & E2 & Q).
        + apply Hi; simpl; auto.
        + apply Hi; simpl; auto.
        + rewrite E. auto.
        + destruct (compose h [x; y] e) as [h2 r2]. simpl in E2. subst r2.
          rewrite (compose_det fields Det l h1 h2) in H.
          destruct (compose_ext fields behave l h2 Q) as [_ X]. rewrite H in X.
          destruct (snd (compose h2 l e2)); simpl in X; [|contradiction]. eauto.
      - destruct (IH1 ND Hi h e e1 H) as (e2 & H2 & Q2).
        assert (ND2 : NoDup l2) by (eapply Permutation_NoDup; eauto).
        assert (Hi2 : forall s t, In s l2 -> In t l2 -> s <> t -> independent s t).
        { intros s t Hs Ht. apply Hi; (eapply Permutation_in; [apply Permutation_sym; exact P1|auto]). }
        destruct (IH2 ND2 Hi2 h e e2 H2) as (e3 & H3 & Q3). exists e3. split; auto.
        intro n. rewrite Q2. auto.
    Qed.

    Lemma groups_ok s1 s2 : Forall2 (@Permutation sid) s1 s2 ->
      (forall g, In g s1 -> NoDup g /\ forall s t, In s g -> In t g -> s <> t -> independent s t) ->
      forall h e e1, snd (compose h (concat s1) e) = Ok e1 ->
      exists e2, snd (compose h (concat s2) e) = Ok e2 /\ env_eq e1 e2.
    Proof.
      induction 1 as [|g1 g2 s1 s2 P F IH]; intros Hg h e e1 H.
      - eexists; split; eauto. intro; auto.
      - simpl in *. rewrite compose_app in *.
        destruct (compose h g1 e) as [h1 [e'|z]] eqn:E; [|discriminate].
        destruct (Hg g1 (or_introl eq_refl)) as [ND Hi].
        destruct (@perm_ok g1 g2 P ND Hi h e e') as (e2 & E2 & Q); [rewrite E; auto|].
        destruct (compose h g2 e) as [h2 r2]. simpl in E2. subst r2.
        rewrite (compose_det fields Det _ h1 h2) in H.
        destruct (compose_ext fields behave (concat s1) h2 Q) as [_ X]. rewrite H in X.
        destruct (snd (compose h2 (concat s1) e2)) as [e3|] eqn:E3; simpl in X; [|contradiction].
        destruct (IH (fun g Hg' => Hg g (or_intror Hg')) h2 e2 e3 E3) as (e4 & H4 & Q4).
        exists e4. split; auto. intro n. rewrite X. auto.
    Qed.
  End Order.

  Lemma forall2_perm_sym s1 s2 : Forall2 (@Permutation sid) s1 s2 -> Forall2 (@Permutation sid) s2 s1.
  Proof. induction 1; constructor; auto. apply Permutation_sym. auto. Qed.

  Lemma forall2_perm_in s1 s2 g : Forall2 (@Permutation sid) s1 s2 -> In g s2 ->
    exists g', In g' s1 /\ Permutation g' g.
  Proof.
    induction 1 as [|a b l l' P F IH]; simpl; [tauto|]. intros [->|H]; eauto.
    destruct (IH H) as (g' & Hg & Q). eauto.
  Qed.

  Lemma order_irrelevant (Det : deterministic behave) outs
    (Houts : forall h s i o n, behave h s i = Some o -> given o n <> None -> In n (outs s))
    s1 s2 (st1 st2 : rstate V) args :
    Forall2 (@Permutation sid) s1 s2 -> well_formed s1 -> well_formed s2 ->
    (forall k s t n, runs_in s1 k s -> runs_in s1 k t -> s <> t -> In n (outs s) ->
       ~ In n (fields t) /\ ~ In n (outs t)) ->
    Inv s1 st1 -> Inv s2 st2 ->
    match run_all fields behave s1 st1 args, run_all fields behave s2 st2 args with
    | (st1', Ok d1), (st2', Ok d2) => forall n, dget (content st1' d1) n = dget (content st2' d2) n
    | (_, Err _), (_, Err _) => True
    | _, _ => False
    end.
  Proof.
    intros F W1 W2 Hi I1 I2.
    assert (G1 : forall g, In g s1 -> NoDup g /\ forall s t, In s g -> In t g -> s <> t -> independent outs s t).
    { intros g Hg. split.
      - destruct W1 as [N _]. apply in_split in Hg. destruct Hg as (a & b & ->).
        rewrite concat_app in N. simpl in N. clear -N. induction (concat a); simpl in N.
        + induction g; constructor; inversion N; subst; auto.
          intro. apply H1. apply in_or_app; auto.
        + inversion N; auto.
      - apply In_nth_error in Hg. destruct Hg as [k Hk]. intros s t Hs Ht Hd n Hn.
        apply (Hi k s t n); auto; exists g; auto. }
    assert (G2 : forall g, In g s2 -> NoDup g /\ forall s t, In s g -> In t g -> s <> t -> independent outs s t).
    { intros g Hg. destruct (@forall2_perm_in _ _ g F Hg) as (g' & Hg' & P).
      destruct (G1 g' Hg') as [N K]. split; [eapply Permutation_NoDup; eauto|].
      intros s t Hs Ht. apply K; (eapply Permutation_in; [apply Permutation_sym; exact P|auto]). }
    pose proof (@run_all_compose V fields behave s1 W1 st1 args I1) as H1.
    pose proof (@run_all_compose V fields behave s2 W2 st2 args I2) as H2.
    pose proof (compose_det fields Det (concat s2) (log st2) (log st1) (given args)) as Dt.
    destruct (compose (log st2) (concat s2) (given args)) as [h2 r2]. simpl in Dt.
    destruct (compose (log st1) (concat s1) (given args)) as [h1 r1] eqn:C1.
    destruct (run_all fields behave s1 st1 args) as [st1' [d1|x1]];
      destruct H1 as (_ & _ & H1); destruct r1 as [e1|y1]; try contradiction.
    - destruct (@groups_ok Det outs Houts s1 s2 F G1 (log st1) (given args) e1) as (e2 & E2 & Q);
        [rewrite C1; auto|].
      rewrite E2 in Dt. subst r2.
      destruct (run_all fields behave s2 st2 args) as [st2' [d2|x2]];
        destruct H2 as (_ & _ & H2); try contradiction.
      destruct H1 as (-> & _ & E1 & _). destruct H2 as (-> & _ & E2' & _).
      intro n. change (values st1' n = values st2' n). rewrite E1, E2'. apply Q.
    - destruct (run_all fields behave s2 st2 args) as [st2' [d2|x2]];
        destruct H2 as (_ & _ & H2); destruct r2 as [e2|y2]; try contradiction; auto.
      destruct (@groups_ok Det outs Houts s2 s1 (forall2_perm_sym F) G2 (log st1) (given args) e2)
        as (e3 & E3 & _); [auto|]. rewrite C1 in E3. discriminate.
  Qed.

  (* ---------------------------------------------------------------- *)
  (** ** InstanceSpace *)
  Section Space.
    Variable sched : list (list sid).
    Variable M : Type.
    Variable conv : dict V -> option M.
    Variable inputs : dict V.
    Notation space := (space V M).
    Notation ssteps := (ssteps fields behave sched conv inputs).
    Notation sstep := (sstep fields behave sched conv inputs).
    Notation get_model := (get_model conv).
    Notation space_build := (space_build fields behave sched conv inputs).

    Lemma get_model_cached (sp : space) m : model sp = Some m -> get_model sp = (sp, Ok m).
    Proof. unfold RunnerModel.get_model. intros ->. auto. Qed.

    Lemma get_model_ok (sp sp' : space) m : get_model sp = (sp', Ok m) -> model sp' = Some m.
    Proof.
      unfold RunnerModel.get_model. destruct (model sp) eqn:E; [intros H; injection H as <- <-; auto|].
      destruct (final_output sp); [|discriminate]. destruct (conv _); [|discriminate].
      intro H. injection H as <- <-. auto.
    Qed.

    Lemma build_ok (sp sp' : space) m : space_build sp = (sp', Ok m) -> model sp' = Some m.
    Proof.
      unfold RunnerModel.space_build. destruct (run_all _ _ _ _ _) as [r [a|x]]; [|discriminate].
      apply get_model_ok.
    Qed.

    Lemma sstep_cached (sp : space) o m : model sp = Some m -> model (sstep sp o) = Some m.
    Proof.
      intro H. destruct o; simpl; auto.
      - unfold RunnerModel.space_build. destruct (run_all _ _ _ _ _) as [r [a|x]]; simpl; auto.
        unfold RunnerModel.get_model. simpl. rewrite H. simpl. auto.
      - rewrite (get_model_cached _ H). auto.
    Qed.

    Lemma ssteps_cached ops : forall (sp : space) m, model sp = Some m -> model (ssteps sp ops) = Some m.
    Proof.
      induction ops as [|o ops IH]; intros sp m H; simpl; auto. apply IH. apply sstep_cached; auto.
    Qed.

    Lemma build_cached (sp : space) m : model sp = Some m ->
      match space_build sp with
      | (_, Ok m') => m' = m
      | (_, Err e) => exists x, e = SRunner x
      end.
    Proof.
      intro H. unfold RunnerModel.space_build. destruct (run_all _ _ _ _ _) as [r [a|x]]; eauto.
      unfold RunnerModel.get_model. simpl. rewrite H. auto.
    Qed.

    (** a build whose stages completed *)
    Definition completes (sp : space) : Prop :=
      exists r a, run_all fields behave sched (runner sp) inputs = (r, Ok a).

    Lemma sstep_final (sp : space) o :
      final_output (sstep sp o) <> None <-> final_output sp <> None \/ (o = SBuild V /\ completes sp).
    Proof.
      destruct o; simpl; try (split; [auto|intros [H|[H _]]; [auto|discriminate]]; fail).
      - unfold RunnerModel.space_build. destruct (run_all fields behave sched (runner sp) inputs) as [r [a|x]] eqn:E.
        + assert (completes sp) by (exists r, a; auto).
          unfold RunnerModel.get_model. simpl. destruct (model sp); simpl; [split; auto; discriminate|].
          destruct (conv _); simpl; split; auto; discriminate.
        + simpl. split; auto. intros [H|[_ (r' & a & H)]]; auto. congruence.
      - unfold RunnerModel.get_model. split; [|intros [H|[H _]]; [|discriminate]].
        + destruct (model sp); simpl; auto. destruct (final_output sp) eqn:E; simpl; auto.
          destruct (conv _); simpl; auto. rewrite E; auto.
        + destruct (model sp); simpl; auto. destruct (final_output sp) eqn:E; simpl; auto.
          destruct (conv _); simpl; auto. rewrite E; auto.
    Qed.

    Lemma ssteps_final ops : forall sp : space,
      final_output (ssteps sp ops) <> None <->
      final_output sp <> None \/
      exists pre post, ops = pre ++ SBuild V :: post /\ completes (ssteps sp pre).
    Proof.
      induction ops as [|o ops IH]; intros sp; simpl.
      - split; auto. intros [H|(pre & post & H & _)]; auto. destruct pre; discriminate.
      - rewrite IH, sstep_final. split.
        + intros [[H|[-> H]]|(pre & post & -> & H)]; auto.
          * right. exists [], ops. auto.
          * right. exists (o :: pre), post. auto.
        + intros [H|([|p pre] & post & H & C)]; auto.
          * injection H as -> ->. auto.
          * injection H as -> ->. right. eauto.
    Qed.

    Lemma model_final (sp : space) :
      (model sp <> None -> final_output sp <> None) ->
      (snd (get_model sp) = Err SNotRun <-> final_output sp = None).
    Proof.
      intro H. unfold RunnerModel.get_model. destruct (model sp) eqn:E; simpl.
      - split; [discriminate|]. intro F. exfalso. apply H; auto. discriminate.
      - destruct (final_output sp) eqn:F; simpl; [|split; auto].
        destruct (conv _); simpl; split; discriminate.
    Qed.

    Lemma model_needs_final ops : forall sp : space,
      (model sp <> None -> final_output sp <> None) ->
      model (ssteps sp ops) <> None -> final_output (ssteps sp ops) <> None.
    Proof.
      induction ops as [|o ops IH]; intros sp H; simpl; auto.
      apply IH. destruct o; simpl; auto.
      - unfold RunnerModel.space_build. destruct (run_all _ _ _ _ _) as [r [a|x]]; simpl; auto.
        unfold RunnerModel.get_model. simpl. destruct (model sp); simpl; [discriminate|].
        destruct (conv _); simpl; discriminate.
      - unfold RunnerModel.get_model. destruct (model sp) eqn:E; simpl; [rewrite E; auto|].
        destruct (final_output sp) eqn:F; simpl; [|auto].
        destruct (conv _); simpl; [discriminate|]. rewrite E; auto.
    Qed.

    Lemma not_run_iff ops :
      snd (get_model (ssteps (new_space V M) ops)) = Err SNotRun <->
      ~ exists pre post, ops = pre ++ SBuild V :: post /\ completes (ssteps (new_space V M) pre).
    Proof.
      rewrite model_final.
      2:{ apply model_needs_final. simpl. congruence. }
      pose proof (ssteps_final ops (new_space V M)) as H. simpl in H.
      split.
      - intros E X. destruct H as [_ H]. apply H in E; auto.
      - intro N. destruct (final_output _) eqn:E in |- *; auto. exfalso. destruct H as [H _].
        destruct H as [H|H]; auto. congruence.
    Qed.

    Lemma build_reports_run (sp : space) m sp' :
      model sp = None -> space_build sp = (sp', Ok m) ->
      exists r a, run_all fields behave sched (runner sp) inputs = (r, Ok a) /\
                  conv (content r a) = Some m.
    Proof.
      intros H. unfold RunnerModel.space_build.
      destruct (run_all fields behave sched (runner sp) inputs) as [r [a|x]] eqn:E; [|discriminate].
      unfold RunnerModel.get_model. simpl. rewrite H. destruct (conv _) eqn:C; [|discriminate].
      intro X. injection X as <- <-. eauto.
    Qed.
  End Space.
End Pipeline.
