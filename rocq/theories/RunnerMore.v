(** Lemmas behind the runner property theorems. *)
From Verif Require Import Base BaseLemmas BuilderModel BuilderSpec BuilderProofs BuilderSim
     RunnerModel RunnerSpec RunnerProofs RunnerRun.
Set Implicit Arguments.
Local Arguments firstn : simpl never.
Local Arguments skipn : simpl never.

Section More.
  Variable V : Type.
  Variable fields : sid -> list string.
  Variable behave : list (event V) -> sid -> dict V -> option (dict V).
  Variable sched : list (list sid).
  Hypothesis WF : well_formed sched.

  Notation run_stage := (run_stage fields behave sched).
  Notation run_stages := (run_stages fields behave sched).
  Notation run_all := (run_all fields behave sched).
  Notation run_until := (run_until fields behave sched).
  Notation gen_next := (gen_next fields behave sched).
  Notation gen_continue := (gen_continue fields behave sched).
  Notation nexts := (nexts fields behave sched).
  Notation start := (start sched).
  Notation step := (step fields behave sched).
  Notation steps := (steps fields behave sched).
  Notation state := (rstate V).
  Notation compose := (compose fields behave).
  Notation Inv := (Inv sched).
  Notation reachable := (reachable fields behave sched).
  Notation runs_like := (runs_like fields behave sched).

  Hint Resolve reachable_inv : core.

  (* ---------------------------------------------------------------- *)
  (** ** Prefixes of the pipeline *)

  Lemma runs_like_group_prefix k l l2 : forall done (st : state),
    nth_error sched k = Some (done ++ l ++ l2) ->
    Inv st -> (forall s, In s done -> In s (ran st)) ->
    (cur st = S k \/ (cur st = k /\
       (done = [] \/ ~ (forall t, runs_in sched k t -> In t (ran st))))) ->
    runs_like st l (fun _ => True).
  Proof.
    induction l as [|s l IH]; intros done st E I Hd Hc.
    - apply runs_like_nil; auto.
    - assert (Hin : forall t, t = s \/ In t done -> runs_in sched k t).
      { intros t Ht. exists (done ++ (s :: l) ++ l2). split; auto. apply in_or_app. simpl.
        destruct Ht as [->|]; auto. }
      change (s :: l) with ([s] ++ l).
      eapply runs_like_app; [eapply runs_like_one; eauto; lia|].
      intros st1 I1 (R & C). simpl in *.
      apply (IH (done ++ [s])); auto.
      + rewrite <- app_assoc. exact E.
      + intros t Ht. apply in_app_or in Ht. simpl in Ht.
        apply R; [apply Hin|]; intuition.
      + destruct C as [[_ ->]|[N ->]]; auto.
  Qed.

  Lemma runs_like_prefix gs : forall pre post (st : state) p q,
    sched = pre ++ gs ++ post -> Inv st -> cur st = length pre ->
    concat gs = p ++ q -> runs_like st p (fun _ => True).
  Proof.
    induction gs as [|g gs IH]; intros pre post st p q E I C Ec; simpl in Ec.
    - destruct p; [|discriminate]. apply runs_like_nil; auto.
    - assert (Eg : nth_error sched (length pre) = Some g).
      { rewrite E. rewrite nth_error_app2, Nat.sub_diag by lia. reflexivity. }
      destruct (Nat.le_gt_cases (length p) (length g)) as [L|L].
      + assert (X : g = p ++ skipn (length p) g).
        { rewrite <- (firstn_skipn (length p) g) at 1. f_equal.
          transitivity (firstn (length p) (g ++ concat gs)).
          - rewrite firstn_app. replace (length p - length g) with 0 by lia.
            rewrite app_nil_r. reflexivity.
          - rewrite Ec, firstn_app, Nat.sub_diag, firstn_all, app_nil_r. reflexivity. }
        apply (@runs_like_group_prefix (length pre) p (skipn (length p) g) []); auto; simpl.
        * congruence.
        * tauto.
      + assert (X : p = g ++ skipn (length g) p).
        { rewrite <- (firstn_skipn (length g) p) at 1. f_equal.
          transitivity (firstn (length g) (p ++ q)).
          - rewrite firstn_app. replace (length g - length p) with 0 by lia.
            rewrite app_nil_r. reflexivity.
          - rewrite <- Ec, firstn_app, Nat.sub_diag, firstn_all, app_nil_r. reflexivity. }
        rewrite X. eapply runs_like_app.
        * apply (@runs_like_group V fields behave sched WF (length pre) g []); auto; simpl; tauto.
        * intros st1 I1 C1. simpl in C1.
          apply (IH (pre ++ [g]) post) with (q := q); auto.
          -- rewrite <- app_assoc. exact E.
          -- rewrite app_length. simpl. lia.
          -- apply (app_inv_head g). rewrite Ec, app_assoc. congruence.
  Qed.

  Lemma start_prefix (st : state) args p q :
    Inv st -> concat sched = p ++ q ->
    let '(h, r) := compose (log st) p (given args) in
    let '(st', r') := run_stages (start st args) p in
    log st' = h /\ Inv st' /\
    match r, r' with
    | Ok e, Ok _ => env_eq (values st') e
    | Err x, Err y => x = y
    | _, _ => False
    end.
  Proof.
    intros I E.
    pose proof (@runs_like_prefix sched [] [] (start st args) p q
       (eq_sym (app_nil_r _)) (start_inv fields args I) eq_refl E) as H.
    unfold RunnerRun.runs_like in H.
    destruct (compose_ext fields behave p (log st) (start_values sched st args)) as [X1 X2].
    change (log (start st args)) with (log st) in H.
    destruct (compose (log st) p (values (start st args))) as [h r].
    destruct (compose (log st) p (given args)) as [h' r']. simpl in X1, X2. subst h'.
    destruct (run_stages (start st args) p) as [st' u].
    destruct H as (L & I' & A & G & H). do 2 (split; [auto|]).
    destruct r, r', u; simpl in X2; try contradiction; try congruence.
    destruct H as [E1 _]. intro n. rewrite E1. auto.
  Qed.

  (* ---------------------------------------------------------------- *)
  (** ** Generators *)

  Lemma with_gens_same (st : state) : with_gens st (gens st) = st.
  Proof. destruct st. reflexivity. Qed.
  Lemma gset_same (l : list (gen V)) k g : nth_error l k = Some g -> gset l k g = l.
  Proof.
    revert k. induction l as [|x l IH]; intros [|k] H; simpl in *; try discriminate; try congruence.
    f_equal. auto.
  Qed.
  Lemma gset_gset (l : list (gen V)) k g g' : gset (gset l k g) k g' = gset l k g'.
  Proof. revert k. induction l as [|x l IH]; intros [|k]; simpl; auto. f_equal; auto. Qed.
  Lemma gset_get (l : list (gen V)) k g : k < length l -> nth_error (gset l k g) k = Some g.
  Proof.
    revert k. induction l as [|x l IH]; intros [|k] H; simpl in *; auto; try lia. apply IH. lia.
  Qed.
  Lemma gset_length (l : list (gen V)) k g : length (gset l k g) = length l.
  Proof. revert k. induction l as [|x l IH]; intros [|k]; simpl; auto. Qed.

  Lemma progress_with_gens (st : state) gs :
    progress sched (with_gens st gs) = with_gens (progress sched st) gs.
  Proof.
    unfold progress. simpl. destruct (forallb _ _); auto.
    destruct (_ <=? _); auto.
  Qed.

  Lemma run_stage_with_gens (st : state) gs s kw :
    run_stage (with_gens st gs) s kw =
    (with_gens (fst (run_stage st s kw)) gs, snd (run_stage st s kw)).
  Proof.
    unfold RunnerModel.run_stage. destruct (schedule_index sched s) as [i|]; auto.
    change (cur (with_gens st gs)) with (cur st).
    destruct (cur st <? i); auto.
    replace (if i =? cur st then with_gens st gs else rollback sched (with_gens st gs) i)
      with (with_gens (if i =? cur st then st else rollback sched st i) gs)
      by (destruct (i =? cur st); reflexivity).
    set (st1 := if i =? cur st then st else rollback sched st i).
    cbn [with_gens heap avail log data cur ran gens].
    destruct (lookup_all _ (fields s)) as [inp|]; auto.
    destruct (behave (log st1) s inp) as [o|]; auto.
    cbn [fst snd]. rewrite <- progress_with_gens. reflexivity.
  Qed.

  Lemma run_stages_with_gens l : forall (st : state) gs,
    run_stages (with_gens st gs) l =
    (with_gens (fst (run_stages st l)) gs, snd (run_stages st l)).
  Proof.
    induction l as [|s l IH]; intros st gs; simpl; auto.
    rewrite run_stage_with_gens. destruct (run_stage st s []) as [st1 [o|e]]; simpl; auto.
  Qed.

  Lemma run_stages_app l1 : forall l2 (st : state),
    run_stages st (l1 ++ l2) =
    match run_stages st l1 with (st1, Ok _) => run_stages st1 l2 | (st1, Err e) => (st1, Err e) end.
  Proof.
    induction l1 as [|s l1 IH]; intros l2 st; simpl; auto.
    destruct (run_stage st s []) as [st1 [o|e]]; auto.
  Qed.

  (** what next() hands out for an execution *)
  Definition yielded (ev : event V) : res rerr (sid * dict V) :=
    Ok (ev_stage ev, match ev_out ev with Some o => o | None => [] end).

  Lemma run_stage_log (st : state) s kw st1 o :
    Inv st -> run_stage st s kw = (st1, Ok o) ->
    exists i, log st1 = log st ++ [{| ev_stage := s; ev_in := i; ev_out := Some o |}] /\
              gens st1 = gens st.
  Proof.
    intros I E. pose proof (@run_stage_spec V fields behave sched WF st s kw I) as H.
    destruct (schedule_index sched s) as [i|]; [|congruence].
    destruct H as [[_ H]|[_ H]]; [congruence|].
    destruct (read_fields _ (fields s)) as [inp|]; [|congruence].
    destruct (behave (log st) s inp) as [o'|].
    - destruct H as (st' & H & _ & _ & _ & _ & _ & G & L & _). rewrite H in E.
      injection E as <- <-. eauto.
    - destruct H as (st' & H & _). congruence.
  Qed.

  Lemma nexts_like l : forall (st : state) rest k st1,
    Inv st -> nth_error (gens st) k = Some (GRun V (l ++ rest)) ->
    run_stages st l = (st1, Ok tt) ->
    exists new, log st1 = log st ++ new /\ gens st1 = gens st /\
      nexts (length l) st k = (with_gens st1 (gset (gens st) k (GRun V rest)), map yielded new).
  Proof.
    induction l as [|s l IH]; intros st rest k st1 I G R.
    - simpl in *. injection R as <-. exists []. rewrite app_nil_r. split; auto. split; auto.
      rewrite gset_same by auto. rewrite with_gens_same. reflexivity.
    - simpl in R. destruct (run_stage st s []) as [sta [o|e]] eqn:E; [|discriminate].
      destruct (run_stage_log s [] I E) as (i & La & Ga).
      assert (Ia : Inv sta).
      { pose proof (run_stage_inv fields behave WF s [] I) as (X & _). rewrite E in X. exact X. }
      set (gs := gset (gens st) k (GRun V (l ++ rest))).
      assert (Hk : k < length (gens st)) by (apply nth_error_Some; congruence).
      destruct (IH (with_gens sta gs) rest k (with_gens st1 gs)) as (new & Ln & Gn & Hn).
      + apply with_gens_inv; auto.
      + simpl. apply gset_get. auto.
      + rewrite run_stages_with_gens, R. reflexivity.
      + exists ({| ev_stage := s; ev_in := i; ev_out := Some o |} :: new).
        simpl in Ln. split; [rewrite Ln, La, <- app_assoc; reflexivity|].
        split.
        * pose proof (run_stages_inv fields behave WF l Ia) as (_ & _ & X). rewrite R in X.
          simpl in X. congruence.
        * cbn [RunnerSpec.nexts length]. unfold RunnerModel.gen_next.
          rewrite G. simpl. rewrite E, Ga. fold gs. rewrite Hn. simpl.
          unfold gs. rewrite gset_gset. reflexivity.
  Qed.

  Lemma gen_start (st : state) k args :
    Inv st -> nth_error (gens st) k = Some (GNew args) ->
    gen_next st k =
      gen_next (with_gens (start st args) (gset (gens st) k (GRun V (concat sched)))) k.
  Proof.
    intros I G. assert (Hk : k < length (gens st)) by (apply nth_error_Some; congruence).
    unfold RunnerModel.gen_next. rewrite G. cbn [gens with_gens].
    rewrite gset_get by auto. unfold RunnerModel.gen_continue.
    destruct (concat sched) as [|s l].
    - simpl. rewrite gset_gset. reflexivity.
    - rewrite run_stage_with_gens. destruct (run_stage (start st args) s []) as [st1 [o|e]] eqn:E;
        cbn [fst snd with_gens gens].
      + destruct (run_stage_log s [] (start_inv fields args I) E) as (i & _ & ->).
        simpl. rewrite gset_gset. reflexivity.
      + pose proof (run_stage_inv fields behave WF s [] (start_inv fields args I)) as (_ & _ & X).
        rewrite E in X. simpl in X. rewrite X, gset_gset. reflexivity.
  Qed.

  (** state after starting generator [k] *)
  Lemma nexts_from_new (st : state) k args n :
    Inv st -> nth_error (gens st) k = Some (GNew args) ->
    nexts (S n) st k =
      nexts (S n) (with_gens (start st args) (gset (gens st) k (GRun V (concat sched)))) k.
  Proof.
    intros I G. cbn [RunnerSpec.nexts]. rewrite (gen_start k I G). reflexivity.
  Qed.

  Lemma compose_log_eq h l e h' e' :
    compose h l e = (h', Ok e') ->
    exists new, h' = h ++ new /\ map (@ev_stage V) new = l.
  Proof.
    intro E. destruct (compose_log fields behave l h e) as (new & L & _ & H).
    rewrite E in *. simpl in *. exists new. split; auto. apply (H e' eq_refl).
  Qed.

  (** the first [n] calls of next *)
  Lemma iter_prefix (st : state) k args p q h e :
    Inv st -> nth_error (gens st) k = Some (GNew args) ->
    p <> [] -> concat sched = p ++ q ->
    compose (log st) p (given args) = (h, Ok e) ->
    exists new st',
      h = log st ++ new /\ map (@ev_stage V) new = p /\
      nexts (length p) st k = (st', map yielded new) /\
      log st' = h /\ Inv st' /\ env_eq (values st') e /\
      nth_error (gens st') k = Some (GRun V q).
  Proof.
    intros I G Hp E Ec.
    assert (Hk : k < length (gens st)) by (apply nth_error_Some; congruence).
    destruct (compose_log_eq _ _ _ Ec) as (new & Hh & Hm).
    pose proof (@start_prefix st args p q I E) as H. rewrite Ec in H.
    destruct (run_stages (start st args) p) as [st1 [[]|x]] eqn:R;
      destruct H as (L & I1 & H); [|contradiction].
    set (gs := gset (gens st) k (GRun V (concat sched))).
    destruct (@nexts_like p (with_gens (start st args) gs) q k (with_gens st1 gs))
      as (new' & Ln & Gn & Hn).
    - apply with_gens_inv. apply start_inv; auto.
    - simpl. unfold gs. rewrite gset_get by auto. congruence.
    - rewrite run_stages_with_gens, R. reflexivity.
    - simpl in Ln. assert (new' = new).
      { apply (app_inv_head (log st)). congruence. }
      subst new'.
      exists new, (with_gens (with_gens st1 gs) (gset gs k (GRun V q))).
      split; auto. split; auto. split.
      + destruct p as [|s p]; [congruence|]. cbn [length].
        rewrite (nexts_from_new k (length p) I G). fold gs. exact Hn.
      + simpl. split; auto. split; [apply with_gens_inv, with_gens_inv; auto|]. split; auto.
        apply gset_get. unfold gs. rewrite gset_length. auto.
  Qed.

  (** at the end *)
  Lemma iter_end (st : state) k :
    nth_error (gens st) k = Some (GRun V []) ->
    gen_next st k = (with_gens st (gset (gens st) k (GDone V)), Err StopIteration).
  Proof. intro G. unfold RunnerModel.gen_next. rewrite G. reflexivity. Qed.

  Lemma iter_done (st : state) k :
    nth_error (gens st) k = Some (GDone V) -> gen_next st k = (st, Err StopIteration).
  Proof. intro G. unfold RunnerModel.gen_next. rewrite G. reflexivity. Qed.

  (* ---------------------------------------------------------------- *)
  (** ** Rerunning in single-assignment pipelines *)

  Section Single.
    Hypothesis Det : deterministic behave.
    Variable outs : sid -> list string.
    Hypothesis Houts : forall h s i o n, behave h s i = Some o -> given o n <> None -> In n (outs s).

    Lemma compose_det l : forall h1 h2 e, snd (compose h1 l e) = snd (compose h2 l e).
    Proof.
      induction l as [|s l IH]; intros h1 h2 e; simpl; auto.
      destruct (read_fields e (fields s)) as [i|]; auto.
      rewrite (Det h1 h2). destruct (behave h2 s i); simpl; auto.
    Qed.

    Lemma updated_keeps (e : env V) o n : given o n = None -> updated e o n = e n.
    Proof. unfold updated. intros ->. auto. Qed.

    (** names no stage of [l] outputs keep their value *)
    Lemma compose_keeps l : forall h e e' n,
      snd (compose h l e) = Ok e' -> (forall s, In s l -> ~ In n (outs s)) -> e' n = e n.
    Proof.
      induction l as [|s l IH]; intros h e e' n H Hn; simpl in H.
      - congruence.
      - destruct (read_fields e (fields s)) as [i|]; [|discriminate].
        destruct (behave h s i) as [o|] eqn:B; [|discriminate]. simpl in H.
        rewrite (IH _ _ _ n H) by (intros; apply Hn; simpl; auto).
        apply updated_keeps. destruct (given o n) eqn:X; auto. exfalso.
        apply (Hn s); simpl; auto. eapply Houts; eauto. congruence.
    Qed.

    (** a name with a value comes from the start or from an executed stage *)
    Lemma compose_source l : forall h e e' n,
      snd (compose h l e) = Ok e' -> e' n <> None ->
      e n <> None \/ exists s, In s l /\ In n (outs s).
    Proof.
      intros h e e' n H Hn.
      destruct (existsb (fun s => if in_dec string_dec n (outs s) then true else false) l) eqn:X.
      - apply existsb_exists in X. destruct X as (s & Hs & X).
        destruct (in_dec string_dec n (outs s)); [|discriminate]. eauto.
      - left. rewrite <- (compose_keeps l h e n H); auto. intros s Hs Ho.
        rewrite existsb_false_iff in X. specialize (X s Hs).
        destruct (in_dec string_dec n (outs s)); [discriminate|contradiction].
    Qed.

    Lemma single_stable (args : dict V) e :
      (forall s t n, In s (concat sched) -> In t (concat sched) ->
         In n (outs s) -> In n (outs t) -> s = t) ->
      (forall s n, In s (concat sched) -> In n (outs s) -> given args n = None) ->
      forall h, snd (compose h (concat sched) (given args)) = Ok e ->
      forall s, In s (concat sched) ->
        exists i o, read_fields e (fields s) = Some i /\
          (forall h', behave h' s i = Some o) /\ env_eq (updated e o) e /\
          In {| ev_stage := s; ev_in := i; ev_out := Some o |}
             (fst (compose h (concat sched) (given args))).
    Proof.
      intros Hsa Hin h He s Hs.
      destruct (in_split s (concat sched) Hs) as (p1 & p2 & Ep).
      assert (Hnd : NoDup (concat sched)) by apply WF.
      rewrite Ep in He |- *. rewrite compose_app in He |- *.
      destruct (compose h p1 (given args)) as [h1 [e1|x]] eqn:E1; [|discriminate].
      cbn [RunnerSpec.compose] in He |- *.
      destruct (read_fields e1 (fields s)) as [i|] eqn:R; [|discriminate].
      destruct (behave h1 s i) as [o|] eqn:B; [|discriminate].
      exists i, o.
      assert (Hin1 : forall t, In t p1 -> In t (concat sched)) by
        (intros; rewrite Ep; apply in_or_app; auto).
      assert (Hin2 : forall t, In t p2 -> In t (concat sched)) by
        (intros; rewrite Ep; apply in_or_app; simpl; auto).
      rewrite Ep in Hnd. apply NoDup_remove in Hnd. destruct Hnd as [Hnd Hns].
      (* names read by s are not written by s or later stages *)
      assert (K : forall n, e1 n <> None -> ~ In n (outs s) /\ forall t, In t p2 -> ~ In n (outs t)).
      { intros n Hn.
        assert (S1 : snd (compose h p1 (given args)) = Ok e1) by (rewrite E1; auto).
        destruct (compose_source p1 h (given args) n S1 Hn) as [Hg|(u & Hu & Hou)].
        - split; [intro Ho; apply Hg; apply (Hin s n); auto|].
          intros t Ht Ho; apply Hg; apply (Hin t n); auto.
        - split; [intro Ho|intros t Ht Ho].
          + assert (s = u) by (eapply (Hsa s u n); eauto). subst u. apply Hns. apply in_or_app; auto.
          + assert (t = u) by (eapply (Hsa t u n); eauto). subst u.
            apply in_split in Hu. destruct Hu as (a & b & ->).
            rewrite <- app_assoc in Hnd. simpl in Hnd. apply NoDup_remove_2 in Hnd. apply Hnd.
            apply in_or_app. right. apply in_or_app. auto. }
      split; [|split; [|split]].
      - rewrite <- R. apply read_fields_ext. intros n Hn.
        pose proof (read_fields_some _ _ R n Hn) as Hv. destruct (K n Hv) as [K1 K2].
        rewrite (compose_keeps p2 _ _ n He K2).
        apply updated_keeps. destruct (given o n) eqn:X; auto. exfalso. apply K1.
        eapply Houts; eauto. congruence.
      - intro h'. rewrite (Det h' h1). auto.
      - intro n. unfold updated. destruct (given o n) as [v|] eqn:X; auto.
        assert (Ho : In n (outs s)) by (eapply Houts; eauto; congruence).
        rewrite (compose_keeps p2 _ _ n He).
        + unfold updated. rewrite X. auto.
        + intros t Ht Hot. assert (s = t) by (eapply (Hsa s t n); eauto). subst t.
          apply Hns. apply in_or_app; auto.
      - match goal with |- In ?ev (fst (compose ?hh p2 ?ee)) =>
          destruct (compose_log fields behave p2 hh ee) as (new & L & _) end.
        rewrite L. apply in_or_app. left. apply in_or_app. right. left. reflexivity.
    Qed.

    (** the event belongs to this run *)
    Lemma single_stable_new (args : dict V) e :
      (forall s t n, In s (concat sched) -> In t (concat sched) ->
         In n (outs s) -> In n (outs t) -> s = t) ->
      (forall s n, In s (concat sched) -> In n (outs s) -> given args n = None) ->
      forall h, snd (compose h (concat sched) (given args)) = Ok e ->
      forall s, In s (concat sched) ->
        exists i o, read_fields e (fields s) = Some i /\
          (forall h', behave h' s i = Some o) /\
          exists new, fst (compose h (concat sched) (given args)) = h ++ new /\
            In {| ev_stage := s; ev_in := i; ev_out := Some o |} new.
    Proof.
      intros Hsa Hin h He s Hs.
      (* by determinism the run is the same from an empty history *)
      assert (K : forall l h1 e1, exists new, fst (compose h1 l e1) = h1 ++ new /\
                    forall h2, fst (compose h2 l e1) = h2 ++ new).
      { clear -Det. induction l as [|s l IH]; intros h1 e1; simpl.
        - exists []. rewrite app_nil_r. split; auto. intro. rewrite app_nil_r. auto.
        - destruct (read_fields e1 (fields s)) as [i|]; simpl.
          2:{ exists []. rewrite app_nil_r. split; auto. intro. rewrite app_nil_r. auto. }
          destruct (behave h1 s i) as [o|] eqn:B.
          + destruct (IH (h1 ++ [{| ev_stage := s; ev_in := i; ev_out := Some o |}]) (updated e1 o))
              as (new & E & H).
            exists ({| ev_stage := s; ev_in := i; ev_out := Some o |} :: new).
            rewrite E, <- app_assoc. split; auto. intro h2. rewrite (Det h2 h1), B, H, <- app_assoc. auto.
          + exists [{| ev_stage := s; ev_in := i; ev_out := None |}]. split; auto.
            intro h2. rewrite (Det h2 h1), B. auto. }
      destruct (K (concat sched) h (given args)) as (new & E & H).
      rewrite (compose_det _ h []) in He.
      destruct (@single_stable args e Hsa Hin [] He s Hs) as (i & o & R & B & _ & X).
      exists i, o. split; auto. split; auto. exists new. split; auto. rewrite H in X. exact X.
    Qed.

    Lemma rerun_stable (e : env V) (st : state) s i o kw :
      Inv st -> kw = [] -> env_eq (values st) e ->
      read_fields e (fields s) = Some i -> (forall h', behave h' s i = Some o) ->
      env_eq (updated e o) e ->
      let '(st', r) := run_stage st s kw in
      Inv st' /\ env_eq (values st') e /\
      (r = Ok o \/ r = Err StageRunningError \/ r = Err KeyError /\ ~ In s (concat sched)).
    Proof.
      intros I -> Ev R B U.
      pose proof (@run_stage_spec V fields behave sched WF st s [] I) as H.
      destruct (schedule_index sched s) as [k|] eqn:Es.
      - destruct H as [[_ ->]|[_ H]]; auto.
        rewrite (read_fields_ext (updated (values st) []) e) in H by (intros; apply Ev).
        rewrite R, B in H. destruct H as (st' & -> & I' & A & Hs & _).
        split; auto. split; auto. intro n. unfold values. rewrite A, Hs, dget_dupdate.
        rewrite <- (U n). unfold updated. destruct (given o n); auto. apply Ev.
      - apply schedule_index_none in Es. rewrite H. auto 8.
    Qed.
  End Single.

  (* ---------------------------------------------------------------- *)
  (** ** Types *)

  Section Types.
    Variable T : Type.
    Variable has_type : V -> T -> Prop.
    Variable ty : string -> T.

    Definition well_typed (l : dict V) : Prop := forall n v, In (n, v) l -> has_type v (ty n).
    Definition typed_op (o : op V) : Prop :=
      match o with
      | RunStage _ kw => well_typed kw
      | RunAll a | RunUntil _ a | RunIter a => well_typed a
      | _ => True
      end.
    Hypothesis Hstage : forall h s i o, behave h s i = Some o -> well_typed i -> well_typed o.

    Definition typed_event (ev : event V) : Prop :=
      well_typed (ev_in ev) /\ match ev_out ev with Some o => well_typed o | None => True end.
    Definition typed_gen (g : gen V) : Prop := match g with GNew a => well_typed a | _ => True end.
    Definition typed_state (st : state) : Prop :=
      (forall n v, values st n = Some v -> has_type v (ty n)) /\
      (forall ev, In ev (log st) -> typed_event ev) /\
      (forall g, In g (gens st) -> typed_gen g).

    Lemma given_in (l : dict V) n v : given l n = Some v -> In (n, v) l.
    Proof.
      induction l as [|[k w] t IH]; simpl; [discriminate|].
      destruct (given t n) eqn:E.
      - intro H. right. auto.
      - destruct (String.eqb_spec k n) as [->|]; [|discriminate]. intro H. injection H as ->. auto.
    Qed.

    Lemma read_fields_typed (e : env V) names i :
      (forall n v, e n = Some v -> has_type v (ty n)) -> read_fields e names = Some i -> well_typed i.
    Proof.
      intro He. revert i. induction names as [|m t IH]; simpl; intros i H.
      - injection H as <-. intros n v [].
      - destruct (e m) eqn:E; [|discriminate]. destruct (read_fields e t) eqn:R; [|discriminate].
        injection H as <-. intros n v' [X|X].
        + injection X as -> ->. auto.
        + eapply IH; eauto.
    Qed.

    Lemma updated_typed (e : env V) o :
      (forall n v, e n = Some v -> has_type v (ty n)) -> well_typed o ->
      forall n v, updated e o n = Some v -> has_type v (ty n).
    Proof.
      intros He Ho n v. unfold updated. destruct (given o n) eqn:E; auto.
      intro H. injection H as ->. apply Ho. apply given_in. auto.
    Qed.

    Lemma run_stage_typed (st : state) s kw :
      Inv st -> typed_state st -> well_typed kw ->
      typed_state (fst (run_stage st s kw)).
    Proof.
      intros I Ts Hkw. pose proof Ts as (T1 & T2 & T3).
      pose proof (@run_stage_spec V fields behave sched WF st s kw I) as H.
      destruct (schedule_index sched s) as [i|]; [|rewrite H; exact Ts].
      destruct H as [[_ ->]|[L H]]; [exact Ts|].
      destruct (read_fields (updated (values st) kw) (fields s)) as [inp|] eqn:R.
      - assert (Ti : well_typed inp) by (eapply read_fields_typed; [|exact R]; apply updated_typed; auto).
        destruct (behave (log st) s inp) as [o|] eqn:B.
        + assert (To : well_typed o) by eauto.
          destruct H as (st' & -> & I' & A & Hs & Ho & Hl & G & Lg & _). simpl.
          split; [|split].
          * intros n v. unfold values. rewrite A, Hs, dget_dupdate. apply (updated_typed (values st)); auto.
          * rewrite Lg. intros ev Hev. apply in_app_or in Hev. destruct Hev as [|[<-|[]]]; auto.
            split; auto.
          * rewrite G. auto.
        + destruct H as (st' & -> & I' & Hh & A & C & G & _ & _ & Lg). simpl.
          split; [|split].
          * intros n v. unfold values. rewrite A, Hh. apply T1.
          * rewrite Lg. intros ev Hev. apply in_app_or in Hev. destruct Hev as [|[<-|[]]]; auto.
            split; simpl; auto.
          * rewrite G. auto.
      - rewrite H. simpl. destruct (seek_spec fields WF I L) as (I1 & C1 & H1 & A1 & G1 & N1 & R1).
        unfold typed_state, values. rewrite A1, H1, G1, N1. auto.
    Qed.

    Lemma run_stages_typed l : forall (st : state),
      Inv st -> typed_state st -> typed_state (fst (run_stages st l)).
    Proof.
      induction l as [|s l IH]; intros st I Ts; simpl; auto.
      assert (Ts1 : typed_state (fst (run_stage st s []))) by (apply run_stage_typed; auto; intros n v []).
      pose proof (run_stage_inv fields behave WF s [] I) as (I1 & _).
      destruct (run_stage st s []) as [st1 [o|e]]; simpl in *; auto.
    Qed.

    Lemma start_typed (st : state) args :
      typed_state st -> well_typed args -> typed_state (start st args).
    Proof.
      intros (T1 & T2 & T3) Ha. split; [|split; auto].
      intros n v. rewrite start_values. intro H. apply Ha. apply given_in. auto.
    Qed.

    Lemma in_gset (l : list (gen V)) k g x : In x (gset l k g) -> x = g \/ In x l.
    Proof.
      revert k. induction l as [|y l IH]; intros [|k]; simpl; auto.
      - intros [->|?]; auto.
      - intros [->|H]; auto. apply IH in H. tauto.
    Qed.

    Lemma gen_continue_typed (st : state) k rest :
      Inv st -> typed_state st -> typed_state (fst (gen_continue st k rest)).
    Proof.
      intros I Ts. unfold RunnerModel.gen_continue. destruct rest as [|s t].
      - simpl. destruct Ts as (T1 & T2 & T3). split; [|split]; auto.
        simpl. intros g Hg. apply in_gset in Hg. destruct Hg as [->|]; simpl; auto.
      - assert (Ts1 : typed_state (fst (run_stage st s []))) by (apply run_stage_typed; auto; intros n v []).
        destruct (run_stage st s []) as [st1 [o|e]]; simpl in *; destruct Ts1 as (T1 & T2 & T3);
          (split; [|split]; auto; simpl; intros g Hg; apply in_gset in Hg; destruct Hg as [->|]; simpl; auto).
    Qed.

    Lemma step_typed (st : state) o :
      Inv st -> typed_state st -> typed_op o -> typed_state (fst (step st o)).
    Proof.
      intros I Ts To. destruct o as [s kw|args|s args|args|k|]; simpl in *.
      - pose proof (run_stage_typed s I Ts To) as H. destruct (run_stage st s kw) as [? []]; auto.
      - pose proof (run_stages_typed (concat sched) (start_inv fields args I) (start_typed Ts To)) as H.
        unfold RunnerModel.run_all. destruct (run_stages _ _) as [? []]; auto.
      - pose proof (run_stages_typed (concat (groups_until s sched)) (start_inv fields args I) (start_typed Ts To)) as H.
        unfold RunnerModel.run_until. destruct (run_stages _ _) as [? []]; auto.
      - destruct Ts as (T1 & T2 & T3). split; [|split]; auto. simpl. intros g Hg.
        apply in_app_or in Hg. destruct Hg as [|[<-|[]]]; auto.
      - unfold RunnerModel.gen_next. destruct (nth_error (gens st) k) as [[a|r|]|] eqn:E; simpl; auto.
        + assert (Ha : well_typed a) by (apply nth_error_In in E; apply Ts in E; exact E).
          pose proof (gen_continue_typed k (concat sched) (start_inv fields a I) (start_typed Ts Ha)) as H.
          destruct (gen_continue _ _ _) as [? [[]|]]; auto.
        + pose proof (gen_continue_typed k r I Ts) as H.
          destruct (gen_continue _ _ _) as [? [[]|]]; auto.
      - auto.
    Qed.

    Lemma steps_typed ops : (forall o, In o ops -> typed_op o) ->
      typed_state (steps (fresh_runner V) ops).
    Proof.
      assert (H : forall st, Inv st -> typed_state st -> (forall o, In o ops -> typed_op o) ->
                  typed_state (steps st ops)).
      { induction ops as [|o ops IH]; intros st I Ts To; simpl; auto.
        apply IH.
        - apply step_inv; auto.
        - apply step_typed; auto. apply To. simpl; auto.
        - intros o' Ho. apply To. simpl; auto. }
      intro To. apply H; auto.
      - apply fresh_inv.
      - split; [|split]; simpl; try tauto. unfold values. simpl. discriminate.
    Qed.
  End Types.
End More.
