(** The lemmas cited by RunnerProps.v. *)
From Verif Require Import Base BaseLemmas BuilderModel BuilderSpec BuilderProofs BuilderSim
     RunnerModel RunnerSpec RunnerProofs RunnerRun RunnerMore RunnerPipeline.
Set Implicit Arguments.
Local Arguments firstn : simpl never.
Local Arguments skipn : simpl never.

Section End_.
  Variable V : Type.
  Variable fields : sid -> list string.
  Variable behave : list (event V) -> sid -> dict V -> option (dict V).
  Variable sched : list (list sid).
  Hypothesis WF : well_formed sched.

  Notation run_stage := (run_stage fields behave sched).
  Notation run_stages := (run_stages fields behave sched).
  Notation run_all := (run_all fields behave sched).
  Notation run_until := (run_until fields behave sched).
  Notation gen_next := (gen_next fields behave sched).
  Notation nexts := (nexts fields behave sched).
  Notation start := (start sched).
  Notation step := (step fields behave sched).
  Notation steps := (steps fields behave sched).
  Notation state := (rstate V).
  Notation compose := (compose fields behave).
  Notation Inv := (Inv sched).

  Lemma run_all_is_composition (st : state) args : Inv st ->
    match snd (compose (log st) (concat sched) (given args)), run_all st args with
    | Ok e, (st', Ok d) => forall n, dget (content st' d) n = e n
    | Err x, (_, Err y) => x = y
    | _, _ => False
    end.
  Proof.
    intro I. pose proof (@run_all_compose V fields behave sched WF st args I) as H.
    destruct (compose (log st) (concat sched) (given args)) as [h [e|x]]; simpl;
      destruct (run_all st args) as [st' [d|y]]; destruct H as (_ & _ & H); try contradiction; auto.
    destruct H as (-> & _ & E & _). exact E.
  Qed.

  Lemma run_all_forgets (Det : deterministic behave) (st : state) args : Inv st ->
    match run_all st args, run_all (fresh_runner V) args with
    | (st1, Ok d1), (st2, Ok d2) => forall n, dget (content st1 d1) n = dget (content st2 d2) n
    | (_, Err x), (_, Err y) => x = y
    | _, _ => False
    end.
  Proof.
    intro I. pose proof (run_all_is_composition args I) as H1.
    pose proof (run_all_is_composition args (fresh_inv V sched)) as H2.
    rewrite (compose_det fields Det (concat sched) (log (fresh_runner V)) (log st)) in H2.
    destruct (snd (compose (log st) (concat sched) (given args)));
      destruct (run_all st args) as [st1 [d1|x1]]; destruct (run_all (fresh_runner V) args) as [st2 [d2|x2]];
      try contradiction; try congruence.
  Qed.

  Lemma prerequisites (st : state) : Inv st ->
    forall before ev after, log st = before ++ ev :: after ->
    forall k, runs_in sched k (ev_stage ev) ->
    forall j t, j < k -> runs_in sched j t -> succeeded_in before t.
  Proof.
    intros I before ev after E k Hk j t Hj Ht.
    destruct (v_log I before ev after E) as (k' & Hk' & H).
    assert (k' = k) by (eapply (runs_in_unique WF); eauto). subst k'. eauto.
  Qed.

  Lemma refused (st : state) s kw k j t : Inv st ->
    runs_in sched k s -> j < k -> runs_in sched j t -> ~ succeeded_in (log st) t ->
    run_stage st s kw = (st, Err StageRunningError).
  Proof.
    intros I Hk Hj Ht N.
    pose proof (@run_stage_spec V fields behave sched WF st s kw I) as H.
    rewrite (proj2 (schedule_index_iff WF s k) Hk) in H.
    destruct H as [[_ H]|[L _]]; auto. exfalso. apply N.
    apply (v_ran_log I). apply (v_ran_before I) with (j := j); auto. lia.
  Qed.

  Lemma run_stage_ok (st : state) s kw st' o : Inv st ->
    run_stage st s kw = (st', Ok o) ->
    exists i,
      read_fields (fun n => match given kw n with Some v => Some v | None => values st n end)
                  (fields s) = Some i /\
      behave (log st) s i = Some o /\
      log st' = log st ++ [{| ev_stage := s; ev_in := i; ev_out := Some o |}] /\
      (forall n, values st' n = match given o n with Some v => Some v | None => values st n end).
  Proof.
    intros I E. pose proof (@run_stage_spec V fields behave sched WF st s kw I) as H.
    destruct (schedule_index sched s) as [i|]; [|congruence].
    destruct H as [[_ H]|[_ H]]; [congruence|].
    change (fun n => match given kw n with Some v => Some v | None => values st n end)
      with (updated (values st) kw).
    destruct (read_fields _ (fields s)) as [inp|]; [|congruence].
    destruct (behave (log st) s inp) as [o'|] eqn:B.
    - destruct H as (st1 & H & I1 & A & Hs & _ & _ & G & L & _). rewrite H in E.
      injection E as <- <-. exists inp. do 3 (split; [auto|]).
      intro n. unfold values. rewrite A, Hs, dget_dupdate. reflexivity.
    - destruct H as (st1 & H & _). congruence.
  Qed.

  Lemma run_stage_undoes_nothing (st : state) s kw st' o n v : Inv st ->
    run_stage st s kw = (st', Ok o) ->
    values st n = Some v -> given o n = None -> values st' n = Some v.
  Proof.
    intros I E Hv Ho. destruct (@run_stage_ok st s kw st' o I E) as (i & _ & _ & _ & H).
    rewrite H, Ho. auto.
  Qed.

  Lemma run_stage_missing (st : state) s kw k n : Inv st ->
    runs_in sched k s -> k <= cur st ->
    In n (fields s) -> given kw n = None -> values st n = None ->
    exists st', run_stage st s kw = (st', Err KeyError) /\
      log st' = log st /\ forall m, values st' m = values st m.
  Proof.
    intros I Hk Hc Hn Hkw Hv.
    pose proof (@run_stage_spec V fields behave sched WF st s kw I) as H.
    rewrite (proj2 (schedule_index_iff WF s k) Hk) in H.
    destruct H as [[L _]|[L H]]; [lia|].
    destruct (read_fields (updated (values st) kw) (fields s)) as [inp|] eqn:R.
    - exfalso. apply (read_fields_some _ _ R n Hn). unfold updated. rewrite Hkw. auto.
    - destruct (seek_spec fields WF I L) as (I1 & C1 & H1 & A1 & G1 & N1 & R1).
      exists (seek sched st k). split; auto. split; auto. intro m. unfold values. rewrite H1, A1. auto.
  Qed.

  Lemma rerun_idempotent (Det : deterministic behave) outs
    (Houts : forall h s i o n, behave h s i = Some o -> given o n <> None -> In n (outs s))
    (st : state) args st1 d reruns : Inv st ->
    (forall s t n, In s (concat sched) -> In t (concat sched) ->
       In n (outs s) -> In n (outs t) -> s = t) ->
    (forall s n, In s (concat sched) -> In n (outs s) -> given args n = None) ->
    run_all st args = (st1, Ok d) ->
    let st2 := steps st1 (map (fun s => RunStage s []) reruns) in
    (forall n, values st2 n = values st1 n) /\
    (forall s, In s (concat sched) ->
       exists i o,
         In {| ev_stage := s; ev_in := i; ev_out := Some o |} (skipn (length (log st)) (log st1)) /\
         (snd (run_stage st2 s []) = Ok o \/ snd (run_stage st2 s []) = Err StageRunningError) /\
         snd (run_stage st1 s []) = Ok o).
  Proof.
    intros I Hsa Hin E.
    pose proof (@run_all_compose V fields behave sched WF st args I) as H. rewrite E in H.
    destruct (compose (log st) (concat sched) (given args)) as [h [e|x]] eqn:C;
      destruct H as (L & I1 & H); [|contradiction].
    destruct H as (Ed & _ & Ev & Cu).
    assert (He : snd (compose (log st) (concat sched) (given args)) = Ok e) by (rewrite C; auto).
    pose proof (@single_stable V fields behave sched WF Det outs Houts args e Hsa Hin (log st) He) as S.
    (* reruns *)
    assert (K : forall l (st0 : state), Inv st0 -> env_eq (values st0) e ->
              Inv (steps st0 (map (fun s => RunStage s []) l)) /\
              env_eq (values (steps st0 (map (fun s => RunStage s []) l))) e).
    { induction l as [|s l IH]; intros st0 I0 E0; simpl; auto.
      apply IH.
      - pose proof (run_stage_inv fields behave WF s [] I0) as (X & _).
        destruct (run_stage st0 s []) as [? []]; auto.
      - destruct (in_dec Nat.eq_dec s (concat sched)) as [Hs|Hs].
        + destruct (S s Hs) as (i & o & R & B & U & _).
          pose proof (@rerun_stable V fields behave sched WF e st0 s i o [] I0 eq_refl E0 R B U) as X.
          destruct (run_stage st0 s []) as [st0' [o'|e']]; simpl; tauto.
        + pose proof (@run_stage_spec V fields behave sched WF st0 s [] I0) as X.
          rewrite (proj2 (schedule_index_none sched s) Hs) in X. rewrite X. auto. }
    destruct (K reruns st1 I1 Ev) as [I2 E2].
    split; [intro n; simpl; rewrite E2, Ev; auto|].
    intros s Hs. destruct (S s Hs) as (i & o & R & B & U & Hl). exists i, o.
    split; [|split].
    - rewrite C in Hl. simpl in Hl. rewrite L.
      destruct (compose_log fields behave (concat sched) (log st) (given args)) as (new & Ln & _).
      rewrite C in Ln. simpl in Ln. rewrite Ln in Hl |- *.
      rewrite skipn_app, skipn_all, Nat.sub_diag. simpl. rewrite skipn_O.
      (* the event of this run: redo with its own position *)
      destruct (@single_stable_new V fields behave sched WF Det outs Houts args e Hsa Hin (log st) He s Hs)
        as (i' & o' & R' & B' & new' & Ln' & Hnew).
      rewrite C in Ln'. simpl in Ln'. rewrite Ln in Ln'. apply app_inv_head in Ln'. subst new'.
      assert (i' = i) by congruence. subst i'. specialize (B []). specialize (B' []).
      assert (o' = o) by congruence. subst o'. exact Hnew.
    - pose proof (@rerun_stable V fields behave sched WF e _ s i o [] I2 eq_refl E2 R B U) as X.
      destruct (run_stage _ s []) as [st3 r]. simpl. tauto.
    - pose proof (@rerun_stable V fields behave sched WF e _ s i o [] I1 eq_refl Ev R B U) as X.
      destruct (run_stage st1 s []) as [st3 r] eqn:E3. simpl. destruct X as (_ & _ & [->|[->|[_ X]]]);
        [auto| |contradiction].
      exfalso. pose proof (@run_stage_spec V fields behave sched WF st1 s [] I1) as X.
      apply in_concat in Hs. destruct Hs as (g & Hg & Hs). apply In_nth_error in Hg. destruct Hg as [k Hk].
      assert (Hr : runs_in sched k s) by (exists g; auto).
      rewrite (proj2 (schedule_index_iff WF s k) Hr) in X.
      assert (k < length sched) by (apply nth_error_Some; congruence).
      destruct X as [[X _]|[_ X]]; [lia|].
      rewrite (read_fields_ext (updated (values st1) []) e) in X by (intros; apply Ev).
      rewrite R, B in X. destruct X as (st' & X & _). congruence.
  Qed.

  Lemma run_stage_failed (st : state) s kw st' : Inv st ->
    run_stage st s kw = (st', Err StageFailed) ->
    (forall n, values st' n = values st n) /\
    (forall a, content st' a = content st a) /\
    (runs_in sched (cur st) s ->
       heap st' = heap st /\ avail st' = avail st /\ data st' = data st /\ cur st' = cur st /\
       ran st' = ran st /\ gens st' = gens st) /\
    (forall i, read_fields (updated (values st) kw) (fields s) = Some i ->
       match behave (log st') s i with
       | Some o => snd (run_stage st' s kw) = Ok o
       | None => snd (run_stage st' s kw) = Err StageFailed
       end).
  Proof.
    intros I E. pose proof (@run_stage_spec V fields behave sched WF st s kw I) as H.
    destruct (schedule_index sched s) as [k|] eqn:Es; [|congruence].
    destruct H as [[_ H]|[Lk H]]; [congruence|].
    destruct (read_fields (updated (values st) kw) (fields s)) as [inp|] eqn:R; [|congruence].
    destruct (behave (log st) s inp) as [o'|] eqn:B.
    - destruct H as (st1 & H & _). congruence.
    - destruct H as (st1 & H & I1 & Hh & A & C & G & Rn & Dt & L). rewrite H in E. injection E as <-.
      assert (Hv : forall n, values st1 n = values st n) by (intro n; unfold values; congruence).
      split; auto. split; [intro a; unfold content; congruence|]. split.
      + intro Hr. apply (schedule_index_iff WF) in Hr. assert (Ek : k = cur st) by congruence. rewrite Ek in *.
        assert (X : seek sched st (cur st) = st) by (unfold seek; rewrite Nat.eqb_refl; auto).
        rewrite Rn, Dt, X. auto 10.
      + intros i Hi. injection Hi as <-.
        pose proof (@run_stage_spec V fields behave sched WF st1 s kw I1) as X. rewrite Es in X.
        destruct X as [[X _]|[_ X]]; [lia|].
        rewrite (read_fields_ext (updated (values st1) kw) (updated (values st) kw)), R in X
          by (intros; unfold updated; rewrite Hv; auto).
        destruct (behave (log st1) s inp) as [o|]; destruct X as (st2 & -> & _); auto.
  Qed.

  Lemma groups_until_index s : forall l k, NoDup (concat l) -> runs_in l k s -> groups_until s l = firstn k l.
  Proof.
    induction l as [|g l IH]; intros k N (g' & E & H).
    - destruct k; discriminate.
    - simpl. destruct (smem s g) eqn:X.
      + apply mem_true in X. destruct k; auto. exfalso. simpl in E.
        simpl in N. apply nth_error_In in E.
        assert (In s (concat l)) by (apply in_concat; eauto).
        revert N X H0. clear. induction g as [|y g IH]; simpl; [tauto|].
        intros N [->|Hx] Hc; inversion N; subst; auto. apply H1. apply in_or_app; auto.
      + destruct k.
        * simpl in E. injection E as ->. apply (mem_true Nat.eq_dec) in H. unfold smem in X. congruence.
        * simpl in E. rewrite firstn_cons. f_equal. apply IH; [|exists g'; auto].
          simpl in N. clear -N. induction g as [|y g IH]; auto. inversion N; auto.
  Qed.

  Lemma groups_until_all s l : ~ In s (concat l) -> groups_until s l = l.
  Proof.
    induction l as [|g l IH]; simpl; intro N; auto.
    destruct (smem s g) eqn:X.
    - apply mem_true in X. exfalso. apply N. apply in_or_app; auto.
    - f_equal. apply IH. intro. apply N. apply in_or_app; auto.
  Qed.

  Lemma run_until_is_prefix (st : state) s args : Inv st ->
    forall stages,
      (exists k, runs_in sched k s /\ stages = concat (firstn k sched)) \/
      (~ In s (concat sched) /\ stages = concat sched) ->
    let '(h, r) := compose (log st) stages (given args) in
    let '(st', r') := run_until st s args in
    log st' = h /\
    match r, r' with
    | Ok e, Ok d => forall n, dget (content st' d) n = e n
    | Err x, Err y => x = y
    | _, _ => False
    end.
  Proof.
    intros I stages Hs.
    assert (X : stages = concat (groups_until s sched)).
    { destruct Hs as [(k & Hk & ->)|[N ->]].
      - rewrite (@groups_until_index s sched k); auto. apply WF.
      - rewrite groups_until_all; auto. }
    subst stages.
    pose proof (@run_until_compose V fields behave sched WF st s args I) as H.
    destruct (compose (log st) (concat (groups_until s sched)) (given args)) as [h [e|x]];
      destruct (run_until st s args) as [st' [d|y]]; destruct H as (L & _ & H); split; auto;
      try contradiction.
    destruct H as (-> & _ & E & _). exact E.
  Qed.

  Lemma groups_until_without s l : ~ In s (concat (groups_until s l)).
  Proof.
    induction l as [|g l IH]; simpl; [tauto|]. destruct (smem s g) eqn:X; simpl; [tauto|].
    intro H. apply in_app_or in H. destruct H as [H|H]; auto.
    apply (mem_true Nat.eq_dec) in H. unfold smem in X. congruence.
  Qed.

  Lemma run_until_not_run (st : state) s args : Inv st ->
    exists new, log (fst (run_until st s args)) = log st ++ new /\
      forall ev, In ev new -> ev_stage ev <> s.
  Proof.
    intro I. pose proof (@run_until_compose V fields behave sched WF st s args I) as H.
    destruct (compose_log fields behave (concat (groups_until s sched)) (log st) (given args)) as (new & L & Hn & _).
    destruct (compose (log st) (concat (groups_until s sched)) (given args)) as [h r].
    destruct (run_until st s args) as [st' r']. destruct H as (E & _). simpl in *.
    exists new. split; [congruence|]. intros ev Hev Hs. apply Hn in Hev. rewrite Hs in Hev.
    apply groups_until_without in Hev. auto.
  Qed.

  Lemma run_iter_pure (st : state) args :
    let '(st0, k) := run_iter st args in
    heap st0 = heap st /\ avail st0 = avail st /\ data st0 = data st /\ cur st0 = cur st /\
    ran st0 = ran st /\ log st0 = log st /\
    nth_error (gens st0) k = Some (GNew args) /\
    (forall j, j < length (gens st) -> nth_error (gens st0) j = nth_error (gens st) j).
  Proof.
    unfold run_iter. simpl. do 6 (split; [auto|]). split.
    - rewrite nth_error_app2, Nat.sub_diag by lia. reflexivity.
    - intros j Hj. rewrite nth_error_app1; auto.
  Qed.

  Lemma iter_items (st : state) args k n h e : Inv st ->
    nth_error (gens st) k = Some (GNew args) ->
    0 < n <= length (concat sched) ->
    compose (log st) (firstn n (concat sched)) (given args) = (h, Ok e) ->
    exists new st',
      h = log st ++ new /\ map (@ev_stage V) new = firstn n (concat sched) /\
      nexts n st k =
        (st', map (fun ev => Ok (ev_stage ev, match ev_out ev with Some o => o | None => [] end)) new) /\
      log st' = h /\ (forall m, values st' m = e m) /\
      (n = length (concat sched) ->
         snd (gen_next st' k) = Err StopIteration /\
         (forall m, values (fst (gen_next st' k)) m = e m) /\
         exists st2 d, run_all st args = (st2, Ok d) /\ forall m, dget (content st2 d) m = e m).
  Proof.
    intros I G Hn C.
    assert (Ln : length (firstn n (concat sched)) = n) by (rewrite firstn_length; lia).
    destruct (@iter_prefix V fields behave sched WF st k args (firstn n (concat sched))
                (skipn n (concat sched)) h e I G) as (new & st' & H1 & H2 & H3 & H4 & H5 & H6 & H7); auto.
    - intro X. rewrite X in Ln. simpl in Ln. lia.
    - symmetry. apply firstn_skipn.
    - rewrite Ln in H3. exists new, st'. do 5 (split; [auto|]).
      intro En. rewrite En, skipn_all in H7. rewrite (@iter_end V fields behave sched st' k H7).
      split; auto. split; [exact H6|].
      rewrite En, firstn_all in C.
      pose proof (run_all_is_composition args I) as X. rewrite C in X. simpl in X.
      destruct (run_all st args) as [st2 [d|]]; [|contradiction]. eauto.
  Qed.

  Lemma firstn_S_snoc A (l : list A) n : n < length l ->
    exists x rest, firstn (S n) l = firstn n l ++ [x] /\ skipn n l = x :: rest.
  Proof.
    revert n. induction l as [|a l IH]; intros n Hn; simpl in Hn; [lia|].
    destruct n.
    - exists a, l. split; reflexivity.
    - destruct (IH n) as (x & rest & E1 & E2); [lia|]. exists x, rest.
      rewrite (firstn_cons (S n)), (firstn_cons n), E1. split; auto.
  Qed.

  (** a generator whose next stage fails *)
  Lemma gen_fails (st : state) k s t x : k < length (gens st) -> Inv st ->
    nth_error (gens st) k = Some (GRun V (s :: t)) ->
    snd (run_stage st s []) = Err x ->
    let '(st2, r) := gen_next st k in
    r = Err x /\ log st2 = log (fst (run_stage st s [])) /\ gen_next st2 k = (st2, Err StopIteration).
  Proof.
    intros Hk I G E. unfold RunnerModel.gen_next at 1. rewrite G. simpl.
    pose proof (run_stage_inv fields behave WF s [] I) as (_ & _ & X).
    destruct (run_stage st s []) as [st1 [o|y]]; simpl in *; [discriminate|].
    injection E as ->. split; auto. split; auto.
    unfold RunnerModel.gen_next. simpl. rewrite X, gset_get by auto. reflexivity.
  Qed.

  Lemma iter_failure (st : state) args k n e h h' x : Inv st ->
    nth_error (gens st) k = Some (GNew args) ->
    n < length (concat sched) ->
    compose (log st) (firstn n (concat sched)) (given args) = (h, Ok e) ->
    compose (log st) (firstn (S n) (concat sched)) (given args) = (h', Err x) ->
    let st1 := fst (nexts n st k) in
    let '(st2, r) := gen_next st1 k in
    r = Err x /\ log st2 = h' /\ gen_next st2 k = (st2, Err StopIteration).
  Proof.
    intros I G Hn C C'.
    assert (Hk : k < length (gens st)) by (apply nth_error_Some; congruence).
    destruct (@firstn_S_snoc _ (concat sched) n Hn) as (s & rest & E1 & E2).
    rewrite E1 in C'.
    (* the state in which the failing stage runs *)
    set (gs := gset (gens st) k (GRun V (concat sched))).
    assert (Hst : exists st1, Inv st1 /\ log st1 = h /\
              nth_error (gens st1) k = Some (GRun V (s :: rest)) /\
              gen_next (fst (nexts n st k)) k = gen_next st1 k /\
              run_stages (with_gens (start st args) gs) (firstn n (concat sched) ++ [s]) =
              (let '(st2, r) := run_stage (with_gens st1 gs) s [] in
               (st2, match r with Ok _ => Ok tt | Err y => Err y end))).
    { destruct n as [|n].
      - change (firstn 0 (concat sched)) with (@nil sid) in *. simpl in C. injection C as <- <-.
        change (skipn 0 (concat sched)) with (concat sched) in E2.
        exists (with_gens (start st args) gs). split; [apply with_gens_inv, (start_inv fields); auto|].
        split; auto. split; [simpl; unfold gs; rewrite gset_get by auto; congruence|].
        split; [simpl; rewrite (gen_start fields behave WF k I G); reflexivity|].
        simpl. rewrite !run_stage_with_gens.
        destruct (run_stage (start st args) s []) as [? []]; reflexivity.
      - assert (Ln : length (firstn (S n) (concat sched)) = S n) by (rewrite firstn_length; lia).
        destruct (@iter_prefix V fields behave sched WF st k args (firstn (S n) (concat sched))
                (skipn (S n) (concat sched)) h e I G) as (new & st' & H1 & H2 & H3 & H4 & H5 & H6 & H7); auto.
        + intro X. rewrite X in Ln. simpl in Ln. lia.
        + symmetry. apply firstn_skipn.
        + rewrite Ln in H3. exists st'. split; auto. split; auto. split; [congruence|].
          rewrite H3. split; auto.
          (* relate st' to run_stages *)
          pose proof (@start_prefix V fields behave sched WF st args (firstn (S n) (concat sched))
                 (skipn (S n) (concat sched)) I (eq_sym (firstn_skipn _ _))) as P.
          rewrite C in P.
          destruct (run_stages (start st args) (firstn (S n) (concat sched))) as [stp [[]|y]] eqn:Rp;
            destruct P as (Lp & Ip & P); [|contradiction].
          destruct (@nexts_like V fields behave sched WF (firstn (S n) (concat sched))
              (with_gens (start st args) gs) (skipn (S n) (concat sched)) k (with_gens stp gs))
            as (new' & Lx & Gx & Hx).
          * apply with_gens_inv, (start_inv fields); auto.
          * simpl. unfold gs. rewrite gset_get, firstn_skipn by auto. reflexivity.
          * rewrite run_stages_with_gens, Rp. reflexivity.
          * rewrite Ln in Hx. rewrite (nexts_from_new fields behave WF k n I G) in H3. fold gs in H3.
            rewrite Hx in H3. injection H3 as <- _. simpl.
            rewrite run_stages_app, run_stages_with_gens, Rp. simpl.
            rewrite !run_stage_with_gens. destruct (run_stage stp s []) as [? []]; reflexivity. }
    destruct Hst as (st1 & I1 & L1 & G1 & Eg & Er). simpl. rewrite Eg.
    (* the outcome of the longer prefix *)
    pose proof (@start_prefix V fields behave sched WF st args (firstn n (concat sched) ++ [s]) rest I) as P.
    rewrite C' in P.
    assert (Ec : concat sched = (firstn n (concat sched) ++ [s]) ++ rest).
    { rewrite <- app_assoc. simpl. rewrite <- E2, firstn_skipn. reflexivity. }
    specialize (P Ec). rewrite run_stages_with_gens in Er.
    destruct (run_stages (start st args) (firstn n (concat sched) ++ [s])) as [stp [[]|y]];
      destruct P as (Lp & Ip & P); [contradiction|]. subst y.
    rewrite run_stage_with_gens in Er. simpl in Er.
    destruct (run_stage st1 s []) as [st2 [o|y]] eqn:E3; simpl in Er; [injection Er; discriminate|].
    assert (Hy : x = y /\ log st2 = h').
    { injection Er. intros Q ? ? ? ? ? ?. split; [congruence|]. simpl in *. congruence. }
    destruct Hy as [<- Hl].
    assert (Hk1 : k < length (gens st1)) by (apply nth_error_Some; congruence).
    pose proof (@gen_fails st1 k s rest x Hk1 I1 G1) as Q. rewrite E3 in Q. specialize (Q eq_refl).
    destruct (gen_next st1 k) as [st4 r]. simpl in Q. rewrite <- Hl. exact Q.
  Qed.

  Lemma returned_addr (st : state) args st1 d : Inv st ->
    run_all st args = (st1, Ok d) \/ (exists u, run_until st u args = (st1, Ok d)) ->
    Inv st1 /\ d = avail st1.
  Proof.
    intros I [E|[u E]].
    - pose proof (@run_all_compose V fields behave sched WF st args I) as H. rewrite E in H.
      destruct (compose (log st) (concat sched) (given args)) as [h [e|x]];
        destruct H as (_ & I1 & H); [|contradiction]. tauto.
    - pose proof (@run_until_compose V fields behave sched WF st u args I) as H. rewrite E in H.
      destruct (compose (log st) _ (given args)) as [h [e|x]];
        destruct H as (_ & I1 & H); [|contradiction]. tauto.
  Qed.

  Lemma returned_live (st : state) args st1 d ops s kw st2 o : Inv st ->
    run_all st args = (st1, Ok d) \/ (exists u, run_until st u args = (st1, Ok d)) ->
    (forall pre op post, ops = pre ++ op :: post -> ~ starts_run (steps st1 pre) op) ->
    run_stage (steps st1 ops) s kw = (st2, Ok o) ->
    forall n v, given o n = Some v -> dget (content st2 d) n = Some v.
  Proof.
    intros I E Hops Hr n v Hg.
    destruct (@returned_addr st args st1 d I E) as [I1 ->].
    rewrite <- (@live_until_next_run V fields behave sched WF ops st1 I1 Hops).
    assert (I2 : Inv (steps st1 ops)) by (apply steps_inv; auto).
    destruct (@run_stage_ok _ _ _ _ _ I2 Hr) as (i & _ & _ & _ & H).
    pose proof (run_stage_inv fields behave WF s kw I2) as (_ & (A & _) & _).
    rewrite Hr in A. simpl in A. specialize (H n). rewrite Hg in H. unfold values in H. rewrite A in H.
    exact H.
  Qed.

  Lemma returned_frozen (st : state) args st1 d before op after : Inv st ->
    run_all st args = (st1, Ok d) \/ (exists u, run_until st u args = (st1, Ok d)) ->
    let st2 := steps st1 before in
    starts_run st2 op ->
    content (steps st2 (op :: after)) d = content st2 d.
  Proof.
    intros I E st2 Hs. destruct (@returned_addr st args st1 d I E) as [I1 ->].
    assert (I2 : Inv st2) by (apply steps_inv; auto).
    apply (@frozen_after_start V fields behave sched WF st2 op after); auto.
    assert (K : forall ops (s0 : state), Inv s0 -> length (heap s0) <= length (heap (steps s0 ops))).
    { induction ops as [|o ops IH]; intros s0 I0; simpl; auto.
      destruct (step_inv fields behave WF o I0) as (I0' & N & S).
      specialize (IH _ I0').
      destruct (starts_run_dec s0 o) as [D|D].
      - destruct (N D) as (L & A & _). lia.
      - destruct (S D) as (A & L & _). lia. }
    specialize (K before st1 I1). fold st2 in K. pose proof (v_avail I1). lia.
  Qed.

  Section Model.
    Variable M : Type.
    Variable conv : dict V -> option M.
    Variable inputs : dict V.
    Let after := ssteps fields behave sched conv inputs.

    Lemma model_not_run_iff' ops :
      snd (get_model conv (after (new_space V M) ops)) = Err SNotRun <->
      ~ exists pre post r d,
          ops = pre ++ SBuild V :: post /\
          run_all (runner (after (new_space V M) pre)) inputs = (r, Ok d).
    Proof.
      unfold after. rewrite not_run_iff. unfold completes. split; intros N X; apply N.
      - destruct X as (pre & post & r & d & E & H). eauto 10.
      - destruct X as (pre & post & E & r & d & H). eauto 10.
    Qed.

    Lemma model_cached' ops sp' m later :
      let sp := after (new_space V M) ops in
      get_model conv sp = (sp', Ok m) \/ space_build fields behave sched conv inputs sp = (sp', Ok m) ->
      snd (get_model conv (after sp' later)) = Ok m /\
      (snd (space_build fields behave sched conv inputs (after sp' later)) = Ok m \/
       exists e, snd (space_build fields behave sched conv inputs (after sp' later)) = Err (SRunner e)).
    Proof.
      intros sp H.
      assert (X : model sp' = Some m).
      { destruct H as [H|H]; [eapply get_model_ok|eapply build_ok]; eauto. }
      apply (@ssteps_cached V fields behave sched M conv inputs later) in X. fold after in X. split.
      - rewrite (get_model_cached conv _ X). auto.
      - pose proof (@build_cached V fields behave sched M conv inputs _ m X) as Y.
        destruct (space_build fields behave sched conv inputs (after sp' later)) as [sp2 [m'|e]]; simpl.
        + left. congruence.
        + right. destruct Y as [y ->]. eauto.
    Qed.
  End Model.
End End_.

Lemma model_not_run_iff V M fields behave sched (conv : dict V -> option M) inputs ops :
    let after := ssteps fields behave sched conv inputs (new_space V M) in
    snd (get_model conv (after ops)) = Err SNotRun <->
    ~ exists pre post r d,
        ops = pre ++ SBuild V :: post /\
        run_all fields behave sched (runner (after pre)) inputs = (r, Ok d).
Proof. apply model_not_run_iff'. Qed.
Lemma model_cached V M fields behave sched (conv : dict V -> option M) inputs ops sp' m later :
    let after := ssteps fields behave sched conv inputs in
    let sp := after (new_space V M) ops in
    get_model conv sp = (sp', Ok m) \/ space_build fields behave sched conv inputs sp = (sp', Ok m) ->
    snd (get_model conv (after sp' later)) = Ok m /\
    (snd (space_build fields behave sched conv inputs (after sp' later)) = Ok m \/
     exists e, snd (space_build fields behave sched conv inputs (after sp' later)) = Err (SRunner e)).
Proof. apply model_cached'. Qed.

Lemma types_respected V (has_type : V -> ptype -> Prop) D fields behave sched (ty : string -> ptype) ops :
    well_formed sched ->
    (forall s n t, In (n, t) (d_in D s) \/ In (n, t) (d_out D s) -> t = ty n) ->
    (forall h s i o, behave h s i = Some o ->
       (forall n v t, In (n, v) i -> In (n, t) (d_in D s) -> has_type v t) ->
       forall n v, In (n, v) o -> exists t, In (n, t) (d_out D s) /\ has_type v t) ->
    (forall o, In o ops -> typed_op has_type ty o) ->
    forall ev n v t,
      In ev (log (steps fields behave sched (fresh_runner V) ops)) ->
      In (n, v) (ev_in ev) -> In (n, t) (d_in D (ev_stage ev)) -> has_type v t.
Proof.
  intros WF H1 H2 H3 ev n v t Hev Hn Ht.
  assert (Hs : forall h s i o, behave h s i = Some o -> well_typed has_type ty i -> well_typed has_type ty o).
  { intros h s i o B Ti m w Hm.
    destruct (H2 h s i o B) with (n := m) (v := w) as (t' & Ho & Hw); auto.
    - intros m' w' t' Hi Hd. rewrite (H1 s m' t') by auto. apply Ti; auto.
    - rewrite <- (H1 s m t') by auto. auto. }
  destruct (@steps_typed V fields behave sched WF ptype has_type ty Hs ops H3) as (_ & T & _).
  destruct (T ev Hev) as [Ti _]. rewrite (H1 (ev_stage ev) n t) by auto. apply Ti. auto.
Qed.

Lemma given_one V k (v : V) n : given [(k, v)] n <> None -> In n [k].
Proof.
  cbn [given]. destruct (String.eqb_spec k n) as [->|]; [simpl; auto|congruence].
Qed.
