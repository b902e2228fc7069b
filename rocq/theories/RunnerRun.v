(** Consequences of the runner invariant: histories, composition, generators, aliasing. *)
From Verif Require Import Base BaseLemmas BuilderModel BuilderSpec BuilderProofs
     RunnerModel RunnerSpec RunnerProofs.
Set Implicit Arguments.
Local Arguments firstn : simpl never.
Local Arguments skipn : simpl never.

Section Run.
  Variable V : Type.
  Variable fields : sid -> list string.
  Variable behave : list (event V) -> sid -> dict V -> option (dict V).
  Variable sched : list (list sid).
  Hypothesis WF : well_formed sched.

  Notation run_stage := (run_stage fields behave sched).
  Notation run_stages := (run_stages fields behave sched).
  Notation run_all := (run_all fields behave sched).
  Notation run_until := (run_until fields behave sched).
  Notation gen_next := (gen_next fields behave sched).
  Notation gen_continue := (gen_continue fields behave sched).
  Notation start := (start sched).
  Notation step := (step fields behave sched).
  Notation steps := (steps fields behave sched).
  Notation state := (rstate V).
  Notation compose := (compose fields behave).
  Notation Inv := (Inv sched).
  Notation reachable := (reachable fields behave sched).

  (* ---------------------------------------------------------------- *)
  (** ** What a call may touch *)

  (** [st'] arises from [st] by calls that do not start a new run. *)
  Definition same_run (st st' : state) : Prop :=
    avail st' = avail st /\ length (heap st) <= length (heap st') /\
    (forall a, a <> avail st -> a < length (heap st) -> hget (heap st') a = hget (heap st) a).

  Lemma same_run_refl st : same_run st st.
  Proof. repeat split; auto. Qed.
  Lemma same_run_trans s1 s2 s3 : same_run s1 s2 -> same_run s2 s3 -> same_run s1 s3.
  Proof.
    intros (A1 & L1 & H1) (A2 & L2 & H2). split; [congruence|]. split; [lia|].
    intros a Ha La. rewrite H2, H1; auto; [congruence|lia].
  Qed.

  Lemma run_stage_inv st s kw : Inv st ->
    Inv (fst (run_stage st s kw)) /\ same_run st (fst (run_stage st s kw)) /\
    gens (fst (run_stage st s kw)) = gens st.
  Proof.
    intro I. pose proof (@run_stage_spec V fields behave sched WF st s kw I) as H.
    destruct (schedule_index sched s) as [i|].
    - destruct H as [[L ->]|[L H]]; [simpl; auto using same_run_refl|].
      destruct (read_fields _ (fields s)) as [inp|].
      + destruct (behave (log st) s inp) as [o|].
        * destruct H as (st' & -> & I' & A & Hs & Ho & Hl & G & _). simpl.
          split; auto. split; auto. repeat split; auto.
        * destruct H as (st' & -> & I' & Hh & A & C & G & _). simpl.
          split; auto. split; auto. unfold same_run. rewrite Hh. auto.
      + rewrite H. simpl. destruct (seek_spec fields WF I L) as (I1 & C1 & H1 & A1 & G1 & N1 & R1).
        split; auto. split; auto. unfold same_run. rewrite H1. auto.
    - rewrite H. simpl; auto using same_run_refl.
  Qed.

  Lemma run_stages_inv l : forall st, Inv st ->
    Inv (fst (run_stages st l)) /\ same_run st (fst (run_stages st l)) /\
    gens (fst (run_stages st l)) = gens st.
  Proof.
    induction l as [|s l IH]; intros st I; simpl; auto using same_run_refl.
    destruct (@run_stage_inv st s [] I) as (I1 & S1 & G1).
    destruct (run_stage st s []) as [st1 [o|e]]; simpl in *; auto.
    destruct (IH st1 I1) as (I2 & S2 & G2). split; auto.
    split; [eapply same_run_trans; eauto|congruence].
  Qed.

  (** a new run: every old dictionary is left alone and is no longer live *)
  Definition new_run (st st' : state) : Prop :=
    length (heap st) < length (heap st') /\ length (heap st) <= avail st' /\
    (forall a, a < length (heap st) -> hget (heap st') a = hget (heap st) a).

  Lemma start_new_run st args : new_run st (start st args).
  Proof.
    repeat split; simpl; rewrite ?app_length; simpl; try lia.
    intros a Ha. apply hget_app; auto.
  Qed.
  Lemma new_run_same st st1 st2 : new_run st st1 -> same_run st1 st2 -> new_run st st2.
  Proof.
    intros (L & A & H) (A2 & L2 & H2). split; [lia|]. split; [lia|].
    intros a Ha. rewrite H2, H; auto; lia.
  Qed.

  Lemma gen_continue_inv st k rest : Inv st ->
    Inv (fst (gen_continue st k rest)) /\ same_run st (fst (gen_continue st k rest)).
  Proof.
    intro I. unfold RunnerModel.gen_continue. destruct rest as [|s t].
    - simpl. split; [apply with_gens_inv; auto|]. repeat split; auto.
    - destruct (@run_stage_inv st s [] I) as (I1 & S1 & G1).
      destruct (run_stage st s []) as [st1 [o|e]]; simpl in *; split; auto;
        apply with_gens_inv; auto.
  Qed.

  Lemma step_inv st o : Inv st ->
    Inv (fst (step st o)) /\
    (starts_run st o -> new_run st (fst (step st o))) /\
    (~ starts_run st o -> same_run st (fst (step st o))).
  Proof.
    intro I. destruct o as [s kw|args|s args|args|k|]; simpl.
    - destruct (@run_stage_inv st s kw I) as (I1 & S1 & G1).
      destruct (run_stage st s kw) as [st1 [o|e]]; simpl in *; tauto.
    - destruct (@run_stages_inv (concat sched) _ (start_inv fields args I)) as (I1 & S1 & G1).
      unfold RunnerModel.run_all.
      destruct (run_stages (start st args) (concat sched)) as [st1 [o|e]]; simpl in *;
        (split; [auto|]; split; [intros _; exact (new_run_same (start_new_run st args) S1)|tauto]).
    - destruct (@run_stages_inv (concat (groups_until s sched)) _ (start_inv fields args I)) as (I1 & S1 & G1).
      unfold RunnerModel.run_until.
      destruct (run_stages (start st args) _) as [st1 [o|e]]; simpl in *;
        (split; [auto|]; split; [intros _; exact (new_run_same (start_new_run st args) S1)|tauto]).
    - split; [apply with_gens_inv; auto|]. split; [tauto|]. intros _. repeat split; auto.
    - unfold RunnerModel.gen_next.
      destruct (nth_error (gens st) k) as [[args|rest|]|] eqn:E; simpl.
      + destruct (@gen_continue_inv (start st args) k (concat sched) (start_inv fields args I)) as [I1 S1].
        destruct (gen_continue (start st args) k (concat sched)) as [st1 [[s o]|e]]; simpl in *;
          (split; [auto|]; split; [intros _; exact (new_run_same (start_new_run st args) S1)|
             intros N; exfalso; apply N; eauto]).
      + destruct (@gen_continue_inv st k rest I) as [I1 S1].
        destruct (gen_continue st k rest) as [st1 [[s o]|e]]; simpl in *;
          (split; [auto|]; split; [intros (a & X); congruence|auto]).
      + split; auto. split; [intros (a & X); congruence|]. intros _. apply same_run_refl.
      + split; auto. split; [intros (a & X); congruence|]. intros _. apply same_run_refl.
    - split; auto. split; [tauto|]. intros _. apply same_run_refl.
  Qed.

  Lemma starts_run_dec (st : state) o : starts_run st o \/ ~ starts_run st o.
  Proof.
    destruct o; simpl; auto. destruct (nth_error (gens st) k) as [[a|r|]|]; eauto;
      right; intros (x & X); discriminate.
  Qed.

  Lemma steps_inv ops : forall st, Inv st -> Inv (steps st ops).
  Proof.
    induction ops as [|o ops IH]; intros st I; simpl; auto. apply IH. apply step_inv; auto.
  Qed.

  Lemma reachable_inv st : reachable st -> Inv st.
  Proof. intros [ops ->]. apply steps_inv. apply fresh_inv. Qed.

  Lemma reachable_step st o : reachable st -> reachable (fst (step st o)).
  Proof.
    intros [ops ->]. exists (ops ++ [o]). unfold RunnerModel.steps. rewrite fold_left_app. auto.
  Qed.

  (** a dictionary that is no longer live never changes again *)
  Lemma frozen_steps ops : forall st a, Inv st -> a < length (heap st) -> a <> avail st ->
    hget (heap (steps st ops)) a = hget (heap st) a.
  Proof.
    induction ops as [|o ops IH]; intros st a I La Na; simpl; auto.
    destruct (@step_inv st o I) as (I1 & N1 & S1).
    assert (X : hget (heap (fst (step st o))) a = hget (heap st) a /\
                a < length (heap (fst (step st o))) /\ a <> avail (fst (step st o))).
    { destruct (starts_run_dec st o) as [D|D].
      - destruct (N1 D) as (L & A & H). split; auto. split; lia.
      - destruct (S1 D) as (A & L & H). split; auto. split; [lia|congruence]. }
    destruct X as (E & L & N). rewrite <- E. apply IH; auto.
  Qed.

  Lemma frozen_after_start st o ops a :
    Inv st -> starts_run st o -> a < length (heap st) ->
    hget (heap (steps st (o :: ops))) a = hget (heap st) a.
  Proof.
    intros I D La. simpl. destruct (@step_inv st o I) as (I1 & N1 & _).
    destruct (N1 D) as (L & A & H). rewrite <- (H a La). apply frozen_steps; auto; lia.
  Qed.

  Lemma live_until_next_run ops : forall st,
    Inv st ->
    (forall pre o post, ops = pre ++ o :: post -> ~ starts_run (steps st pre) o) ->
    avail (steps st ops) = avail st.
  Proof.
    induction ops as [|o ops IH]; intros st I H; simpl; auto.
    destruct (@step_inv st o I) as (I1 & _ & S1).
    assert (D : ~ starts_run st o) by exact (H [] o ops eq_refl).
    destruct (S1 D) as (A & _). rewrite IH; auto.
    intros pre o' post E. apply (H (o :: pre) o' post). simpl. congruence.
  Qed.

  (* ---------------------------------------------------------------- *)
  (** ** Running in order is composition *)

  Definition env_eq (e1 e2 : env V) := forall n, e1 n = e2 n.

  Definition res_eq (r1 r2 : res rerr (env V)) : Prop :=
    match r1, r2 with
    | Ok a, Ok b => env_eq a b
    | Err x, Err y => x = y
    | _, _ => False
    end.

  Lemma updated_ext e1 e2 o : env_eq e1 e2 -> env_eq (updated e1 o) (updated e2 o).
  Proof. intros H n. unfold updated. rewrite H. auto. Qed.

  Lemma compose_ext l : forall h e1 e2, env_eq e1 e2 ->
    fst (compose h l e1) = fst (compose h l e2) /\
    res_eq (snd (compose h l e1)) (snd (compose h l e2)).
  Proof.
    induction l as [|s l IH]; intros h e1 e2 H; simpl; auto.
    rewrite (read_fields_ext e1 e2 (fields s)) by (intros; apply H).
    destruct (read_fields e2 (fields s)) as [i|]; simpl; auto.
    destruct (behave h s i) as [o|]; simpl; auto. apply IH. apply updated_ext; auto.
  Qed.

  Lemma res_eq_trans r1 r2 r3 : res_eq r1 r2 -> res_eq r2 r3 -> res_eq r1 r3.
  Proof.
    destruct r1, r2, r3; simpl; try tauto; unfold env_eq; congruence.
  Qed.

  Lemma compose_app l1 : forall l2 h e,
    compose h (l1 ++ l2) e =
    match compose h l1 e with
    | (h1, Ok e1) => compose h1 l2 e1
    | (h1, Err x) => (h1, Err x)
    end.
  Proof.
    induction l1 as [|s l1 IH]; intros l2 h e; simpl; auto.
    destruct (read_fields e (fields s)); auto. destruct (behave h s l); auto.
  Qed.

  Lemma compose_log l : forall h e, exists new,
    fst (compose h l e) = h ++ new /\
    (forall ev, In ev new -> In (ev_stage ev) l) /\
    (forall e', snd (compose h l e) = Ok e' -> map (@ev_stage V) new = l /\
       forall ev, In ev new -> ev_out ev <> None).
  Proof.
    induction l as [|s l IH]; intros h e; simpl.
    - exists []. rewrite app_nil_r. simpl. repeat split; tauto.
    - destruct (read_fields e (fields s)) as [i|].
      + destruct (behave h s i) as [o|].
        * destruct (IH (h ++ [{| ev_stage := s; ev_in := i; ev_out := Some o |}]) (updated e o))
            as (new & E & Hi & Ho).
          exists ({| ev_stage := s; ev_in := i; ev_out := Some o |} :: new).
          rewrite E, <- app_assoc. split; auto. split.
          -- intros ev [<-|H]; simpl; auto.
          -- intros e' H. destruct (Ho e' H) as [<- Hs]. split; auto.
             intros ev [<-|Hev]; simpl; [discriminate|auto].
        * exists [{| ev_stage := s; ev_in := i; ev_out := None |}]. simpl. split; auto.
          split; [intros ev [<-|[]]; auto|]. discriminate.
      + exists []. rewrite app_nil_r. simpl. split; auto. split; [tauto|discriminate].
  Qed.

  (** [run_stages st l] behaves like composition from the present values, never reports a
      missing prerequisite, and ends in a state satisfying [Q]. *)
  Definition runs_like (st : state) (l : list sid) (Q : state -> Prop) : Prop :=
    let '(h, r) := compose (log st) l (values st) in
    let '(st', r') := run_stages st l in
    log st' = h /\ Inv st' /\ avail st' = avail st /\ gens st' = gens st /\
    match r, r' with
    | Ok e, Ok _ => env_eq (values st') e /\ Q st'
    | Err x, Err y => x = y
    | _, _ => False
    end.

  Lemma runs_like_nil st (Q : state -> Prop) : Inv st -> Q st -> runs_like st [] Q.
  Proof. intros I H. unfold runs_like. simpl. do 5 (split; [auto|]); [intro; auto|auto]. Qed.

  Lemma runs_like_app st l1 l2 (Q1 Q2 : state -> Prop) :
    runs_like st l1 Q1 ->
    (forall st1, Inv st1 -> Q1 st1 -> runs_like st1 l2 Q2) ->
    runs_like st (l1 ++ l2) Q2.
  Proof.
    unfold runs_like. intros H1 H2. rewrite compose_app.
    replace (run_stages st (l1 ++ l2)) with
      (match run_stages st l1 with (st1, Ok _) => run_stages st1 l2 | (st1, Err e) => (st1, Err e) end).
    2:{ clear. revert st. induction l1 as [|s l1 IH]; intro st; simpl; auto.
        destruct (run_stage st s []) as [st1 [o|e]]; auto. }
    destruct (compose (log st) l1 (values st)) as [h r].
    destruct (run_stages st l1) as [st1 r1].
    destruct H1 as (L & I & A & G & H).
    destruct r as [e|x], r1 as [u|y]; try contradiction.
    - destruct H as [E Q]. specialize (H2 st1 I Q).
      destruct (compose_ext l2 (log st1) E) as [X1 X2]. rewrite L in *.
      destruct (compose h l2 (values st1)) as [h2 r2].
      destruct (compose h l2 e) as [h2' r2']. simpl in X1, X2. subst h2'.
      destruct (run_stages st1 l2) as [st2 u2].
      destruct H2 as (L2 & I2 & A2 & G2 & H2).
      do 2 (split; [auto|]). split; [congruence|]. split; [congruence|].
      destruct r2, r2', u2; simpl in X2; try contradiction; try congruence.
      destruct H2 as [E2 Q2']. split; auto. intro n. rewrite E2. auto.
    - subst. do 4 (split; [auto|]). auto.
  Qed.

  Lemma runs_like_weaken st l (Q1 Q2 : state -> Prop) :
    runs_like st l Q1 -> (forall s, Q1 s -> Q2 s) -> runs_like st l Q2.
  Proof.
    unfold runs_like. intros H W. destruct (compose _ _ _) as [h r].
    destruct (run_stages st l) as [st' r']. destruct r, r'; try tauto.
    destruct H as (? & ? & ? & ? & ? & ?). auto 10.
  Qed.

  (** one stage whose group is the current or the previous one *)
  Lemma runs_like_one st s k :
    Inv st -> runs_in sched k s -> k <= cur st ->
    runs_like st [s] (fun st' =>
      (forall t, runs_in sched k t -> In t (ran st') <-> t = s \/ In t (ran st)) /\
      (((forall t, runs_in sched k t -> In t (ran st')) /\ cur st' = S k) \/
       (~ (forall t, runs_in sched k t -> In t (ran st')) /\ cur st' = k))).
  Proof.
    intros I Hr Hk. unfold runs_like. simpl.
    pose proof (@run_stage_spec V fields behave sched WF st s [] I) as H.
    rewrite (proj2 (schedule_index_iff WF s k) Hr) in H.
    destruct H as [[L _]|[L H]]; [lia|].
    rewrite (read_fields_ext (updated (values st) []) (values st)) in H by (intros; reflexivity).
    destruct (read_fields (values st) (fields s)) as [inp|].
    - destruct (behave (log st) s inp) as [o|].
      + destruct H as (st' & -> & I' & A & Hs & Ho & Hl & G & Lg & R & C).
        simpl. do 4 (split; [auto|]). split; auto.
        intro n. unfold values. rewrite A, Hs, dget_dupdate. reflexivity.
      + destruct H as (st' & -> & I' & Hh & A & C & G & R & D & Lg). simpl. auto 10.
    - rewrite H. simpl. destruct (seek_spec fields WF I L) as (I1 & C1 & H1 & A1 & G1 & N1 & R1). auto 10.
  Qed.

  (** the rest of a group *)
  Lemma runs_like_group k l : forall done st,
    nth_error sched k = Some (done ++ l) ->
    Inv st -> (forall s, In s done -> In s (ran st)) ->
    (cur st = S k \/ (cur st = k /\
       (done = [] \/ ~ (forall t, runs_in sched k t -> In t (ran st))))) ->
    runs_like st l (fun st' => cur st' = S k).
  Proof.
    induction l as [|s l IH]; intros done st E I Hd Hc.
    - apply runs_like_nil; auto. destruct Hc as [|[C [->|N]]]; auto; exfalso.
      + destruct WF as [_ F]. rewrite Forall_forall in F.
        apply (F _ (nth_error_In _ _ E)). reflexivity.
      + apply N. intros t (g & E' & Ht). apply Hd.
        rewrite app_nil_r in E. congruence.
    - assert (Hr : runs_in sched k s).
      { exists (done ++ s :: l). split; auto. apply in_or_app. simpl. auto. }
      change (s :: l) with ([s] ++ l).
      eapply runs_like_app; [eapply runs_like_one; eauto; lia|].
      intros st1 I1 (R & C). simpl in *.
      apply (IH (done ++ [s])); auto.
      + rewrite <- app_assoc. exact E.
      + intros t Ht. assert (runs_in sched k t).
        { exists (done ++ s :: l). split; auto. apply in_app_or in Ht. apply in_or_app.
          simpl in *. tauto. }
        apply R; auto. apply in_app_or in Ht. simpl in Ht. destruct Ht as [Ht|[->|[]]]; auto.
      + destruct C as [[_ ->]|[N ->]]; auto.
  Qed.

  Lemma runs_like_groups gs : forall pre post st,
    sched = pre ++ gs ++ post -> Inv st -> cur st = length pre ->
    runs_like st (concat gs) (fun st' => cur st' = length pre + length gs).
  Proof.
    induction gs as [|g gs IH]; intros pre post st E I C; simpl.
    - apply runs_like_nil; auto. lia.
    - eapply runs_like_app.
      + apply (@runs_like_group (length pre) g []); auto; simpl.
        * rewrite E. rewrite nth_error_app2, Nat.sub_diag by lia. reflexivity.
        * tauto.
      + intros st1 I1 C1. simpl in C1.
        eapply runs_like_weaken; [apply (IH (pre ++ [g]) post); auto|].
        * rewrite <- app_assoc. exact E.
        * rewrite app_length. simpl. lia.
        * simpl. intros st' ->. rewrite app_length. simpl. lia.
  Qed.

  Lemma start_values st args : env_eq (values (start st args)) (given args).
  Proof.
    intro n. unfold values. simpl. rewrite hget_new, dget_dupdate. destruct (given args n); auto.
  Qed.

  Lemma groups_until_prefix s l : exists post, l = groups_until s l ++ post.
  Proof.
    induction l as [|g l IH]; simpl; [exists []; auto|].
    destruct (smem s g); [exists (g :: l); auto|]. destruct IH as [post IH].
    exists post. simpl. congruence.
  Qed.

  (** running the groups of a prefix of the schedule from the start *)
  Lemma start_run st args gs post :
    Inv st -> sched = gs ++ post ->
    let '(h, r) := compose (log st) (concat gs) (given args) in
    let '(st', r') := run_stages (start st args) (concat gs) in
    log st' = h /\ Inv st' /\ avail st' = length (heap st) /\ gens st' = gens st /\
    match r, r' with
    | Ok e, Ok _ => env_eq (values st') e /\ cur st' = length gs
    | Err x, Err y => x = y
    | _, _ => False
    end.
  Proof.
    intros I E.
    pose proof (@runs_like_groups gs [] post (start st args) E (start_inv fields args I) eq_refl) as H.
    unfold runs_like in H.
    destruct (compose_ext (concat gs) (log st) (start_values st args)) as [X1 X2].
    change (log (start st args)) with (log st) in H.
    destruct (compose (log st) (concat gs) (values (start st args))) as [h r].
    destruct (compose (log st) (concat gs) (given args)) as [h' r']. simpl in X1, X2. subst h'.
    destruct (run_stages (start st args) (concat gs)) as [st' u].
    destruct H as (L & I' & A & G & H). do 4 (split; [auto|]).
    destruct r, r', u; simpl in X2; try contradiction; try congruence.
    destruct H as [E1 C]. split; auto. intro n. rewrite E1. auto.
  Qed.

  Lemma run_all_compose st args :
    Inv st ->
    let '(h, r) := compose (log st) (concat sched) (given args) in
    let '(st', r') := run_all st args in
    log st' = h /\ Inv st' /\
    match r, r' with
    | Ok e, Ok a => a = avail st' /\ a = length (heap st) /\ env_eq (values st') e /\
                    cur st' = length sched
    | Err x, Err y => x = y
    | _, _ => False
    end.
  Proof.
    intro I. pose proof (@start_run st args sched [] I (eq_sym (app_nil_r _))) as H.
    destruct (compose (log st) (concat sched) (given args)) as [h r].
    unfold RunnerModel.run_all.
    destruct (run_stages (start st args) (concat sched)) as [st' [u|x]]; simpl;
      destruct H as (L & I' & A & G & H); destruct r; try contradiction; tauto.
  Qed.

  Lemma run_until_compose st s args :
    Inv st ->
    let '(h, r) := compose (log st) (concat (groups_until s sched)) (given args) in
    let '(st', r') := run_until st s args in
    log st' = h /\ Inv st' /\
    match r, r' with
    | Ok e, Ok a => a = avail st' /\ a = length (heap st) /\ env_eq (values st') e /\
                    cur st' = length (groups_until s sched)
    | Err x, Err y => x = y
    | _, _ => False
    end.
  Proof.
    intro I. destruct (groups_until_prefix s sched) as [post E].
    pose proof (@start_run st args _ post I E) as H.
    destruct (compose (log st) (concat (groups_until s sched)) (given args)) as [h r].
    unfold RunnerModel.run_until.
    destruct (run_stages (start st args) _) as [st' [u|x]]; simpl;
      destruct H as (L & I' & A & G & H); destruct r; try contradiction; tauto.
  Qed.
End Run.
