(** Lemmas behind C118: where the values seen by the stages of an InstanceSpace come from. *)
From Verif Require Import Base BaseLemmas BuilderModel RunnerModel.
Set Implicit Arguments.

Section Origin.
  Variable V : Type.
  Variable fields : sid -> list string.
  Variable behave : list (event V) -> sid -> dict V -> option (dict V).
  Variable sched : list (list sid).
  Variable St : string -> V -> Prop.
  Variable Kw : sid -> string -> V -> Prop.

  Definition made (l : list (event V)) (n : string) (v : V) : Prop :=
    exists ev o, In ev l /\ ev_out ev = Some o /\ In (n, v) o.
  Record good (st : rstate V) : Prop := {
    g_heap : forall d n v, In d (heap st) -> In (n, v) d -> St n v \/ made (log st) n v;
    g_gens : forall args n v, In (GNew args) (gens st) -> In (n, v) args -> St n v;
    g_log : forall pre ev post n v, log st = pre ++ ev :: post -> In (n, v) (ev_in ev) ->
              Kw (ev_stage ev) n v \/ St n v \/ made pre n v
  }.

  Lemma in_dset (d : dict V) k x n v : In (n, v) (dset d k x) -> In (n, v) d \/ (n = k /\ v = x).
  Proof.
    induction d as [|[k' y] t IH]; simpl; intro H.
    - destruct H as [H|[]]. injection H as <- <-. auto.
    - destruct (String.eqb k' k) eqn:E; simpl in H.
      + apply String.eqb_eq in E. destruct H as [H|H]; [injection H as <- <-; auto|auto].
      + destruct H as [H|H]; auto. apply IH in H. tauto.
  Qed.
  Lemma in_dupdate (new : dict V) : forall d n v, In (n, v) (dupdate d new) -> In (n, v) d \/ In (n, v) new.
  Proof.
    unfold dupdate. induction new as [|[k x] t IH]; simpl; intros d n v H; auto.
    apply IH in H. destruct H as [H|H]; auto. apply in_dset in H. destruct H as [H|[-> ->]]; auto.
  Qed.
  Lemma dget_in (d : dict V) n v : dget d n = Some v -> In (n, v) d.
  Proof.
    induction d as [|[k x] t IH]; simpl; [discriminate|].
    destruct (String.eqb k n) eqn:E; [|auto]. apply String.eqb_eq in E. subst k. intro H. injection H as ->. auto.
  Qed.
  Lemma lookup_in (d : dict V) names : forall i n v, lookup_all d names = Some i -> In (n, v) i -> In (n, v) d.
  Proof.
    induction names as [|m t IH]; simpl; intros i n v H I.
    - injection H as <-. destruct I.
    - destruct (dget d m) as [x|] eqn:E; [|discriminate]. destruct (lookup_all d t) as [r|]; [|discriminate].
      injection H as <-. destruct I as [I|I]; [injection I as <- <-; apply dget_in; auto|eauto].
  Qed.
  Lemma in_hset (h : list (dict V)) : forall a d x, In x (hset h a d) -> x = d \/ In x h.
  Proof.
    induction h as [|y t IH]; intros [|a] d x H; simpl in *; auto.
    - destruct H; auto.
    - destruct H as [H|H]; auto. apply IH in H. tauto.
  Qed.
  Lemma hget_in (h : list (dict V)) a n v : In (n, v) (hget h a) -> exists d, In d h /\ In (n, v) d.
  Proof.
    unfold hget. intro H. destruct (lt_dec a (length h)) as [L|L].
    - exists (nth a h []). split; auto. apply nth_In. auto.
    - rewrite nth_overflow in H by lia. destruct H.
  Qed.
  Lemma in_gset' (l : list (gen V)) : forall k g x, In x (gset l k g) -> x = g \/ In x l.
  Proof.
    induction l as [|y t IH]; intros [|k] g x H; simpl in *; auto.
    - destruct H; auto.
    - destruct H as [H|H]; auto. apply IH in H. tauto.
  Qed.
  Lemma made_app l l' n v : made l n v -> made (l ++ l') n v.
  Proof. intros (ev & o & A & B). exists ev, o. rewrite in_app_iff. auto. Qed.

  Lemma good_fresh : good (fresh_runner V).
  Proof.
    constructor; simpl; intros.
    - destruct H as [<-|[<-|[]]]; destruct H0.
    - destruct H.
    - destruct pre; discriminate.
  Qed.
  Lemma good_with st gs : good st -> (forall g, In g gs -> g = GDone V \/ (exists r, g = GRun V r) \/ In g (gens st)) ->
    good (with_gens st gs).
  Proof.
    intros [A B C] H. constructor; simpl; auto. intros args n v I J.
    destruct (H _ I) as [X|[[r X]|X]]; try discriminate. eauto.
  Qed.
  Lemma good_rollback st i : good st -> good (rollback sched st i).
  Proof. intros [A B C]. constructor; simpl; auto. Qed.
  Lemma good_progress st : good st -> good (progress sched st).
  Proof.
    intros [A B C]. unfold progress. destruct (forallb _ _); [|constructor; auto].
    destruct (_ <=? _); constructor; simpl; auto.
    intros d n v H I. apply in_app_iff in H. destruct H as [H|[<-|[]]]; [eauto|destruct I].
  Qed.
  Lemma good_start st args : good st -> (forall n v, In (n, v) args -> St n v) -> good (start sched st args).
  Proof.
    intros G H. apply (@good_rollback st 0) in G. destruct G as [A B C]. constructor; simpl in *; auto.
    intros d n v X I. apply in_app_iff in X. destruct X as [X|[<-|[]]]; [eauto|].
    apply in_dupdate in I. destruct I as [[]|I]. auto.
  Qed.
  Lemma snoc_split A (l : list A) : forall x pre y post, l ++ [x] = pre ++ y :: post ->
    (exists post', l = pre ++ y :: post') \/ (pre = l /\ y = x).
  Proof.
    induction l as [|a t IH]; intros x pre y post H; simpl in H.
    - destruct pre as [|b pre]; simpl in H; injection H as H1 H2; [right; auto|]. destruct pre; discriminate.
    - destruct pre as [|b pre]; simpl in H; injection H as -> H.
      + left. exists t. reflexivity.
      + apply IH in H. destruct H as [[p ->]|[-> ->]]; [left; exists p; reflexivity|right; auto].
  Qed.
  Lemma good_run_stage st s kw : good st -> (forall n v, In (n, v) kw -> Kw s n v) ->
    good (fst (run_stage fields behave sched st s kw)).
  Proof.
    intros G Hk. unfold run_stage. destruct (schedule_index sched s) as [i|]; auto.
    destruct (_ <? _); auto.
    assert (G1 : good (if i =? cur st then st else rollback sched st i)) by (destruct (_ =? _); auto using good_rollback).
    cbv zeta. revert G1. generalize (if i =? cur st then st else rollback sched st i) as st1. intros st1 G1.
    destruct (lookup_all _ _) as [inp|] eqn:L; auto.
    assert (X : forall n v, In (n, v) inp -> Kw s n v \/ St n v \/ made (log st1) n v).
    { intros n v I. apply (lookup_in _ _ _ _ L) in I. apply in_dupdate in I. destruct I as [I|I]; auto.
      apply hget_in in I. destruct I as (d & D & I). right. exact (g_heap G1 _ _ _ D I). }
    destruct (behave (log st1) s inp) as [o|] eqn:B.
    - apply good_progress. constructor; simpl.
      + intros d n v D I. apply in_hset in D. destruct D as [->|D].
        * apply in_dupdate in I. destruct I as [I|I].
          -- apply hget_in in I. destruct I as (d & D & I). destruct (g_heap G1 _ _ _ D I); auto using made_app.
          -- right. eexists _, o. split; [apply in_app_iff; right; left; reflexivity|]. auto.
        * destruct (g_heap G1 _ _ _ D I); auto using made_app.
      + apply (g_gens G1).
      + intros pre ev post n v E I. apply snoc_split in E. destruct E as [[p E]|[-> ->]]; [exact (@g_log st1 G1 pre ev p n v E I)|]. auto.
    - constructor; simpl.
      + intros d n v D I. destruct (g_heap G1 _ _ _ D I); auto using made_app.
      + apply (g_gens G1).
      + intros pre ev post n v E I. apply snoc_split in E. destruct E as [[p E]|[-> ->]]; [exact (@g_log st1 G1 pre ev p n v E I)|]. auto.
  Qed.
  Lemma good_run_stages l : forall st, good st -> good (fst (run_stages fields behave sched st l)).
  Proof.
    induction l as [|s t IH]; simpl; intros st G; auto.
    pose proof (@good_run_stage st s [] G (fun n v H => match H with end)) as X.
    destruct (run_stage fields behave sched st s []) as [st1 [o|e]]; simpl in *; auto.
  Qed.
  Lemma good_continue st k rest : good st -> good (fst (gen_continue fields behave sched st k rest)).
  Proof.
    intro G. destruct rest as [|s t]; simpl.
    - apply good_with; auto. intros g I. apply in_gset' in I. tauto.
    - pose proof (@good_run_stage st s [] G (fun n v H => match H with end)) as X.
      destruct (run_stage fields behave sched st s []) as [st1 [o|e]]; simpl in *; apply good_with; auto;
        intros g I; apply in_gset' in I; destruct I; eauto.
  Qed.
  Lemma good_step st o : good st ->
    match o with
    | RunStage s kw => forall n v, In (n, v) kw -> Kw s n v
    | RunAll a | RunUntil _ a | RunIter a => forall n v, In (n, v) a -> St n v
    | _ => True
    end -> good (fst (step fields behave sched st o)).
  Proof.
    intros G H. destruct o as [s kw|a|s a|a|k|]; simpl.
    - pose proof (@good_run_stage st s kw G H) as X. destruct (run_stage _ _ _ _ _ _) as [st1 [o|e]]; auto.
    - unfold run_all. pose proof (@good_run_stages (concat sched) _ (@good_start st a G H)) as X.
      destruct (run_stages _ _ _ _ _) as [st1 [o|e]]; auto.
    - unfold run_until. pose proof (@good_run_stages (concat (groups_until s sched)) _ (@good_start st a G H)) as X.
      destruct (run_stages _ _ _ _ _) as [st1 [o|e]]; auto.
    - destruct G as [A B C]. constructor; simpl; auto. intros args n v I. apply in_app_iff in I.
      destruct I as [I|[I|[]]]; [eauto|]. injection I as <-. auto.
    - unfold gen_next. destruct (nth_error (gens st) k) as [[args|rest|]|] eqn:E; auto.
      + apply nth_error_In in E. pose proof (@good_continue _ k (concat sched) (@good_start st args G (fun n v => @g_gens st G args n v E))) as X.
        destruct (gen_continue _ _ _ _ _ _) as [st1 [[s o]|e]]; auto.
      + pose proof (@good_continue st k rest G) as X. destruct (gen_continue _ _ _ _ _ _) as [st1 [[s o]|e]]; auto.
    - auto.
  Qed.
End Origin.

Section Space.
  Variables V M : Type.
  Variable fields : sid -> list string.
  Variable behave : list (event V) -> sid -> dict V -> option (dict V).
  Variable sched : list (list sid).
  Variable conv : dict V -> option M.
  Variable inputs : dict V.

  Lemma get_model_runner sp : runner (fst (get_model conv sp)) = runner sp.
  Proof.
    unfold get_model. destruct (model sp); auto. destruct (final_output sp); auto. destruct (conv _); auto.
  Qed.
  Lemma build_runner sp : runner (fst (space_build fields behave sched conv inputs sp)) =
    fst (step fields behave sched (runner sp) (RunAll inputs)).
  Proof.
    unfold space_build. simpl. destruct (run_all _ _ _ _ _) as [r [a|e]]; auto. rewrite get_model_runner. auto.
  Qed.
  Lemma origin ops :
    good (fun n v => In (n, v) inputs) (fun s n v => exists kw, In (SRunStage s kw) ops /\ In (n, v) kw)
      (runner (ssteps fields behave sched conv inputs (new_space V M) ops)).
  Proof.
    set (St := fun n v => In (n, v) inputs). set (Kw := fun s n v => exists kw, In (SRunStage s kw) ops /\ In (n, v) kw).
    assert (X : forall l sp, (forall o, In o l -> In o ops) -> good St Kw (runner sp) ->
                  good St Kw (runner (ssteps fields behave sched conv inputs sp l))).
    { induction l as [|o t IH]; intros sp Hl G; [exact G|]. apply IH; [intros; apply Hl; right; auto|].
      assert (Ho : In o ops) by (apply Hl; left; auto).
      destruct o as [ | |s kw|s kw| |k]; cbn -[step].
      - rewrite build_runner. apply good_step; auto.
      - rewrite get_model_runner. auto.
      - apply good_step; auto. intros n v I. exists kw. auto.
      - apply good_step; auto.
      - apply good_step; auto.
      - apply good_step; auto. }
    apply X; auto. apply good_fresh.
  Qed.
End Space.
