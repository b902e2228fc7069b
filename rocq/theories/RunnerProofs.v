From Verif Require Import Base BaseLemmas BuilderModel BuilderSpec BuilderProofs RunnerModel RunnerSpec.
Set Implicit Arguments.

Section Dict.
  Variable V : Type.
  Implicit Types d new : dict V.

  Lemma dget_dset d k v n :
    dget (dset d k v) n = if String.eqb k n then Some v else dget d n.
  Proof.
    induction d as [|[k' v'] t IH]; simpl.
    - destruct (String.eqb k n); auto.
    - destruct (String.eqb k' k) eqn:E; simpl.
      + apply String.eqb_eq in E. subst k'. destruct (String.eqb k n); auto.
      + rewrite IH. destruct (String.eqb k' n) eqn:E2; auto.
        destruct (String.eqb k n) eqn:E3; auto.
        apply String.eqb_eq in E2. apply String.eqb_eq in E3. subst.
        rewrite String.eqb_refl in E. discriminate.
  Qed.

  Lemma dget_dupdate new : forall d n,
    dget (dupdate d new) n = match given new n with Some v => Some v | None => dget d n end.
  Proof.
    induction new as [|[k v] t IH]; intros d n; simpl; auto.
    unfold dupdate in *. simpl. rewrite IH, dget_dset.
    destruct (given t n); auto. destruct (String.eqb k n); auto.
  Qed.

  Lemma lookup_all_read d names : lookup_all d names = read_fields (dget d) names.
  Proof.
    induction names as [|n t IH]; simpl; auto. rewrite IH.
    destruct (dget d n); auto.
  Qed.

  Lemma read_fields_ext (e1 e2 : env V) names :
    (forall n, In n names -> e1 n = e2 n) -> read_fields e1 names = read_fields e2 names.
  Proof.
    induction names as [|n t IH]; simpl; intro H; auto.
    rewrite (H n (or_introl eq_refl)), IH; auto.
  Qed.

  Lemma read_fields_some (e : env V) names i :
    read_fields e names = Some i -> forall n, In n names -> e n <> None.
  Proof.
    revert i. induction names as [|m t IH]; simpl; intros i H n Hn; [contradiction|].
    destruct (e m) eqn:E; [|discriminate]. destruct (read_fields e t) eqn:R; [|discriminate].
    destruct Hn as [<-|Hn]; [congruence|]. eapply IH; eauto.
  Qed.

  Lemma read_fields_none (e : env V) names :
    read_fields e names = None -> exists n, In n names /\ e n = None.
  Proof.
    induction names as [|m t IH]; simpl; intro H; [discriminate|].
    destruct (e m) eqn:E; [|exists m; auto].
    destruct (read_fields e t) eqn:R; [discriminate|]. destruct IH as (n & ? & ?); auto.
    exists n; auto.
  Qed.

  Lemma read_fields_total (e : env V) names :
    (forall n, In n names -> e n <> None) -> exists i, read_fields e names = Some i.
  Proof.
    intro H. destruct (read_fields e names) eqn:R; eauto.
    apply read_fields_none in R. destruct R as (n & Hn & E). exfalso. eapply H; eauto.
  Qed.

  Lemma hget_hset_same (h : list (dict V)) a d : a < length h -> hget (hset h a d) a = d.
  Proof.
    revert a. induction h as [|x h IH]; intros [|a] H; simpl in *; try lia; auto.
    apply IH. lia.
  Qed.
  Lemma hget_hset_other (h : list (dict V)) a b d : a <> b -> hget (hset h a d) b = hget h b.
  Proof.
    revert a b. induction h as [|x h IH]; intros [|a] [|b] H; simpl in *; auto; try lia.
    apply IH. lia.
  Qed.
  Lemma hset_length (h : list (dict V)) a d : length (hset h a d) = length h.
  Proof. revert a. induction h as [|x h IH]; intros [|a]; simpl; auto. Qed.
  Lemma hget_app (h t : list (dict V)) a : a < length h -> hget (h ++ t) a = hget h a.
  Proof. intro. unfold hget. apply app_nth1. auto. Qed.
  Lemma hget_new (h : list (dict V)) d : hget (h ++ [d]) (length h) = d.
  Proof. unfold hget. rewrite app_nth2, Nat.sub_diag by lia. auto. Qed.
End Dict.

Lemma lset_length l i a : length (lset l i a) = length l.
Proof. revert i. induction l as [|x l IH]; intros [|i]; simpl; auto. Qed.
Lemma lset_same l i a : i < length l -> nth_error (lset l i a) i = Some a.
Proof. revert i. induction l as [|x l IH]; intros [|i] H; simpl in *; try lia; auto. apply IH. lia. Qed.
Lemma lset_other l i j a : i <> j -> nth_error (lset l i a) j = nth_error l j.
Proof. revert i j. induction l as [|x l IH]; intros [|i] [|j] H; simpl; auto; try lia. Qed.
Lemma in_lset l i a x : In x (lset l i a) -> x = a \/ In x l.
Proof.
  revert i. induction l as [|y l IH]; intros [|i]; simpl; auto.
  - intros [->|?]; auto.
  - intros [->|H]; auto. apply IH in H. tauto.
Qed.

Lemma firstn_In A n (l : list A) x : In x (firstn n l) -> In x l.
Proof.
  revert n. induction l as [|y l IH]; intros [|n]; simpl; auto; try tauto.
  intros [?|H]; auto. right. eapply IH; eauto.
Qed.

Section Index.
  Lemma index_from_ge l : forall i s j, index_from i l s = Some j -> i <= j.
  Proof.
    induction l as [|g t IH]; simpl; intros i s j H; [discriminate|].
    destruct (index_from (S i) t s) eqn:E.
    - injection H as ->. apply IH in E. lia.
    - destruct (smem s g); [|discriminate]. injection H as ->. lia.
  Qed.
  Lemma index_from_some l : forall i s j,
    index_from i l s = Some j -> exists g, nth_error l (j - i) = Some g /\ In s g.
  Proof.
    induction l as [|g t IH]; simpl; intros i s j H; [discriminate|].
    destruct (index_from (S i) t s) eqn:E.
    - injection H as ->. pose proof (index_from_ge _ _ _ E). apply IH in E.
      replace (j - i) with (S (j - S i)) by lia. exact E.
    - destruct (smem s g) eqn:M; [|discriminate]. injection H as ->.
      rewrite Nat.sub_diag. exists g. split; auto. apply mem_true in M. auto.
  Qed.
  Lemma index_from_none l : forall i s, index_from i l s = None <-> ~ In s (concat l).
  Proof.
    induction l as [|g t IH]; simpl; intros i s; [tauto|].
    rewrite in_app_iff. specialize (IH (S i) s).
    destruct (index_from (S i) t s).
    - split; [discriminate|]. intro H. exfalso. apply H. right.
      destruct (in_dec Nat.eq_dec s (concat t)) as [|N]; auto. apply IH in N. discriminate.
    - assert (~ In s (concat t)) by (apply IH; auto).
      destruct (smem s g) eqn:M.
      + apply mem_true in M. split; [discriminate|tauto].
      + split; auto. intros _ [X|X]; [|contradiction]. apply (mem_true Nat.eq_dec) in X. unfold smem in M. congruence.
  Qed.

  Variable sched : list (list sid).
  Hypothesis WF : well_formed sched.

  Lemma runs_in_unique i j s : runs_in sched i s -> runs_in sched j s -> i = j.
  Proof.
    destruct WF as [Hnd _]. revert i j. induction sched as [|g t IH]; intros i j.
    - intros (x & E & _). destruct i; discriminate.
    - simpl in Hnd. assert (Hd : forall x, In x g -> ~ In x (concat t)).
      { clear -Hnd. induction g as [|y g IHg]; simpl in *; [tauto|].
        inversion Hnd; subst. rewrite in_app_iff in H1.
        intros x [<-|Hx]; [tauto|]. apply IHg; auto. }
      assert (Hnt : NoDup (concat t)).
      { clear -Hnd. induction g; simpl in *; auto. inversion Hnd; auto. }
      intros (g1 & E1 & H1) (g2 & E2 & H2).
      assert (WFt : well_formed t) by (destruct WF as [_ F]; split; auto; inversion F; auto).
      destruct i as [|i], j as [|j]; simpl in *; auto.
      + injection E1 as ->. exfalso. apply (Hd s H1).
        apply runs_in_concat. exists j, g2. auto.
      + injection E2 as ->. exfalso. apply (Hd s H2).
        apply runs_in_concat. exists i, g1. auto.
      + f_equal. apply (IH WFt Hnt); [exists g1|exists g2]; auto.
  Qed.

  Lemma schedule_index_iff s i : schedule_index sched s = Some i <-> runs_in sched i s.
  Proof.
    unfold schedule_index. split.
    - intro H. apply index_from_some in H. rewrite Nat.sub_0_r in H. exact H.
    - intro H. destruct (index_from 0 sched s) as [j|] eqn:E.
      + apply index_from_some in E. rewrite Nat.sub_0_r in E. f_equal.
        eapply runs_in_unique; eauto.
      + apply index_from_none in E. exfalso. apply E. apply runs_in_concat. eauto.
  Qed.

  Lemma schedule_index_none s : schedule_index sched s = None <-> ~ In s (concat sched).
  Proof. apply index_from_none. Qed.

  Lemma in_concat_skipn s i : In s (concat (skipn i sched)) <-> exists j, i <= j /\ runs_in sched j s.
  Proof.
    rewrite runs_in_concat. split.
    - intros (k & g & E & H). exists (i + k). split; [lia|]. exists g. split; auto.
      clear -E. revert i E. induction sched as [|x t IH]; intros [|i] E; simpl in *; auto.
      destruct k; discriminate.
    - intros (j & Hj & g & E & H). exists (j - i), g. split; auto.
      clear -E Hj. revert i j E Hj. induction sched as [|x t IH]; intros [|i] [|j] E Hj; simpl in *; auto;
        try discriminate; try lia. apply IH; auto; lia.
  Qed.
End Index.

Local Arguments firstn : simpl never.
Local Arguments skipn : simpl never.
Section RunnerInv.
  Variable V : Type.
  Variable fields : sid -> list string.
  Variable behave : list (event V) -> sid -> dict V -> option (dict V).
  Variable sched : list (list sid).
  Hypothesis WF : well_formed sched.

  Notation run_stage := (run_stage fields behave sched).
  Notation run_stages := (run_stages fields behave sched).
  Notation rollback := (rollback sched).
  Notation progress := (progress sched).
  Notation start := (start sched).
  Notation step := (step fields behave sched).
  Notation steps := (steps fields behave sched).
  Notation state := (rstate V).
  Notation compose := (compose fields behave).

  (** every logged execution had its prerequisite groups executed before it *)
  Definition log_ok (h : list (event V)) : Prop :=
    forall pre e post, h = pre ++ e :: post ->
      exists k, runs_in sched k (ev_stage e) /\
      forall j t, j < k -> runs_in sched j t -> succeeded_in pre t.

  Record Inv (st : state) : Prop := {
    v_len : length (data st) = S (cur st);
    v_cur : cur st <= length sched;
    v_live : forall j, j < cur st -> nth_error (data st) j = Some (avail st);
    v_data : forall a, In a (data st) -> a < length (heap st);
    v_avail : avail st < length (heap st);
    v_ran_before : forall j s, j < cur st -> runs_in sched j s -> In s (ran st);
    v_ran_after : forall j s, cur st < j -> runs_in sched j s -> ~ In s (ran st);
    v_ran_log : forall s, In s (ran st) -> succeeded_in (log st) s;
    v_log : log_ok (log st)
  }.

  Lemma fresh_inv : Inv (fresh_runner V).
  Proof.
    constructor; simpl; auto; try lia; try tauto.
    all: try (intros; lia).
    intros pre e post H. destruct pre; discriminate.
  Qed.

  Lemma rollback_live st i : Inv st -> i < cur st -> avail (rollback st i) = avail st.
  Proof. intros I Hi. simpl. apply nth_error_nth. apply (v_live I). auto. Qed.

  Lemma rollback_ran st i j s :
    Inv st -> i <= cur st -> runs_in sched j s ->
    In s (ran (rollback st i)) <-> In s (ran st) /\ j <= i.
  Proof.
    intros I Hi Hr. cbn [RunnerModel.rollback ran]. rewrite in_sdiff, in_concat_skipn. split.
    - intros [H N]. split; auto. destruct (Nat.le_gt_cases j i); auto. exfalso. apply N.
      exists j. split; auto.
    - intros [H Hj]. split; auto. intros (j' & Hj' & Hr').
      pose proof (runs_in_unique WF Hr Hr'). lia.
  Qed.

  Lemma rollback_inv st i : Inv st -> i < cur st -> Inv (rollback st i).
  Proof.
    intros I Hi. pose proof (rollback_live I Hi) as L. constructor.
    - simpl. rewrite firstn_length, (v_len I). lia.
    - simpl. pose proof (v_cur I). lia.
    - intros j Hj. rewrite L. simpl in *. rewrite nth_firstn by lia. apply (v_live I). lia.
    - simpl. intros a Ha. apply (v_data I). eapply firstn_In; eauto.
    - rewrite L. exact (v_avail I).
    - intros j s Hj Hr. simpl in Hj. apply (rollback_ran (j := j)); auto; try lia.
      split; [|lia]. apply (v_ran_before I) with j; auto; lia.
    - intros j s Hj Hr X. simpl in Hj. apply (rollback_ran (j := j)) in X; auto; lia.
    - simpl. intros s Hs. apply in_sdiff in Hs. apply (v_ran_log I). tauto.
    - exact (v_log I).
  Qed.

  Lemma start_inv st args : Inv st -> Inv (start st args).
  Proof.
    intros I. constructor; simpl.
    - rewrite firstn_length, (v_len I). lia.
    - lia.
    - intros j Hj. lia.
    - intros a Ha. rewrite app_length. simpl.
      assert (In a (data st)) by (eapply firstn_In; eauto). pose proof (v_data I a H). lia.
    - rewrite app_length. simpl. lia.
    - intros j s Hj. lia.
    - intros j s Hj Hr X. apply in_sdiff in X. destruct X as [_ X]. apply X.
      apply (in_concat_skipn sched s 1). exists j. split; auto.
    - intros s Hs. apply in_sdiff in Hs. apply (v_ran_log I). tauto.
    - exact (v_log I).
  Qed.

  Lemma with_gens_inv st gs : Inv st -> Inv (with_gens st gs).
  Proof. intros []. constructor; auto. Qed.

  (** the state in which run_stage executes the stage *)
  Definition seek (st : state) (i : nat) : state := if i =? cur st then st else rollback st i.

  Lemma seek_spec st i :
    Inv st -> i <= cur st ->
    Inv (seek st i) /\ cur (seek st i) = i /\ heap (seek st i) = heap st /\
    avail (seek st i) = avail st /\ log (seek st i) = log st /\ gens (seek st i) = gens st /\
    (forall j s, runs_in sched j s ->
       In s (ran (seek st i)) <-> In s (ran st) /\ j <= i).
  Proof.
    intros I Hi. unfold seek. destruct (Nat.eqb_spec i (cur st)) as [->|N].
    - do 6 (split; [auto|]). intros j s Hr. split; [|tauto]. intro Hs. split; auto.
      destruct (Nat.le_gt_cases j (cur st)); auto. exfalso. eapply (v_ran_after I); eauto.
    - assert (L : i < cur st) by lia. pose proof (rollback_live I L).
      pose proof (rollback_inv I L). do 6 (split; [auto|]). intros j s Hr.
      apply (rollback_ran (j := j)); auto.
  Qed.

  (** the state after the outputs have been written, before _progress_schedule *)
  Definition written (st : state) (s : sid) (i : dict V) (o : dict V) : state :=
    {| heap := hset (heap st) (avail st) (dupdate (hget (heap st) (avail st)) o);
       avail := avail st;
       data := lset (data st) (cur st) (avail st);
       cur := cur st;
       ran := sadd Nat.eq_dec s (ran st);
       gens := gens st;
       log := log st ++ [{| ev_stage := s; ev_in := i; ev_out := Some o |}] |}.

  Lemma succeeded_app (h h' : list (event V)) s : succeeded_in h s -> succeeded_in (h ++ h') s.
  Proof. intros (e & o & H & ?). exists e, o. rewrite in_app_iff. auto. Qed.

  Lemma log_ok_snoc h e k :
    log_ok h -> runs_in sched k (ev_stage e) ->
    (forall j t, j < k -> runs_in sched j t -> succeeded_in h t) -> log_ok (h ++ [e]).
  Proof.
    intros H Hk Hp pre e' post E.
    destruct post as [|x post _] using rev_ind.
    - apply app_inj_tail in E. destruct E as [-> ->]. eauto.
    - rewrite app_comm_cons, app_assoc in E. apply app_inj_tail in E. destruct E as [-> ->].
      eapply H; eauto.
  Qed.

  Lemma written_inv st s i o : Inv st -> runs_in sched (cur st) s -> Inv (written st s i o).
  Proof.
    intros I Hr. constructor; simpl.
    - rewrite lset_length. apply (v_len I).
    - apply (v_cur I).
    - intros j Hj. rewrite lset_other by lia. apply (v_live I); auto.
    - intros a Ha. rewrite hset_length. apply in_lset in Ha. destruct Ha as [->|Ha].
      + apply (v_avail I). + apply (v_data I); auto.
    - rewrite hset_length. apply (v_avail I).
    - intros j t Hj Ht. apply in_sadd. right. apply (v_ran_before I) with j; auto.
    - intros j t Hj Ht X. apply in_sadd in X. destruct X as [->|X].
      + pose proof (runs_in_unique WF Hr Ht). lia.
      + eapply (v_ran_after I); eauto.
    - intros t Ht. apply in_sadd in Ht. destruct Ht as [->|Ht].
      + exists {| ev_stage := s; ev_in := i; ev_out := Some o |}, o.
        rewrite in_app_iff. simpl. auto.
      + apply succeeded_app. apply (v_ran_log I); auto.
    - apply log_ok_snoc with (k := cur st); auto.
      + apply (v_log I).
      + intros j t Hj Ht. apply (v_ran_log I). apply (v_ran_before I) with j; auto.
  Qed.

  Lemma nth_group k s : runs_in sched k s -> In s (nth k sched []) /\ k < length sched.
  Proof.
    intros (g & E & H). split.
    - rewrite (nth_error_nth _ _ [] E). auto.
    - apply nth_error_Some. congruence.
  Qed.
  Lemma in_nth_group k s : In s (nth k sched []) -> runs_in sched k s.
  Proof.
    intro H. destruct (nth_error sched k) as [g|] eqn:E.
    - rewrite (nth_error_nth _ _ [] E) in H. exists g. auto.
    - apply nth_error_None in E. rewrite nth_overflow in H by auto. contradiction.
  Qed.

  Lemma progress_spec st s :
    Inv st -> runs_in sched (cur st) s -> In s (ran st) ->
    let st' := progress st in
    Inv st' /\ avail st' = avail st /\ log st' = log st /\ gens st' = gens st /\ ran st' = ran st /\
    (heap st' = heap st \/ heap st' = heap st ++ [[]]) /\
    (((forall t, runs_in sched (cur st) t -> In t (ran st)) /\ cur st' = S (cur st)) \/
     (~ (forall t, runs_in sched (cur st) t -> In t (ran st)) /\ cur st' = cur st)).
  Proof.
    intros I Hr Hs. cbv zeta. unfold progress.
    destruct (forallb (fun s => smem s (ran st)) (nth (cur st) sched [])) eqn:F.
    - rewrite forallb_forall in F.
      assert (All : forall t, runs_in sched (cur st) t -> In t (ran st)).
      { intros t Ht. apply nth_group in Ht. apply (mem_true Nat.eq_dec), F. tauto. }
      rewrite lset_length, (v_len I). rewrite Nat.leb_refl.
      repeat split; simpl; auto; try tauto.
      + rewrite app_length, lset_length, (v_len I). simpl. lia.
      + apply nth_group in Hr. lia.
      + intros j Hj. destruct (Nat.eq_dec j (cur st)) as [->|N].
        * rewrite nth_error_app1 by (rewrite lset_length, (v_len I); lia).
          apply lset_same. rewrite (v_len I). lia.
        * rewrite nth_error_app1 by (rewrite lset_length, (v_len I); lia).
          rewrite lset_other by auto. apply (v_live I). lia.
      + intros a Ha. rewrite app_length. simpl. apply in_app_or in Ha. simpl in Ha.
        destruct Ha as [Ha|[<-|[]]]; [|lia]. apply in_lset in Ha. destruct Ha as [->|Ha].
        * pose proof (v_avail I). lia.
        * pose proof (v_data I _ Ha). lia.
      + rewrite app_length. simpl. pose proof (v_avail I). lia.
      + intros j t Hj Ht. destruct (Nat.eq_dec j (cur st)) as [->|N]; auto.
        apply (v_ran_before I) with j; auto; lia.
      + intros j t Hj Ht. apply (v_ran_after I) with j; auto; lia.
      + apply (v_ran_log I).
      + apply (v_log I).
    - do 6 (split; [auto|]). right. split; auto. intro All.
      assert (X : forallb (fun s => smem s (ran st)) (nth (cur st) sched []) = true).
      { apply forallb_forall. intros t Ht. apply (mem_true Nat.eq_dec). apply All.
        apply in_nth_group. auto. }
      congruence.
  Qed.

  (** everything run_stage does, from a state satisfying the invariant *)
  Lemma run_stage_spec st s kw :
    Inv st ->
    match schedule_index sched s with
    | None => run_stage st s kw = (st, Err KeyError)
    | Some i =>
        (cur st < i /\ run_stage st s kw = (st, Err StageRunningError)) \/
        (i <= cur st /\
         match read_fields (updated (values st) kw) (fields s) with
         | None => run_stage st s kw = (seek st i, Err KeyError)
         | Some inp =>
             match behave (log st) s inp with
             | None =>
                 exists st', run_stage st s kw = (st', Err StageFailed) /\
                   Inv st' /\ heap st' = heap st /\ avail st' = avail st /\ cur st' = i /\
                   gens st' = gens st /\ ran st' = ran (seek st i) /\
                   data st' = data (seek st i) /\
                   log st' = log st ++ [{| ev_stage := s; ev_in := inp; ev_out := None |}]
             | Some o =>
                 exists st', run_stage st s kw = (st', Ok o) /\
                   Inv st' /\ avail st' = avail st /\
                   hget (heap st') (avail st) = dupdate (hget (heap st) (avail st)) o /\
                   (forall a, a <> avail st -> a < length (heap st) ->
                      hget (heap st') a = hget (heap st) a) /\
                   length (heap st) <= length (heap st') /\
                   gens st' = gens st /\
                   log st' = log st ++ [{| ev_stage := s; ev_in := inp; ev_out := Some o |}] /\
                   (forall t, runs_in sched i t -> In t (ran st') <-> t = s \/ In t (ran st)) /\
                   (((forall t, runs_in sched i t -> In t (ran st')) /\ cur st' = S i) \/
                    (~ (forall t, runs_in sched i t -> In t (ran st')) /\ cur st' = i))
             end
         end)
    end.
  Proof.
    intro I. unfold RunnerModel.run_stage.
    destruct (schedule_index sched s) as [i|] eqn:E; [|reflexivity].
    apply (schedule_index_iff WF) in E.
    destruct (Nat.ltb_spec (cur st) i) as [L|L]; [left; auto|]. right. split; [exact L|].
    fold (seek st i).
    destruct (seek_spec I L) as (I1 & C1 & H1 & A1 & G1 & N1 & R1).
    rewrite lookup_all_read.
    replace (read_fields (dget (dupdate (hget (heap (seek st i)) (avail (seek st i))) kw)) (fields s))
      with (read_fields (updated (values st) kw) (fields s)).
    2:{ apply read_fields_ext. intros n _. rewrite dget_dupdate, H1, A1. reflexivity. }
    destruct (read_fields (updated (values st) kw) (fields s)) as [inp|]; [|reflexivity].
    rewrite G1. destruct (behave (log st) s inp) as [o|].
    - set (w := written (seek st i) s inp o).
      assert (Iw : Inv w) by (apply written_inv; auto; rewrite C1; auto).
      assert (Cw : cur w = i) by (simpl; auto).
      assert (Rw : forall t, runs_in sched i t -> In t (ran w) <-> t = s \/ In t (ran st)).
      { intros t Ht. unfold w, written. simpl. rewrite in_sadd, (R1 i t Ht). intuition lia. }
      assert (Hw : runs_in sched (cur w) s) by (rewrite Cw; exact E).
      assert (Sw : In s (ran w)) by (apply Rw; auto).
      destruct (progress_spec Iw Hw Sw) as (Ip & Ap & Lp & Gp & Rp & Hp & Cp).
      exists (progress w). rewrite <- G1.
      split; [reflexivity|].
      assert (Aw : avail w = avail st) by (simpl; auto).
      assert (Hh : hget (heap w) (avail st) = dupdate (hget (heap st) (avail st)) o).
      { simpl. rewrite A1, H1. apply hget_hset_same. apply (v_avail I). }
      assert (Ho : forall a, a <> avail st -> hget (heap w) a = hget (heap st) a).
      { intros a Ha. simpl. rewrite A1, H1. apply hget_hset_other. auto. }
      assert (Hl : length (heap w) = length (heap st)) by (simpl; rewrite hset_length, H1; auto).
      split; [exact Ip|]. split; [congruence|].
      split; [|split; [|split; [|split; [|split; [|split]]]]].
      + destruct Hp as [-> | ->]; auto. rewrite hget_app; auto. rewrite Hl. apply (v_avail I).
      + intros a Ha La. destruct Hp as [-> | ->]; auto. rewrite hget_app; auto. lia.
      + destruct Hp as [-> | ->]; rewrite ?app_length; lia.
      + rewrite Gp. simpl. auto.
      + rewrite Lp. simpl. reflexivity.
      + intros t Ht. rewrite Rp. apply Rw; auto.
      + rewrite Rp. rewrite Cw in Cp. exact Cp.
    - eexists. split; [reflexivity|]. cbn [heap avail cur gens ran data log].
      split; [|do 7 (try split; auto)].
      destruct I1. constructor; cbn [heap avail cur gens ran data log]; auto.
      + intros t Ht. apply succeeded_app. rewrite <- G1. auto.
      + apply log_ok_snoc with (k := i); auto.
        * rewrite <- G1. auto.
        * intros j t Hj Ht. apply (v_ran_log I).
          apply (v_ran_before I) with j; auto; lia.
  Qed.
End RunnerInv.
