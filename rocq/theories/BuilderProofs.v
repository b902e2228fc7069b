(** Proofs about the builder model. *)
From Verif Require Import Base BaseLemmas BuilderModel BuilderSpec.
Set Implicit Arguments.

(* ------------------------------------------------------------------ *)
(** * Vocabulary lemmas *)

Lemma runs_in_snoc order g k s :
  runs_in (order ++ [g]) k s <->
  (k < length order /\ runs_in order k s) \/ (k = length order /\ In s g).
Proof.
  unfold runs_in. split.
  - intros [h [Hk Hs]]. rewrite nth_error_snoc in Hk.
    destruct (Nat.ltb_spec k (length order)).
    + left; split; eauto.
    + destruct (Nat.eqb_spec k (length order)); [|discriminate].
      injection Hk as <-. auto.
  - intros [[Hk [h [Hh Hs]]] | [-> Hs]].
    + exists h. split; auto. rewrite nth_error_snoc.
      destruct (Nat.ltb_spec k (length order)); [auto|lia].
    + exists g. split; auto. rewrite nth_error_snoc, Nat.ltb_irrefl, Nat.eqb_refl. auto.
Qed.

Lemma runs_in_lt order k s : runs_in order k s -> k < length order.
Proof. intros [g [H _]]. apply nth_error_Some. congruence. Qed.

Lemma runs_in_concat order s : In s (concat order) <-> exists k, runs_in order k s.
Proof.
  rewrite in_concat_nth. unfold runs_in. firstorder.
Qed.

Lemma available_before_snoc D init order g k a :
  k <= length order ->
  available_before D init (order ++ [g]) k a <-> available_before D init order k a.
Proof.
  intro Hk. unfold available_before. split; (intros [H|(j & s & Hj & Hr & Ha)]; [auto|right]).
  - apply runs_in_snoc in Hr. destruct Hr as [[? Hr]|[-> _]]; [|lia]. eauto.
  - exists j, s. split; [auto|]. split; [|auto]. apply runs_in_snoc. left.
    split; [lia|auto].
Qed.

Lemma available_before_mono D init order j k a :
  j <= k -> available_before D init order j a -> available_before D init order k a.
Proof.
  intros Hjk [H|(i & s & Hi & Hr & Ha)]; [left; auto|right].
  exists i, s. split; [lia|auto].
Qed.

(* ------------------------------------------------------------------ *)
(** * Restrictions *)

Lemma restrictions_of_arg_ok s a r :
  restrictions_of_arg s a = Ok r -> r = [] /\ is_type_marker (snd a) = false.
Proof.
  unfold restrictions_of_arg, is_type_marker.
  destruct a as [n t]; simpl. destruct t as [m|k x|b c]; simpl.
  - intro H; injection H as <-; auto.
  - intro H; injection H as <-; auto.
  - destruct b, c; simpl; intro H; try discriminate. injection H as <-; auto.
Qed.

Lemma restrictions_of_args_ok s l r :
  restrictions_of_args s l = Ok r ->
  r = [] /\ forall a, In a l -> is_type_marker (snd a) = false.
Proof.
  revert r; induction l as [|a l IH]; simpl; intros r H.
  - injection H as <-. split; auto. intros a [].
  - destruct (restrictions_of_arg s a) eqn:E; [|discriminate].
    destruct (restrictions_of_args s l) eqn:E2; [|discriminate].
    injection H as <-. apply restrictions_of_arg_ok in E.
    destruct E as [-> E]. destruct (IH _ eq_refl) as [-> IH'].
    split; auto. intros b [<-|Hb]; auto.
Qed.

Section WithDecls.
  Variable D : decls.

  Lemma get_ordering_restrictions_ok stages r :
    get_ordering_restrictions D stages = Ok r ->
    r = [] /\ forall s a, In s stages -> In a (d_in D s) -> is_type_marker (snd a) = false.
  Proof.
    revert r; induction stages as [|s l IH]; simpl; intros r H.
    - injection H as <-. split; auto. intros s a [].
    - destruct (restrictions_of_args s (d_in D s)) eqn:E; [|discriminate].
      destruct (get_ordering_restrictions D l) eqn:E2; [|discriminate].
      injection H as <-. apply restrictions_of_args_ok in E. destruct E as [-> E].
      destruct (IH _ eq_refl) as [-> IH']. split; auto.
      intros t a [<-|Ht] Ha; eauto.
  Qed.

  Lemma restrictions_of_args_none s l :
    (forall a, In a l -> is_type_marker (snd a) = false) -> restrictions_of_args s l = Ok [].
  Proof.
    induction l as [|a l IH]; simpl; intro H; auto.
    assert (Ha := H a (or_introl eq_refl)).
    unfold restrictions_of_arg. unfold is_type_marker in Ha.
    apply orb_false_iff in Ha. destruct Ha as [-> ->].
    rewrite IH; auto.
  Qed.

  Lemma get_ordering_restrictions_none stages :
    (forall s a, In s stages -> In a (d_in D s) -> is_type_marker (snd a) = false) ->
    get_ordering_restrictions D stages = Ok [].
  Proof.
    induction stages as [|s l IH]; simpl; intro H; auto.
    rewrite restrictions_of_args_none by (intros a Ha; apply (H s a); auto).
    rewrite IH; auto. intros t a Ht; apply H; auto.
  Qed.

  Lemma restrictions_of_args_err s l e :
    restrictions_of_args s l = Err e -> e = EIndexError.
  Proof.
    induction l as [|a l IH]; simpl; intro H; [discriminate|].
    destruct (restrictions_of_arg s a) as [r|e'] eqn:E.
    - destruct (restrictions_of_args s l); [discriminate|]. injection H as <-; auto.
    - injection H as <-. unfold restrictions_of_arg in E.
      destruct a as [n t]; destruct t as [m|k x|b c]; simpl in E; try discriminate.
      destruct b, c; simpl in E; congruence.
  Qed.

  Lemma get_ordering_restrictions_err stages e :
    get_ordering_restrictions D stages = Err e -> e = EIndexError.
  Proof.
    induction stages as [|s l IH]; simpl; intro H; [discriminate|].
    destruct (restrictions_of_args s (d_in D s)) as [r|e'] eqn:E.
    - destruct (get_ordering_restrictions D l); [discriminate|]. injection H as <-; auto.
    - injection H as <-. eapply restrictions_of_args_err; eauto.
  Qed.

  Lemma marker_class_iff a : is_type_marker (snd a) = true <-> marker_class a.
  Proof.
    unfold is_type_marker, marker_class. destruct a as [n t]; destruct t as [m|k x|b c]; simpl.
    - split; [discriminate|intros (b & c & H & _); discriminate].
    - split; [discriminate|intros (b & c & H & _); discriminate].
    - rewrite orb_true_iff. split.
      + intro H. exists b, c. auto.
      + intros (b' & c' & H & H'). injection H as <- <-. auto.
  Qed.

  Lemma strip_markers_none l :
    (forall a, In a l -> is_type_marker (snd a) = false) -> strip_markers l = l.
  Proof.
    induction l as [|a l IH]; simpl; intro H; auto.
    rewrite (H a) by auto. simpl. rewrite IH; auto.
  Qed.

  (* ---------------------------------------------------------------- *)
  (** * Mutating stages *)

  Definition mutargs (s : sid) : list arg := filter (fun i => amem i (d_out D s)) (d_in D s).

  Lemma in_mutargs s a : In a (mutargs s) <-> mutates D s a.
  Proof. unfold mutargs, mutates. rewrite filter_In. unfold amem. rewrite mem_true. tauto. Qed.

  Lemma get_mutating_keys stages s :
    In s (map fst (get_mutating_stages D stages)) <-> In s stages /\ nonempty (mutargs s) = true.
  Proof.
    unfold get_mutating_stages. rewrite in_map_iff. split.
    - intros [[k v] [<- H]]. apply in_flat_map in H. destruct H as [t [Ht H]].
      cbn [fst]. fold (mutargs t) in H.
      destruct (nonempty (mutargs t)) eqn:E; [|destruct H].
      destruct H as [H|[]]. injection H as <- <-. auto.
    - intros [Hs Hn]. exists (s, mutargs s). split; auto.
      apply in_flat_map. exists s. split; auto. fold (mutargs s). rewrite Hn. left; auto.
  Qed.

  Lemma smem_cons s t l : smem s (t :: l) = (Nat.eqb t s || smem s l)%bool.
  Proof.
    unfold smem, mem. destruct (in_dec Nat.eq_dec s (t :: l)) as [H|H];
      destruct (Nat.eqb_spec t s) as [E|E]; destruct (in_dec Nat.eq_dec s l) as [H'|H'];
        simpl in *; auto; exfalso; intuition.
  Qed.

  Lemma dict_get_mutating stages s :
    dict_get (get_mutating_stages D stages) s =
    if smem s stages && nonempty (mutargs s) then Some (mutargs s) else None.
  Proof.
    induction stages as [|t l IH]; [reflexivity|].
    change (get_mutating_stages D (t :: l)) with
      ((if nonempty (mutargs t) then [(t, mutargs t)] else []) ++ get_mutating_stages D l).
    rewrite smem_cons.
    destruct (Nat.eqb_spec t s) as [->|Hne]; cbn [orb].
    - destruct (nonempty (mutargs s)) eqn:E; cbn [app dict_get andb].
      + rewrite Nat.eqb_refl. reflexivity.
      + rewrite IH. rewrite andb_false_r. reflexivity.
    - destruct (nonempty (mutargs t)) eqn:E; cbn [app dict_get]; [|exact IH].
      destruct (Nat.eqb_spec t s); [congruence|exact IH].
  Qed.

  Lemma dict_at_mutating stages s :
    In s stages -> dict_at (get_mutating_stages D stages) s = mutargs s.
  Proof.
    intro H. unfold dict_at. rewrite dict_get_mutating.
    replace (smem s stages) with true by (symmetry; apply mem_true; auto).
    simpl. destruct (nonempty (mutargs s)) eqn:E; auto.
    destruct (mutargs s); [auto|discriminate].
  Qed.

  Lemma exists_pair_true f l :
    exists_pair f l = true <-> exists s t, In s l /\ In t l /\ s <> t /\ f s t = true.
  Proof.
    unfold exists_pair. rewrite existsb_exists. split.
    - intros [s [Hs H]]. apply existsb_exists in H. destruct H as [t [Ht H]].
      apply in_sdiff in Ht. destruct Ht as [Ht Hne]. exists s, t. repeat split; auto.
      intros ->. apply Hne. left; auto.
    - intros (s & t & Hs & Ht & Hne & H). exists s. split; auto. apply existsb_exists.
      exists t. split; auto. apply in_sdiff. split; auto. intros [->|[]]; auto.
  Qed.

  Lemma exists_pair_false f l :
    exists_pair f l = false <-> forall s t, In s l -> In t l -> s <> t -> f s t = false.
  Proof.
    split.
    - intros H s t Hs Ht Hne. destruct (f s t) eqn:E; auto.
      rewrite <- H. symmetry. apply exists_pair_true. exists s, t. auto.
    - intro H. destruct (exists_pair f l) eqn:E; auto.
      apply exists_pair_true in E. destruct E as (s & t & Hs & Ht & Hne & E).
      rewrite (H s t) in E by auto. discriminate.
  Qed.

  (** What the mutating check does to a set of ready stages. *)
  Definition held_back (can_run : list sid) (s : sid) : Prop :=
    exists m a, In m can_run /\ mutates D m a /\ In a (d_in D s) /\ ~ mutates D s a.

  Lemma mutating_check_ok stages can_run post :
    incl can_run stages ->
    mutating_stages_check D can_run (get_mutating_stages D stages) = Ok post ->
    (exists f, post = filter f can_run) /\
    (forall s, In s post <-> In s can_run /\ ~ held_back can_run s) /\
    (forall s t a, In s can_run -> In t can_run -> s <> t -> mutates D s a -> ~ mutates D t a).
  Proof.
    intros Hsub H. unfold mutating_stages_check in H.
    set (mut := get_mutating_stages D stages) in *.
    set (mc := sinter Nat.eq_dec (map fst mut) can_run) in *.
    assert (Hmc : forall s, In s mc <-> In s can_run /\ nonempty (mutargs s) = true).
    { intro s. unfold mc. rewrite in_sinter. unfold mut. rewrite get_mutating_keys.
      split; [tauto|]. intros [H1 H2]; auto. }
    destruct (nonempty mc) eqn:E; cbn [negb] in H.
    - match type of H with context[exists_pair ?f mc] => destruct (exists_pair f mc) eqn:E2 end; [discriminate|].
      rewrite exists_pair_false in E2.
      injection H as <-. split; [eexists; reflexivity|]. split.
      + intro s. rewrite filter_In. split; intros [Hs Hf]; split; auto.
        * intros (m & a & Hm & Hma & Ha & Hna).
          rewrite negb_true_iff, nonempty_false in Hf. apply (Hf a).
          assert (Hin : In a (sinter arg_dec (flat_map (dict_at mut) mc) (d_in D s))).
          { apply in_sinter. split; auto. apply in_flat_map. exists m. split.
            - apply Hmc. split; auto. apply nonempty_true. exists a. apply in_mutargs; auto.
            - unfold mut. rewrite dict_at_mutating by auto. apply in_mutargs; auto. }
          unfold mut. rewrite dict_get_mutating.
          destruct (smem s stages && nonempty (mutargs s)); [|exact Hin].
          apply in_sdiff. split; [exact Hin|]. rewrite in_mutargs. exact Hna.
        * rewrite negb_true_iff, nonempty_false. intros a Ha. apply Hf.
          assert (Hcl : In a (sinter arg_dec (flat_map (dict_at mut) mc) (d_in D s))
                        /\ ~ mutates D s a).
          { unfold mut in Ha. rewrite dict_get_mutating in Ha.
            assert (Hss : smem s stages = true) by (apply mem_true; auto).
            rewrite Hss in Ha. cbn [andb] in Ha.
            destruct (nonempty (mutargs s)) eqn:En.
            - apply in_sdiff in Ha. rewrite in_mutargs in Ha. exact Ha.
            - split; [exact Ha|]. rewrite <- in_mutargs. rewrite nonempty_false in En. apply En. }
          destruct Hcl as [Hcl Hnm]. apply in_sinter in Hcl. destruct Hcl as [Hcl Hin].
          apply in_flat_map in Hcl. destruct Hcl as [m [Hm Hma]].
          assert (Hm' := proj1 (Hmc m) Hm). destruct Hm' as [Hm1 Hm2].
          unfold mut in Hma. rewrite dict_at_mutating in Hma by auto.
          apply in_mutargs in Hma. exists m, a. auto.
      + intros s t a Hs Ht Hne Hsa Hta.
        assert (Hx := E2 s t).
        assert (In s mc) by (apply Hmc; split; auto; apply nonempty_true; exists a; apply in_mutargs; auto).
        assert (In t mc) by (apply Hmc; split; auto; apply nonempty_true; exists a; apply in_mutargs; auto).
        specialize (Hx H H0 Hne). rewrite nonempty_false in Hx. apply (Hx a).
        apply in_sinter. unfold mut. rewrite !dict_at_mutating by auto.
        rewrite !in_mutargs. auto.
    - injection H as <-. rewrite nonempty_false in E. split.
      + exists (fun _ => true). clear. induction can_run as [|x l IH]; simpl; congruence.
      + assert (Hno : forall m a, In m can_run -> ~ mutates D m a).
        { intros m a Hm Hma. apply (E m). apply Hmc. split; auto.
          apply nonempty_true. exists a. apply in_mutargs; auto. }
        split.
        * intro s. split; [|tauto]. intro Hs. split; auto.
          intros (m & a & Hm & Hma & _). eapply Hno; eauto.
        * intros s t a Hs Ht _ Hsa. exfalso. exact (Hno s a Hs Hsa).
  Qed.

  Lemma mutating_check_err stages can_run e :
    incl can_run stages ->
    mutating_stages_check D can_run (get_mutating_stages D stages) = Err e ->
    e = EAmbiguousMutation /\
    exists s t a, In s can_run /\ In t can_run /\ s <> t /\ mutates D s a /\ mutates D t a.
  Proof.
    intros Hsub H. unfold mutating_stages_check in H.
    set (mut := get_mutating_stages D stages) in *.
    set (mc := sinter Nat.eq_dec (map fst mut) can_run) in *.
    assert (Hmc : forall s, In s mc <-> In s can_run /\ nonempty (mutargs s) = true).
    { intro s. unfold mc. rewrite in_sinter. unfold mut. rewrite get_mutating_keys.
      split; [tauto|]. intros [H1 H2]; auto. }
    destruct (nonempty mc) eqn:E; cbn [negb] in H; [|discriminate].
    match type of H with context[exists_pair ?f mc] => destruct (exists_pair f mc) eqn:E2 end; [|discriminate].
    injection H as <-. split; auto.
    apply exists_pair_true in E2. destruct E2 as (s & t & Hs & Ht & Hne & Hf).
    apply nonempty_true in Hf. destruct Hf as [a Ha]. apply in_sinter in Ha.
    assert (Hs' := proj1 (Hmc s) Hs). assert (Ht' := proj1 (Hmc t) Ht).
    unfold mut in Ha. rewrite !dict_at_mutating in Ha by (apply Hsub; tauto).
    rewrite !in_mutargs in Ha. exists s, t, a. tauto.
  Qed.

  (* ---------------------------------------------------------------- *)
  (** * Readiness and the updates of a round *)

  Lemma stage_resolves_spec s resolved available :
    (forall a, In a (d_in D s) -> is_type_marker (snd a) = false) ->
    stage_resolves D s resolved available [] = true <-> incl (d_in D s) available.
  Proof.
    intro Hm. unfold stage_resolves. rewrite strip_markers_none by auto.
    simpl. rewrite andb_true_r, negb_true_iff, sdiff_empty. tauto.
  Qed.

  Lemma in_add_outputs post available a :
    In a (add_outputs D post available) <->
    In a available \/ exists s, In s post /\ In a (d_out D s).
  Proof.
    unfold add_outputs. revert available.
    induction post as [|s post IH]; intro av; simpl.
    - split; auto. intros [H|(s & [] & _)]; auto.
    - rewrite IH, in_sunion. split.
      + intros [[H|H]|(t & Ht & Ha)]; eauto.
      + intros [H|(t & [<-|Ht] & Ha)]; eauto.
  Qed.

  Lemma in_add_resolved_one s rs (outs : list arg) x :
    In x (fold_left (fun rs' _ => sadd Nat.eq_dec s rs') outs rs) <->
    In x rs \/ (x = s /\ outs <> []).
  Proof.
    revert rs; induction outs as [|o outs IH]; intro rs; simpl.
    - split; auto. intros [H|[_ H]]; auto. congruence.
    - rewrite IH, in_sadd. split.
      + intros [[H|H]|[H _]]; auto; right; split; auto; discriminate.
      + intros [H|[H _]]; auto.
  Qed.

  Lemma in_add_resolved post resolved x :
    In x (add_resolved D post resolved) <->
    In x resolved \/ (In x post /\ d_out D x <> []).
  Proof.
    unfold add_resolved. revert resolved.
    induction post as [|s post IH]; intro rs; simpl.
    - tauto.
    - rewrite IH, in_add_resolved_one. split.
      + intros [[H|[-> H]]|[H1 H2]]; auto.
      + intros [H|[[->|H1] H2]]; auto.
  Qed.

  (* ---------------------------------------------------------------- *)
  (** * The loop *)

  Variable iter : nat -> list sid -> list sid.
  Hypothesis Hiter : any_order iter.

  Definition ready (stages resolved : list sid) (available : list arg) : list sid :=
    filter (fun s => stage_resolves D s resolved available [])
           (sdiff Nat.eq_dec stages resolved).

  Definition share_output (post : list sid) : bool :=
    exists_pair (fun s t => nonempty (sinter arg_dec (d_out D s) (d_out D t))) post.

  (** Generic reasoning principle for [resolve_loop]. *)
  Lemma loop_principle (stages : list sid)
        (P : nat -> option (list sid) -> list sid -> list (list sid) -> list arg -> Prop) :
    let mut := get_mutating_stages D stages in
    (forall round prev resolved order available post,
        P round prev resolved order available ->
        match prev with None => True | Some p => ~ incl resolved p end ->
        ~ incl stages resolved ->
        mutating_stages_check D (ready stages resolved available) mut = Ok post ->
        share_output post = false ->
        P (S round) (Some resolved) (add_resolved D post resolved)
          (order ++ [iter round post]) (add_outputs D post available)) ->
    forall fuel round prev resolved order available out av,
      P round prev resolved order available ->
      resolve_loop D iter fuel round stages mut [] prev resolved order available = (out, av) ->
      exists round' prev' resolved' order',
        P round' prev' resolved' order' av /\
        match out with
        | Ok sched =>
            sched = order' /\ incl stages resolved' /\
            match prev' with
            | None => True
            | Some p => ~ incl resolved' p \/ incl stages p
            end
        | Err EOutOfFuel => True
        | Err EAmbiguousMutation =>
            mutating_stages_check D (ready stages resolved' av) mut = Err EAmbiguousMutation
        | Err EAmbiguousOutput =>
            exists post, mutating_stages_check D (ready stages resolved' av) mut = Ok post /\
                         share_output post = true
        | Err (EMissing rep av') =>
            EMissing rep av' = missing_report D stages resolved' av /\
            ~ incl stages resolved' /\ (exists p, prev' = Some p /\ incl resolved' p)
        | Err _ => False
        end.
  Proof.
    intros mut Hstep fuel.
    assert (Hne : forall l1 l2 : list sid,
               nonempty (sdiff Nat.eq_dec l1 l2) = true -> ~ incl l1 l2).
    { intros l1 l2 H1 H2. apply (proj2 (sdiff_empty Nat.eq_dec l1 l2)) in H2. congruence. }
    induction fuel as [|fuel IH]; intros round prev resolved order available out av HP H.
    - simpl in H. injection H as <- <-. exists round, prev, resolved, order. auto.
    - cbn [resolve_loop] in H.
      destruct (match prev with None => true
                | Some p => nonempty (sdiff Nat.eq_dec resolved p) end) eqn:Ec.
      + assert (Hprog : match prev with None => True | Some p => ~ incl resolved p end).
        { destruct prev as [p|]; auto. }
        destruct (nonempty (sdiff Nat.eq_dec stages resolved)) eqn:En; cbn [negb] in H.
        * fold (ready stages resolved available) in H.
          destruct (mutating_stages_check D (ready stages resolved available) mut)
            as [post|e] eqn:Em.
          -- fold (share_output post) in H.
             destruct (share_output post) eqn:Es.
             ++ injection H as <- <-. exists round, prev, resolved, order. split; auto.
                exists post. auto.
             ++ eapply IH; [|exact H]. eapply Hstep; eauto.
          -- injection H as <- <-.
             assert (He : e = EAmbiguousMutation).
             { eapply mutating_check_err; [|exact Em].
               intros x Hx. unfold ready in Hx. apply filter_In in Hx.
               destruct Hx as [Hx _]. apply in_sdiff in Hx. tauto. }
             subst e. exists round, prev, resolved, order. auto.
        * injection H as <- <-. exists round, prev, resolved, order. split; auto.
          split; auto. apply sdiff_empty in En. split; auto. destruct prev; auto.
      + destruct prev as [p|]; [|discriminate].
        apply sdiff_empty in Ec.
        destruct (nonempty (sdiff Nat.eq_dec stages resolved)) eqn:En.
        * injection H as <- <-. exists round, (Some p), resolved, order. split; auto.
          unfold missing_report. split; auto. split; [auto|eauto].
        * injection H as <- <-. exists round, (Some p), resolved, order. split; auto.
          split; auto. apply sdiff_empty in En. split; auto. right.
          intros x Hx. auto.
  Qed.

  (** ** The invariant *)
  Section Inv.
    Variable stages : list sid.
    Variable init : list arg.
    Hypothesis Hnd : NoDup stages.
    Hypothesis Hplain : forall s a, In s stages -> In a (d_in D s) -> is_type_marker (snd a) = false.

    Lemma in_ready s resolved available :
      In s (ready stages resolved available) <->
      In s stages /\ ~ In s resolved /\ incl (d_in D s) available.
    Proof.
      unfold ready. rewrite filter_In, in_sdiff. split.
      - intros [[Hs Hr] H].
        apply (@stage_resolves_spec s resolved available (fun a => Hplain s a Hs)) in H. auto.
      - intros (Hs & Hr & H). split; [auto|].
        apply (@stage_resolves_spec s resolved available (fun a => Hplain s a Hs)). auto.
    Qed.

    Lemma ready_NoDup resolved available : NoDup (ready stages resolved available).
    Proof. unfold ready. apply NoDup_filter, sdiff_NoDup; auto. Qed.

    Lemma ready_incl resolved available : incl (ready stages resolved available) stages.
    Proof. intros s Hs. apply in_ready in Hs. tauto. Qed.

    Record Inv (round : nat) (prev : option (list sid)) (resolved : list sid)
           (order : list (list sid)) (available : list arg) : Prop := {
      i_len : length order = round;
      i_av : forall a, In a available <-> available_before D init order (length order) a;
      i_res : forall s, In s resolved <-> In s (concat order) /\ d_out D s <> [];
      i_sub : incl (concat order) stages;
      i_inputs : forall k s a, runs_in order k s -> In a (d_in D s) ->
                               available_before D init order k a;
      i_group_nd : forall k g, nth_error order k = Some g -> NoDup g;
      i_once : forall j k s, runs_in order j s -> runs_in order k s -> d_out D s <> [] -> j = k;
      i_disj : forall k s t a, runs_in order k s -> runs_in order k t -> s <> t ->
                               In a (d_out D s) -> ~ In a (d_out D t);
      i_mut : forall k s t a, runs_in order k s -> runs_in order k t -> s <> t ->
                              mutates D s a -> ~ In a (d_in D t);
      i_late : forall k r m a, runs_in order k r -> In a (d_in D r) -> ~ mutates D r a ->
                               In m stages -> mutates D m a ->
                               (forall j, j < k -> ~ runs_in order j m) ->
                               exists b, In b (d_in D m) /\ ~ available_before D init order k b;
      i_asap : forall k s, k < length order -> In s stages ->
                           (forall j, j <= k -> ~ runs_in order j s) ->
                           (exists b, In b (d_in D s) /\ ~ available_before D init order k b)
                           \/ exists m a, In m stages /\ mutates D m a /\ In a (d_in D s) /\
                                          ~ mutates D s a /\
                                          (forall j, j < k -> ~ runs_in order j m) /\
                                          (forall b, In b (d_in D m) ->
                                                     available_before D init order k b);
      i_prev : match prev with
               | None => order = []
               | Some p =>
                   ~ incl stages p /\
                   exists av0 post order0 r,
                     mutating_stages_check D (ready stages p av0) (get_mutating_stages D stages)
                     = Ok post /\
                     resolved = add_resolved D post p /\
                     available = add_outputs D post av0 /\
                     order = order0 ++ [iter r post]
               end;
      i_nonempty : forall k g, S k < length order -> nth_error order k = Some g -> g <> []
    }.

    Lemma inv_init : Inv 0 None [] [] init.
    Proof.
      constructor; simpl; auto.
      - intro a. unfold available_before. split; auto.
        intros [H|(j & s & Hj & _)]; auto. lia.
      - intro s. tauto.
      - intros s [].
      - intros k s a Hr. apply runs_in_lt in Hr. simpl in Hr; lia.
      - intros k g Hg. destruct k; discriminate.
      - intros j k s Hr. apply runs_in_lt in Hr. simpl in Hr; lia.
      - intros k s t a Hr. apply runs_in_lt in Hr. simpl in Hr; lia.
      - intros k s t a Hr. apply runs_in_lt in Hr. simpl in Hr; lia.
      - intros k r m a Hr. apply runs_in_lt in Hr. simpl in Hr; lia.
      - intros k s Hk. lia.
      - intros k g Hk. lia.
    Qed.

    Lemma share_output_false post :
      share_output post = false ->
      forall s t a, In s post -> In t post -> s <> t -> In a (d_out D s) -> ~ In a (d_out D t).
    Proof.
      intros H s t a Hs Ht Hne Ha Hb. unfold share_output in H.
      rewrite exists_pair_false in H. specialize (H s t Hs Ht Hne).
      rewrite nonempty_false in H. apply (H a). apply in_sinter. auto.
    Qed.

    Lemma in_iter r post s : In s (iter r post) <-> In s post.
    Proof. symmetry. apply (perm_set_eq (Permutation_sym (Hiter r post))). Qed.

    Lemma inv_step round prev resolved order available post :
      Inv round prev resolved order available ->
      match prev with None => True | Some p => ~ incl resolved p end ->
      ~ incl stages resolved ->
      mutating_stages_check D (ready stages resolved available) (get_mutating_stages D stages)
      = Ok post ->
      share_output post = false ->
      Inv (S round) (Some resolved) (add_resolved D post resolved)
          (order ++ [iter round post]) (add_outputs D post available).
    Proof.
      intros I Hprog Hmore Hm Hs.
      destruct (mutating_check_ok (@ready_incl _ _) Hm) as ((f & Hf) & Hpost & Hmm).
      assert (Hpost' : forall s, In s post -> In s stages /\ ~ In s resolved /\
                                              incl (d_in D s) available).
      { intros s H. apply Hpost in H. destruct H as [H _]. apply in_ready in H. auto. }
      assert (Hnever : forall s, In s stages -> ~ In s resolved -> d_out D s <> [] ->
                                 forall j, ~ runs_in order j s).
      { intros s H1 H2 H3 j Hr. apply H2. apply (i_res I). split; auto.
        apply runs_in_concat. eauto. }
      assert (Hndp : NoDup post).
      { rewrite Hf. apply NoDup_filter, ready_NoDup. }
      assert (Hmutout : forall m a, mutates D m a -> d_out D m <> []).
      { intros m a [_ Ha] E. rewrite E in Ha. destruct Ha. }
      constructor.
      - rewrite app_length, (i_len I). simpl. lia.
      - intro a. rewrite in_add_outputs, (i_av I), app_length. simpl.
        rewrite Nat.add_1_r. unfold available_before at 2. split.
        + intros [H|(s & Hs' & Ha)].
          * destruct H as [H|(j & s & Hj & Hr & Ha)]; auto. right.
            exists j, s. split; [lia|]. split; auto. apply runs_in_snoc; auto.
          * right. exists (length order), s. split; [lia|]. split; auto.
            apply runs_in_snoc. right. split; auto. apply in_iter; auto.
        + intros [H|(j & s & Hj & Hr & Ha)]; [left; left; auto|].
          apply runs_in_snoc in Hr. destruct Hr as [[Hj' Hr]|[-> Hr]].
          * left. right. exists j, s. auto.
          * right. exists s. split; auto. apply in_iter in Hr. auto.
      - intro s. rewrite in_add_resolved, (i_res I), concat_app, in_app_iff. simpl.
        rewrite app_nil_r, in_iter. tauto.
      - intros s H. rewrite concat_app, in_app_iff in H. simpl in H.
        rewrite app_nil_r, in_iter in H. destruct H as [H|H]; [apply (i_sub I); auto|].
        apply Hpost' in H. tauto.
      - intros k s a Hr Ha. apply runs_in_snoc in Hr. destruct Hr as [[Hk Hr]|[-> Hr]].
        + apply available_before_snoc; [lia|]. eapply (i_inputs I); eauto.
        + apply available_before_snoc; [lia|]. apply (i_av I). apply in_iter in Hr.
          apply Hpost' in Hr. destruct Hr as (_ & _ & Hr). auto.
      - intros k g Hg. rewrite nth_error_snoc in Hg.
        destruct (Nat.ltb k (length order)).
        + eapply (i_group_nd I); eauto.
        + destruct (Nat.eqb k (length order)); [|discriminate]. injection Hg as <-.
          eapply Permutation_NoDup; [apply Permutation_sym, Hiter|exact Hndp].
      - intros j k s Hj Hk Ho. apply runs_in_snoc in Hj. apply runs_in_snoc in Hk.
        destruct Hj as [[Lj Hj]|[-> Hj]], Hk as [[Lk Hk]|[-> Hk]]; auto.
        + eapply (i_once I); eauto.
        + exfalso. apply in_iter in Hk. apply Hpost' in Hk. destruct Hk as (H1 & H2 & _).
          eapply Hnever; eauto.
        + exfalso. apply in_iter in Hj. apply Hpost' in Hj. destruct Hj as (H1 & H2 & _).
          eapply Hnever; eauto.
      - intros k s t a Hr Ht Hne. apply runs_in_snoc in Hr. apply runs_in_snoc in Ht.
        destruct Hr as [[Lj Hr]|[-> Hr]], Ht as [[Lk Ht]|[E Ht]]; try lia.
        + eapply (i_disj I); eauto.
        + apply in_iter in Hr. apply in_iter in Ht. eapply share_output_false; eauto.
      - intros k s t a Hr Ht Hne Hsa. apply runs_in_snoc in Hr. apply runs_in_snoc in Ht.
        destruct Hr as [[Lj Hr]|[-> Hr]], Ht as [[Lk Ht]|[E Ht]]; try lia.
        + exact (i_mut I Hr Ht Hne Hsa).
        + intro Hin. apply in_iter in Hr. apply in_iter in Ht.
          apply Hpost in Hr. apply Hpost in Ht. destruct Hr as [Hr _], Ht as [Ht Hnh].
          apply Hnh. exists s, a. split; [exact Hr|]. split; [exact Hsa|]. split; [exact Hin|].
          exact (Hmm s t a Hr Ht Hne Hsa).
      - intros k r m a Hr Ha Hna Hms Hma Hno. apply runs_in_snoc in Hr.
        destruct Hr as [[Lk Hr]|[-> Hr]].
        + destruct (i_late I) with (k := k) (r := r) (m := m) (a := a) as (b & Hb & Hb'); auto.
          * intros j Hj Hrj. apply (Hno j Hj). apply runs_in_snoc. left. split; [lia|auto].
          * exists b. split; auto. rewrite available_before_snoc; [auto|lia].
        + apply in_iter in Hr. apply Hpost in Hr. destruct Hr as [Hr Hnh].
          destruct (in_dec Nat.eq_dec m (ready stages resolved available)) as [Hin|Hnin].
          * exfalso. apply Hnh. exists m, a. auto.
          * assert (Hx : ~ incl (d_in D m) available).
            { intro Hincl. apply Hnin. apply in_ready. split; [auto|]. split; [|auto].
              intro Hres. apply (i_res I) in Hres. destruct Hres as [Hres _].
              apply runs_in_concat in Hres. destruct Hres as [j Hj].
              apply (Hno j).
              - eapply runs_in_lt; eauto.
              - apply runs_in_snoc. left. split; auto. eapply runs_in_lt; eauto. }
            assert (He : nonempty (sdiff arg_dec (d_in D m) available) = true).
            { destruct (nonempty (sdiff arg_dec (d_in D m) available)) eqn:E; auto.
              apply sdiff_empty in E. contradiction. }
            apply nonempty_true in He. destruct He as [b Hb]. apply in_sdiff in Hb.
            exists b. split; [tauto|]. rewrite available_before_snoc by lia.
            rewrite <- (i_av I). tauto.
      - intros k s Hk Hst Hno. rewrite app_length in Hk. simpl in Hk.
        destruct (Nat.eq_dec k (length order)) as [->|Hne].
        + assert (Hnr : ~ In s resolved).
          { intro Hres. apply (i_res I) in Hres. destruct Hres as [Hres _].
            apply runs_in_concat in Hres. destruct Hres as [j Hj].
            pose proof (runs_in_lt Hj) as Hlt.
            apply (Hno j); [lia|]. apply runs_in_snoc. left. auto. }
          assert (Hnp : ~ In s post).
          { intro Hp. apply (Hno (length order)); auto. apply runs_in_snoc. right.
            split; auto. apply in_iter; auto. }
          destruct (nonempty (sdiff arg_dec (d_in D s) available)) eqn:E.
          * left. apply nonempty_true in E. destruct E as [b Hb]. apply in_sdiff in Hb.
            exists b. split; [tauto|]. rewrite available_before_snoc by lia.
            rewrite <- (i_av I). tauto.
          * right. apply sdiff_empty in E.
            assert (Hrd : In s (ready stages resolved available)) by (apply in_ready; auto).
            assert (Hhb : held_back (ready stages resolved available) s).
            { (* decide by exhaustive search *)
              destruct (existsb (fun m => existsb (fun a => amem a (d_in D s) && negb (amem a (mutargs s))) (mutargs m)) (ready stages resolved available)) eqn:X.
              - apply existsb_exists in X. destruct X as [m [Hm' X]].
                apply existsb_exists in X. destruct X as [a [Ha X]].
                apply andb_true_iff in X. destruct X as [X1 X2].
                apply mem_true in X1. apply negb_true_iff in X2. apply mem_false in X2.
                rewrite in_mutargs in *. exists m, a. auto.
              - exfalso. apply Hnp. apply Hpost. split; auto.
                intros (m & a & Hm' & Hma & Ha & Hna).
                rewrite existsb_false_iff in X. specialize (X m Hm').
                rewrite existsb_false_iff in X. specialize (X a).
                rewrite in_mutargs in X. specialize (X Hma).
                apply andb_false_iff in X. destruct X as [X|X].
                + apply mem_false in X. auto.
                + apply negb_false_iff, mem_true in X. rewrite in_mutargs in X. auto. }
            destruct Hhb as (m & a & Hm' & Hma & Ha & Hna). exists m, a.
            apply in_ready in Hm'. destruct Hm' as (Hm1 & Hm2 & Hm3).
            repeat split; auto; try apply Hma.
            -- intros j Hj Hr. apply runs_in_snoc in Hr. destruct Hr as [[_ Hr]|[-> _]]; [|lia].
               eapply Hnever; eauto.
            -- intros b Hb. apply available_before_snoc; [lia|]. apply (i_av I). auto.
        + destruct (i_asap I) with (k := k) (s := s) as [(b & Hb & Hb')|(m & a & H1 & H2 & H3 & H4 & H5 & H6)]; auto.
          * lia.
          * intros j Hj Hr. apply (Hno j Hj). apply runs_in_snoc. left. split; [lia|auto].
          * left. exists b. split; auto. rewrite available_before_snoc; [auto|lia].
          * right. exists m, a. repeat split; auto; try apply H2.
            -- intros j Hj Hr. apply runs_in_snoc in Hr.
               destruct Hr as [[_ Hr]|[-> _]]; [|lia]. eapply H5; eauto.
            -- intros b Hb. apply available_before_snoc; [lia|]. auto.
      - split; auto. exists available, post, order, round. auto.
      - intros k g Hk Hg. rewrite app_length in Hk. simpl in Hk.
        rewrite nth_error_snoc in Hg. destruct (Nat.ltb_spec k (length order)); [|lia].
        destruct (Nat.eq_dec (S k) (length order)) as [E|Hne].
        + pose proof (i_prev I) as Hp. destruct prev as [p|].
          * destruct Hp as (_ & av0 & post0 & order0 & r & Hm0 & Hr0 & Ha0 & Ho0).
            intro Hg0. subst g. apply Hprog. subst resolved.
            rewrite Ho0, app_length in E. simpl in E.
            rewrite Ho0, nth_error_snoc in Hg.
            destruct (Nat.ltb_spec k (length order0)); [lia|].
            destruct (Nat.eqb_spec k (length order0)); [|discriminate].
            injection Hg as Hg. pose proof (Hiter r post0) as Hperm. rewrite Hg in Hperm.
            apply Permutation_nil in Hperm. subst post0. intros x Hx. exact Hx.
          * rewrite Hp in *. simpl in *. lia.
        + eapply (i_nonempty I); [|exact Hg]. lia.
    Qed.

    Lemma loop_inv out av :
      resolve_loop D iter (resolve_fuel stages) 0 stages (get_mutating_stages D stages) []
                   None [] [] init = (out, av) ->
      exists round' prev' resolved' order',
        Inv round' prev' resolved' order' av /\
        match out with
        | Ok sched =>
            sched = order' /\ incl stages resolved' /\
            match prev' with
            | None => True
            | Some p => ~ incl resolved' p \/ incl stages p
            end
        | Err EOutOfFuel => True
        | Err EAmbiguousMutation =>
            mutating_stages_check D (ready stages resolved' av) (get_mutating_stages D stages)
            = Err EAmbiguousMutation
        | Err EAmbiguousOutput =>
            exists post, mutating_stages_check D (ready stages resolved' av)
                                               (get_mutating_stages D stages) = Ok post /\
                         share_output post = true
        | Err (EMissing rep av') =>
            EMissing rep av' = missing_report D stages resolved' av /\
            ~ incl stages resolved' /\ (exists p, prev' = Some p /\ incl resolved' p)
        | Err _ => False
        end.
    Proof.
      intro H. eapply loop_principle; [|exact inv_init|exact H].
      intros; eapply inv_step; eauto.
    Qed.

    (** ** Fuel *)
    Lemma unresolved_decreases post resolved :
      incl post stages ->
      nonempty (sdiff Nat.eq_dec (add_resolved D post resolved) resolved) = true ->
      length (sdiff Nat.eq_dec stages (add_resolved D post resolved)) <
      length (sdiff Nat.eq_dec stages resolved).
    Proof.
      intros Hp H. apply nonempty_true in H. destruct H as [x Hx].
      apply in_sdiff in Hx. destruct Hx as [Hx Hnx].
      assert (Hxs : In x stages).
      { apply in_add_resolved in Hx. destruct Hx as [Hx|[Hx _]]; [contradiction|auto]. }
      apply NoDup_incl_length_lt with (x := x).
      - exact Nat.eq_dec.
      - apply sdiff_NoDup; auto.
      - intros y Hy. apply in_sdiff in Hy. apply in_sdiff. split; [tauto|].
        intro Hr. apply (proj2 Hy). apply in_add_resolved. auto.
      - apply in_sdiff. auto.
      - intro H. apply in_sdiff in H. tauto.
    Qed.

    Lemma post_incl resolved available post :
      mutating_stages_check D (ready stages resolved available) (get_mutating_stages D stages)
      = Ok post -> incl post stages.
    Proof.
      intros Hm s Hs.
      destruct (mutating_check_ok (@ready_incl _ _) Hm) as (_ & Hpost & _).
      apply Hpost in Hs. eapply ready_incl. apply Hs.
    Qed.

    Lemma loop_fuel fuel fuel' round prev (resolved : list sid) order available :
      length (sdiff Nat.eq_dec stages resolved) + 1 <= fuel ->
      fuel <= fuel' ->
      resolve_loop D iter fuel' round stages (get_mutating_stages D stages) []
                   prev resolved order available
      = resolve_loop D iter fuel round stages (get_mutating_stages D stages) []
                     prev resolved order available /\
      fst (resolve_loop D iter fuel round stages (get_mutating_stages D stages) []
                        prev resolved order available) <> Err EOutOfFuel.
    Proof.
      revert fuel' round prev resolved order available.
      induction fuel as [|fuel IH]; intros fuel' round prev resolved order available Hf Hf'.
      - lia.
      - destruct fuel' as [|fuel']; [lia|]. cbn [resolve_loop].
        destruct (match prev with None => true
                  | Some p => nonempty (sdiff Nat.eq_dec resolved p) end).
        + destruct (nonempty (sdiff Nat.eq_dec stages resolved)) eqn:En; cbn [negb].
          * fold (ready stages resolved available).
            destruct (mutating_stages_check D (ready stages resolved available)
                        (get_mutating_stages D stages)) as [post|e] eqn:Em.
            -- fold (share_output post). destruct (share_output post) eqn:Es.
               ++ split; [reflexivity|]. discriminate.
               ++ destruct (nonempty (sdiff Nat.eq_dec (add_resolved D post resolved) resolved)) eqn:Ep.
                  ** assert (Hdec := @unresolved_decreases _ _ (post_incl _ _ Em) Ep).
                     apply IH; lia.
                  ** destruct fuel as [|fuel].
                     { exfalso. destruct (sdiff Nat.eq_dec stages resolved); simpl in *;
                         [discriminate|lia]. }
                     destruct fuel' as [|fuel']; [lia|].
                     cbn [resolve_loop]. rewrite Ep.
                     destruct (nonempty (sdiff Nat.eq_dec stages (add_resolved D post resolved)));
                       split; auto; discriminate.
            -- split; [reflexivity|]. apply mutating_check_err in Em; [|apply ready_incl].
               destruct Em as [-> _]. discriminate.
          * split; auto; discriminate.
        + destruct (nonempty (sdiff Nat.eq_dec stages resolved)); split; auto; discriminate.
    Qed.
  End Inv.

  (* ---------------------------------------------------------------- *)
  (** * Results of resolution *)

  Lemma plain_of_restrictions stages r :
    get_ordering_restrictions D stages = Ok r ->
    r = [] /\ (forall s a, In s stages -> In a (d_in D s) -> is_type_marker (snd a) = false).
  Proof. apply get_ordering_restrictions_ok. Qed.

  Lemma resolve_cases stages init out av :
    NoDup stages ->
    resolve_stages D iter stages init = (out, av) ->
    (out = Err EIndexError /\ av = init /\
     exists s a, In s stages /\ In a (d_in D s) /\ is_type_marker (snd a) = true) \/
    ((forall s a, In s stages -> In a (d_in D s) -> is_type_marker (snd a) = false) /\
     out <> Err EOutOfFuel /\
     resolve_loop D iter (resolve_fuel stages) 0 stages (get_mutating_stages D stages) []
                  None [] [] init = (out, av)).
  Proof.
    intros Hnd H. unfold resolve_stages in H.
    destruct (get_ordering_restrictions D stages) as [r|e] eqn:E.
    - right. apply plain_of_restrictions in E. destruct E as [-> Hp].
      split; [exact Hp|]. split; [|exact H].
      destruct (@loop_fuel stages Hnd Hp (resolve_fuel stages) (resolve_fuel stages)
                           0 None [] [] init) as [_ Hx]; [|lia|].
      + unfold resolve_fuel. assert (length (sdiff Nat.eq_dec stages []) <= length stages).
        { apply NoDup_incl_length; [apply sdiff_NoDup; auto|].
          intros x Hx. apply in_sdiff in Hx. tauto. }
        lia.
      + rewrite H in Hx. exact Hx.
    - left. injection H as <- <-. pose proof (get_ordering_restrictions_err _ E) as ->.
      split; auto. split; auto.
      destruct (existsb (fun s => existsb (fun a => is_type_marker (snd a)) (d_in D s)) stages) eqn:X.
      + apply existsb_exists in X. destruct X as [s [Hs X]].
        apply existsb_exists in X. destruct X as [a [Ha X]]. eauto.
      + rewrite get_ordering_restrictions_none in E; [discriminate|].
        intros s a Hs Ha. rewrite existsb_false_iff in X. specialize (X s Hs).
        rewrite existsb_false_iff in X. auto.
  Qed.

  Lemma resolve_ok stages init sched av :
    NoDup stages ->
    resolve_stages D iter stages init = (Ok sched, av) ->
    (forall s a, In s stages -> In a (d_in D s) -> is_type_marker (snd a) = false) /\
    exists round prev resolved,
      Inv stages init round prev resolved sched av /\ incl stages resolved /\
      match prev with None => True | Some p => ~ incl resolved p end.
  Proof.
    intros Hnd H. apply resolve_cases in H; auto.
    destruct H as [(H & _)|(Hp & _ & H)]; [discriminate|].
    split; [exact Hp|].
    apply loop_inv in H; auto.
    destruct H as (round & prev & resolved & order & I & -> & Hinc & Hprog).
    exists round, prev, resolved. split; auto. split; auto.
    pose proof (i_prev I) as Hpr. destruct prev as [p|]; auto.
    destruct Hprog as [Hprog|Hprog]; auto. exfalso. apply (proj1 Hpr). exact Hprog.
  Qed.

  (** ** Constructor check *)
  Lemma runs_in_cons g rest k s :
    runs_in (g :: rest) k s <->
    match k with 0 => In s g | S k' => runs_in rest k' s end.
  Proof.
    unfold runs_in. destruct k as [|k]; simpl.
    - split; [intros [h [H Hs]]; injection H as <-; auto|eauto].
    - tauto.
  Qed.

  Lemma in_outs_fold g (available : list arg) a :
    In a (fold_left (fun av s => sunion arg_dec av (d_out D s)) g available) <->
    In a available \/ exists s, In s g /\ In a (d_out D s).
  Proof. apply in_add_outputs. Qed.

  Lemma check_runnable_iff sched : forall initial,
    check_runnable D sched initial = true <-> runnable D initial sched.
  Proof.
    induction sched as [|g rest IH]; intro init; simpl.
    - split; auto. intros _ k s a [h [H _]]. destruct k; discriminate.
    - destruct (existsb (fun s => nonempty (sdiff arg_dec (d_in D s) init)) g) eqn:E.
      + split; [discriminate|]. intro H. exfalso.
        apply existsb_exists in E. destruct E as [s [Hs E]].
        apply nonempty_true in E. destruct E as [a Ha]. apply in_sdiff in Ha.
        destruct (H 0 s a) as [Hi|(j & t & Hj & _)]; [|tauto|tauto|lia].
        apply runs_in_cons. auto.
      + rewrite IH. rewrite existsb_false_iff in E. split; intro H.
        * intros k s a Hr Ha. apply runs_in_cons in Hr. destruct k as [|k].
          -- left. specialize (E s Hr). apply sdiff_empty in E. auto.
          -- destruct (H k s a Hr Ha) as [Hi|(j & t & Hj & Hrt & Hat)].
             ++ apply in_outs_fold in Hi. destruct Hi as [Hi|(t & Ht & Hat)]; [left; auto|].
                right. exists 0, t. split; [lia|]. split; [apply runs_in_cons; auto|auto].
             ++ right. exists (S j), t. split; [lia|]. split; [apply runs_in_cons; auto|auto].
        * intros k s a Hr Ha. destruct (H (S k) s a) as [Hi|(j & t & Hj & Hrt & Hat)]; auto.
          -- left. apply in_outs_fold. auto.
          -- apply runs_in_cons in Hrt. destruct j as [|j].
             ++ left. apply in_outs_fold. eauto.
             ++ right. exists j, t. split; [lia|auto].
  Qed.

  Lemma runnable_mono sched init init' :
    incl init init' -> runnable D init sched -> runnable D init' sched.
  Proof.
    intros Hi H k s a Hr Ha. destruct (H k s a Hr Ha) as [Hx|Hx]; [left; auto|right; auto].
  Qed.

  Lemma build_set_resolve stages init :
    NoDup stages -> build_set D iter stages init = resolve_stages D iter stages init.
  Proof.
    intro Hnd. unfold build_set.
    destruct (resolve_stages D iter stages init) as [r av] eqn:E. destruct r as [sched|e]; auto.
    destruct (resolve_ok _ Hnd E) as (_ & round & prev & resolved & I & _).
    unfold new_runner. replace (check_runnable D sched av) with true; auto.
    symmetry. apply check_runnable_iff.
    apply runnable_mono with (init := init).
    - intros a Ha. apply (i_av I). left. auto.
    - intros k s a Hr Ha. eapply (i_inputs I); eauto.
  Qed.

  Lemma build_ok stages init sched :
    NoDup stages ->
    build D iter stages init = Ok sched ->
    exists av, resolve_stages D iter stages init = (Ok sched, av).
  Proof.
    intros Hnd H. unfold build in H. rewrite build_set_resolve in H by auto.
    destruct (resolve_stages D iter stages init) as [r av]. simpl in H. subst. eauto.
  Qed.

  Lemma NoDup_concat_once (order : list (list sid)) :
    (forall k g, nth_error order k = Some g -> NoDup g) ->
    (forall j k s, runs_in order j s -> runs_in order k s -> j = k) ->
    NoDup (concat order).
  Proof.
    induction order as [|g rest IH]; simpl; intros Hg Ho; [constructor|].
    assert (Hrest : NoDup (concat rest)).
    { apply IH.
      - intros k h Hk. apply (Hg (S k)). auto.
      - intros j k s Hj Hk. assert (S j = S k); [|lia].
        eapply Ho; apply runs_in_cons; eauto. }
    assert (Hnd0 : NoDup g) by (apply (Hg 0); auto).
    assert (Hdis : forall s, In s g -> ~ In s (concat rest)).
    { intros s Hs Hc. apply runs_in_concat in Hc. destruct Hc as [k Hk].
      assert (0 = S k); [|lia]. eapply Ho; apply runs_in_cons; eauto. }
    clear - Hrest Hnd0 Hdis. induction g as [|x g IHg]; simpl; auto.
    inversion Hnd0; subst. constructor.
    - rewrite in_app_iff. intros [?|?]; [contradiction|]. apply (Hdis x); simpl; auto.
    - apply IHg; auto. intros s Hs. apply Hdis. simpl; auto.
  Qed.

  Lemma inv_concat_nodup stages init round prev resolved order av :
    Inv stages init round prev resolved order av ->
    (forall s, In s stages -> d_out D s <> []) ->
    NoDup (concat order).
  Proof.
    intros I Ho. apply NoDup_concat_once.
    - apply (i_group_nd I).
    - intros j k s Hj Hk. eapply (i_once I); eauto. apply Ho. apply (i_sub I).
      apply runs_in_concat. eauto.
  Qed.

  Lemma resolve_ok_outputs stages init sched av :
    NoDup stages -> resolve_stages D iter stages init = (Ok sched, av) ->
    forall s, In s stages -> d_out D s <> [].
  Proof.
    intros Hnd H s Hs. destruct (resolve_ok _ Hnd H) as (_ & r & p & rs & I & Hinc & _).
    apply Hinc in Hs. apply (i_res I) in Hs. tauto.
  Qed.

  (** C01 *)
  Lemma build_partition stages init sched :
    NoDup stages -> build D iter stages init = Ok sched ->
    Permutation (concat sched) stages /\ Forall (fun g => g <> []) sched.
  Proof.
    intros Hnd H. apply build_ok in H; auto. destruct H as [av H].
    pose proof (resolve_ok_outputs _ Hnd H) as Ho.
    destruct (resolve_ok _ Hnd H) as (_ & r & p & rs & I & Hinc & Hprog).
    split.
    - apply NoDup_Permutation; auto.
      + eapply inv_concat_nodup; eauto.
      + intro s. split; [apply (i_sub I)|]. intro Hs. apply Hinc in Hs.
        apply (i_res I) in Hs. tauto.
    - apply Forall_forall. intros g Hg. apply In_nth_error in Hg. destruct Hg as [k Hk].
      assert (Hlt : k < length sched) by (apply nth_error_Some; congruence).
      destruct (Nat.eq_dec (S k) (length sched)) as [E|Hne].
      + pose proof (i_prev I) as Hp. destruct p as [p|].
        * destruct Hp as (_ & av0 & post & order0 & r0 & Hm & Hr & Ha & Hor).
          intros ->. apply Hprog. rewrite Hor, app_length in E. simpl in E.
          rewrite Hor, nth_error_snoc in Hk.
          destruct (Nat.ltb_spec k (length order0)); [lia|].
          destruct (Nat.eqb_spec k (length order0)); [|discriminate].
          injection Hk as Hk. pose proof (Hiter r0 post) as Hperm. rewrite Hk in Hperm.
          apply Permutation_nil in Hperm. subst. intros x Hx. exact Hx.
        * subst sched. simpl in Hlt. lia.
      + eapply (i_nonempty I); [|exact Hk]. lia.
  Qed.

  (** C02 *)
  Lemma build_runnable stages init sched :
    NoDup stages -> build D iter stages init = Ok sched -> runnable D init sched.
  Proof.
    intros Hnd H. apply build_ok in H; auto. destruct H as [av H].
    destruct (resolve_ok _ Hnd H) as (_ & r & p & rs & I & _).
    intros k s a Hr Ha. eapply (i_inputs I); eauto.
  Qed.

  (** C04 *)
  Lemma build_no_race stages init sched :
    NoDup stages -> build D iter stages init = Ok sched ->
    forall k s t a, runs_in sched k s -> runs_in sched k t -> s <> t ->
      (In a (d_out D s) -> ~ In a (d_out D t)) /\
      (mutates D s a -> ~ In a (d_in D t)).
  Proof.
    intros Hnd H. apply build_ok in H; auto. destruct H as [av H].
    destruct (resolve_ok _ Hnd H) as (_ & r & p & rs & I & _).
    intros k s t a Hs Ht Hne. split.
    - exact (@i_disj _ _ _ _ _ _ _ I k s t a Hs Ht Hne).
    - exact (@i_mut _ _ _ _ _ _ _ I k s t a Hs Ht Hne).
  Qed.

  (** C07 *)
  Lemma build_mutating_first stages init sched :
    NoDup stages -> build D iter stages init = Ok sched ->
    forall m r a i j, mutates D m a -> In a (d_in D r) -> ~ In a (d_out D r) ->
      runs_in sched i r -> runs_in sched j m -> i <= j ->
      exists b, In b (d_in D m) /\ ~ available_before D init sched i b.
  Proof.
    intros Hnd H. pose proof (build_partition _ Hnd H) as [Hperm _].
    apply build_ok in H; auto. destruct H as [av H].
    pose proof (resolve_ok_outputs _ Hnd H) as Ho.
    destruct (resolve_ok _ Hnd H) as (_ & rd & p & rs & I & _).
    intros m r a i j Hm Ha Hna Hr Hrm Hij.
    assert (Hms : In m stages).
    { apply (Permutation_in _ Hperm). apply runs_in_concat. eauto. }
    eapply (i_late I); eauto.
    - intros [_ Hx]. auto.
    - intros j' Hj' Hr'. assert (j' = j); [|lia].
      eapply (i_once I); eauto.
  Qed.

  (** Greedy: a stage not placed up to group k was waiting for an input or held back by a
      ready mutating stage. *)
  Lemma build_asap stages init sched :
    NoDup stages -> build D iter stages init = Ok sched ->
    forall k s, runs_in sched k s -> forall i, i < k ->
      (exists b, In b (d_in D s) /\ ~ available_before D init sched i b) \/
      (exists m a j, mutates D m a /\ In a (d_in D s) /\ ~ In a (d_out D s) /\
                     runs_in sched j m /\ i <= j /\
                     (forall b, In b (d_in D m) -> available_before D init sched i b)).
  Proof.
    intros Hnd H. pose proof (build_partition _ Hnd H) as [Hperm _].
    apply build_ok in H; auto. destruct H as [av H].
    pose proof (resolve_ok_outputs _ Hnd H) as Ho.
    destruct (resolve_ok _ Hnd H) as (_ & rd & p & rs & I & _).
    intros k s Hr i Hi.
    assert (Hss : In s stages).
    { apply (Permutation_in _ Hperm). apply runs_in_concat. eauto. }
    pose proof (runs_in_lt Hr) as Hk.
    destruct (i_asap I) with (k := i) (s := s) as [Hx|(m & a & H1 & H2 & H3 & H4 & H5 & H6)]; auto.
    - lia.
    - intros j Hj Hrj. assert (j = k); [|lia]. eapply (i_once I); eauto.
    - right.
      assert (Hm : In m (concat sched)) by (apply (Permutation_in _ (Permutation_sym Hperm)); auto).
      apply runs_in_concat in Hm. destruct Hm as [j Hj].
      exists m, a, j. repeat split; auto; try apply H2.
      + intro Hx. apply H4. split; auto.
      + destruct (le_lt_dec i j); auto. exfalso. eapply H5; eauto.
  Qed.

  (** C10 *)
  Lemma build_no_outputs stages init s :
    NoDup stages -> In s stages -> d_out D s = [] ->
    forall sched, build D iter stages init <> Ok sched.
  Proof.
    intros Hnd Hs Ho sched H. apply build_ok in H; auto. destruct H as [av H].
    exact (resolve_ok_outputs _ Hnd H _ Hs Ho).
  Qed.

  (** C06 *)
  Lemma build_terminates stages init :
    NoDup stages ->
    build D iter stages init <> Err EOutOfFuel /\
    (forall restr fuel, get_ordering_restrictions D stages = Ok restr ->
       length stages + 1 <= fuel ->
       resolve_loop D iter fuel 0 stages (get_mutating_stages D stages) restr None [] [] init
       = resolve_stages D iter stages init).
  Proof.
    intro Hnd. split.
    - unfold build. rewrite build_set_resolve by auto.
      destruct (resolve_stages D iter stages init) as [out av] eqn:E. simpl.
      apply resolve_cases in E; auto. destruct E as [(-> & _)|(_ & H & _)]; auto. discriminate.
    - intros restr fuel Hr Hf. unfold resolve_stages. rewrite Hr.
      apply plain_of_restrictions in Hr. destruct Hr as [-> Hp].
      assert (Hlen : length (sdiff Nat.eq_dec stages []) <= length stages).
      { apply NoDup_incl_length; [apply sdiff_NoDup; auto|].
        intros x Hx. apply in_sdiff in Hx. tauto. }
      assert (Hmin : forall f, length stages + 1 <= f ->
        resolve_loop D iter f 0 stages (get_mutating_stages D stages) [] None [] [] init =
        resolve_loop D iter (length stages + 1) 0 stages (get_mutating_stages D stages) []
                     None [] [] init).
      { intros f Hf'. apply (@loop_fuel stages Hnd Hp (length stages + 1) f); lia. }
      rewrite (Hmin fuel Hf). symmetry. apply Hmin. unfold resolve_fuel. lia.
  Qed.

  (** C11 *)
  Lemma build_set_effect stages init sched av :
    NoDup stages -> build_set D iter stages init = (Ok sched, av) ->
    forall a, In a av <-> In a init \/ exists s, In s stages /\ In a (d_out D s).
  Proof.
    intros Hnd H a. rewrite build_set_resolve in H by auto.
    destruct (resolve_ok _ Hnd H) as (_ & r & p & rs & I & Hinc & _).
    rewrite (i_av I). split.
    - intros [Ha|(j & s & _ & Hr & Ha)]; auto. right. exists s. split; auto.
      apply (i_sub I). apply runs_in_concat. eauto.
    - intros [Ha|(s & Hs & Ha)]; [left; auto|]. right.
      apply Hinc in Hs. apply (i_res I) in Hs. destruct Hs as [Hs _].
      apply runs_in_concat in Hs. destruct Hs as [k Hk]. exists k, s.
      split; [eapply runs_in_lt; eauto|auto].
  Qed.

  (** ** Sequences *)
  Lemma concat_split (l : list (list sid)) pre s post :
    concat l = pre ++ s :: post ->
    exists k g g1 g2, nth_error l k = Some g /\ g = g1 ++ s :: g2 /\
                      pre = concat (firstn k l) ++ g1.
  Proof.
    revert pre. induction l as [|g l IH]; simpl; intros pre H.
    - destruct pre; discriminate.
    - apply app_eq_app in H. destruct H as [l' [[H1 H2]|[H1 H2]]].
      + destruct l' as [|x l'].
        * simpl in H2. rewrite app_nil_r in H1. subst pre.
          destruct (IH [] (eq_sym H2)) as (k & h & g1 & g2 & Hk & Hh & Hp).
          exists (S k), h, g1, g2. split; auto. split; auto. simpl.
          rewrite <- app_assoc, <- Hp. rewrite app_nil_r. auto.
        * simpl in H2. injection H2 as <- H2. exists 0, g, pre, l'. simpl. auto.
      + destruct (IH _ H2) as (k & h & g1 & g2 & Hk & Hh & Hp).
        exists (S k), h, g1, g2. split; auto. split; auto. simpl.
        rewrite <- app_assoc, <- Hp. auto.
  Qed.

  Lemma nth_firstn A (l : list A) k j : j < k -> nth_error (firstn k l) j = nth_error l j.
  Proof.
    revert k j; induction l as [|x l IH]; intros k j H.
    - rewrite firstn_nil. auto.
    - destruct k; [lia|]. destruct j; simpl; auto. apply IH. lia.
  Qed.

  Lemma runnable_sequence init sched :
    runnable D init sched -> executable_sequence D init (concat sched).
  Proof.
    intros H before s after E a Ha.
    apply concat_split in E. destruct E as (k & g & g1 & g2 & Hk & Hg & Hb).
    destruct (H k s a) as [Hi|(j & t & Hj & [h [Hh Ht]] & Hat)]; auto.
    - exists g. split; auto. subst g. apply in_elt.
    - right. exists t. split; auto. subst before. apply in_or_app. left.
      apply in_concat. exists h. split; auto.
      apply nth_error_In with (n := j). rewrite nth_firstn; auto.
  Qed.

  Lemma executable_filter init (f : sid -> bool) seq :
    (forall t, In t seq -> f t = false -> d_out D t = []) ->
    executable_sequence D init seq -> executable_sequence D init (filter f seq).
  Proof.
    intros Hf H. intros before s after E a Ha.
    assert (Hex : forall l before s after, filter f l = before ++ s :: after ->
               exists b' a', l = b' ++ s :: a' /\ filter f b' = before).
    { clear. induction l as [|x l IH]; simpl; intros before s after E.
      - destruct before; discriminate.
      - destruct (f x) eqn:Ex.
        + destruct before as [|y before]; simpl in E.
          * injection E as -> E. exists [], l. auto.
          * injection E as -> E. destruct (IH _ _ _ E) as (b' & a' & -> & Hb).
            exists (y :: b'), a'. simpl. rewrite Ex, Hb. auto.
        + destruct (IH _ _ _ E) as (b' & a' & -> & Hb).
          exists (x :: b'), a'. simpl. rewrite Ex, Hb. auto. }
    destruct (Hex _ _ _ _ E) as (b' & a' & El & Hb).
    destruct (H b' s a' El a Ha) as [Hi|(t & Ht & Hat)]; auto.
    right. exists t. split; auto. rewrite <- Hb. apply filter_In. split; auto.
    destruct (f t) eqn:Et; auto. exfalso.
    rewrite (Hf t) in Hat; auto. rewrite El. apply in_or_app; auto.
  Qed.

  (** C12 *)
  Definition has_outputs (s : sid) : bool := nonempty (d_out D s).

  Lemma has_outputs_iff s : has_outputs s = true <-> d_out D s <> [].
  Proof. unfold has_outputs. destruct (d_out D s); simpl; split; congruence. Qed.

  Lemma NoDup_filter_concat (f : sid -> bool) (l : list (list sid)) :
    (forall k g, nth_error l k = Some g -> NoDup g) ->
    (forall j k s, f s = true -> runs_in l j s -> runs_in l k s -> j = k) ->
    NoDup (filter f (concat l)).
  Proof.
    intros Hg Ho. rewrite <- flat_map_concat_map || idtac.
    assert (E : filter f (concat l) = concat (map (filter f) l)).
    { clear. induction l as [|g l IH]; simpl; auto. rewrite filter_app, IH. auto. }
    rewrite E. apply NoDup_concat_once.
    - intros k g Hk. rewrite nth_error_map in Hk. destruct (nth_error l k) eqn:Ek; [|discriminate].
      injection Hk as <-. apply NoDup_filter. eapply Hg; eauto.
    - intros j k s [g [Hj Hs]] [h [Hk Hs']]. rewrite nth_error_map in Hj, Hk.
      destruct (nth_error l j) eqn:Ej; [|discriminate].
      destruct (nth_error l k) eqn:Ek; [|discriminate].
      injection Hj as <-. injection Hk as <-. apply filter_In in Hs. apply filter_In in Hs'.
      apply (Ho j k s); [tauto| |]; eexists; split; eauto; tauto.
  Qed.

  Lemma build_missing stages init rep av' :
    NoDup stages -> build D iter stages init = Err (EMissing rep av') ->
    exists placed,
      executable_sequence D init placed /\ NoDup placed /\ incl placed stages /\
      (forall a, In a av' <-> In a init \/ exists t, In t placed /\ In a (d_out D t)) /\
      rep <> [] /\
      (forall s, In s (map fst rep) <-> In s stages /\ ~ In s placed) /\
      (forall s m, In (s, m) rep -> forall a,
         In a m <-> In a (d_in D s) /\ ~ In a av') /\
      (forall s, In (s, []) rep ->
         d_out D s = [] \/
         exists t a, In (t, []) rep /\ mutates D t a /\ In a (d_in D s) /\ ~ In a (d_out D s)).
  Proof.
    intros Hnd H. unfold build in H. rewrite build_set_resolve in H by auto.
    destruct (resolve_stages D iter stages init) as [out av] eqn:E. simpl in H. subst out.
    apply resolve_cases in E; auto. destruct E as [(E & _)|(Hp & _ & E)]; [discriminate|].
    apply loop_inv in E; auto.
    destruct E as (round & prev & resolved & order & I & Hrep & Hninc & p & -> & Hrp).
    unfold missing_report in Hrep. injection Hrep as -> ->.
    assert (Hplaced : forall s, In s (filter has_outputs (concat order)) <-> In s resolved).
    { intro s. rewrite filter_In, has_outputs_iff. symmetry. apply (i_res I). }
    assert (Hstrip : forall s, In s stages -> strip_markers (d_in D s) = d_in D s).
    { intros s Hs. apply strip_markers_none. intros a. apply Hp. auto. }
    exists (filter has_outputs (concat order)).
    split; [|split; [|split; [|split; [|split; [|split; [|split]]]]]].
    - apply executable_filter.
      + intros t _ Ht. unfold has_outputs in Ht. destruct (d_out D t); auto. discriminate.
      + apply runnable_sequence. intros k s a. apply (i_inputs I).
    - apply NoDup_filter_concat.
      + apply (i_group_nd I).
      + intros j k s Hf Hj Hk. apply has_outputs_iff in Hf. eapply (i_once I); eauto.
    - intros s Hs. apply filter_In in Hs. apply (i_sub I). tauto.
    - intro a. rewrite (i_av I). split.
      + intros [Ha|(j & s & _ & Hr & Ha)]; auto. right. exists s. split; auto.
        apply filter_In. split; [apply runs_in_concat; eauto|].
        apply has_outputs_iff. intro X. rewrite X in Ha. destruct Ha.
      + intros [Ha|(s & Hs & Ha)]; [left; auto|]. right.
        apply filter_In in Hs. destruct Hs as [Hs _]. apply runs_in_concat in Hs.
        destruct Hs as [k Hk]. exists k, s. split; [eapply runs_in_lt; eauto|auto].
    - intro Hnil. apply map_eq_nil in Hnil. apply Hninc.
      apply (sdiff_empty Nat.eq_dec). rewrite Hnil. auto.
    - intro s. rewrite map_map. simpl. rewrite map_id, in_sdiff, Hplaced. tauto.
    - intros s m Hsm a. apply in_map_iff in Hsm. destruct Hsm as [t [Et Ht]].
      injection Et as -> <-. apply in_sdiff in Ht. rewrite in_sdiff, Hstrip by tauto. tauto.
    - intros s Hs. apply in_map_iff in Hs. destruct Hs as [t [Et Ht]].
      injection Et as -> Em. apply in_sdiff in Ht. destruct Ht as [Hst Hsr].
      rewrite Hstrip in Em by auto.
      assert (Hinc : incl (d_in D s) av).
      { apply (sdiff_empty arg_dec). rewrite Em. auto. }
      destruct (i_prev I) as (_ & av0 & post & order0 & r & Hm & Hr & Ha & Hor).
      destruct (mutating_check_ok (@ready_incl _ Hp _ _) Hm) as (_ & Hpost & _).
      assert (Hnoout : forall t, In t post -> d_out D t = []).
      { intros t Ht. destruct (d_out D t) as [|o os] eqn:Eo; auto. exfalso.
        assert (In t resolved).
        { rewrite Hr. apply in_add_resolved. right. split; auto. congruence. }
        apply Hpost in Ht. destruct Ht as [Ht _]. apply in_ready in Ht; auto.
        apply (proj1 (proj2 Ht)). apply Hrp. auto. }
      assert (Hav0 : set_eq av av0).
      { intro a. rewrite Ha, in_add_outputs. split; auto. intros [?|(t & Ht & Hat)]; auto.
        rewrite (Hnoout t Ht) in Hat. destruct Hat. }
      assert (Hres : set_eq resolved p).
      { intro x. split; [apply Hrp|]. intro Hx. rewrite Hr. apply in_add_resolved. auto. }
      assert (Hrd : In s (ready stages p av0)).
      { apply in_ready; auto. split; auto. split.
        - intro Hx. apply Hsr. apply Hres. auto.
        - intros a Hx. apply Hav0. apply Hinc. auto. }
      destruct (in_dec Nat.eq_dec s post) as [Hin|Hnin].
      + left. auto.
      + right.
        assert (Hhb : held_back (ready stages p av0) s).
        { destruct (existsb (fun m => existsb (fun a => amem a (d_in D s) && negb (amem a (mutargs s))) (mutargs m)) (ready stages p av0)) eqn:X.
          - apply existsb_exists in X. destruct X as [m [Hm' X]].
            apply existsb_exists in X. destruct X as [a [Ha' X]].
            apply andb_true_iff in X. destruct X as [X1 X2].
            apply mem_true in X1. apply negb_true_iff in X2. apply mem_false in X2.
            rewrite in_mutargs in *. exists m, a. auto.
          - exfalso. apply Hnin. apply Hpost. split; auto.
            intros (m & a & Hm' & Hma & Ha' & Hna).
            rewrite existsb_false_iff in X. specialize (X m Hm').
            rewrite existsb_false_iff in X. specialize (X a).
            rewrite in_mutargs in X. specialize (X Hma).
            apply andb_false_iff in X. destruct X as [X|X].
            + apply mem_false in X. auto.
            + apply negb_false_iff, mem_true in X. rewrite in_mutargs in X. auto. }
        destruct Hhb as (m & a & Hm' & Hma & Ha' & Hna). exists m, a.
        apply in_ready in Hm'; auto. destruct Hm' as (Hm1 & Hm2 & Hm3).
        split; [|split; [exact Hma|split; [exact Ha'|intro; apply Hna; split; auto]]].
        apply in_map_iff. exists m. split.
        * rewrite Hstrip by auto. f_equal.
          destruct (sdiff arg_dec (d_in D m) av) as [|x l] eqn:Ex; auto. exfalso.
          assert (Hx : In x (sdiff arg_dec (d_in D m) av)) by (rewrite Ex; left; auto).
          apply in_sdiff in Hx. apply (proj2 Hx). apply Hav0. apply Hm3. tauto.
        * apply in_sdiff. split; auto.
  Qed.

  (** C05 *)
  Lemma build_complete stages init :
    NoDup stages ->
    (forall s, In s stages -> d_out D s <> []) ->
    (forall s a, In s stages -> In a (d_in D s) -> ~ marker_class a) ->
    (forall s t a, In s stages -> In t stages -> In a (d_out D s) -> In a (d_out D t) -> s = t) ->
    (forall s a, In s stages -> In a (d_in D s) -> ~ In a (d_out D s)) ->
    (exists sched, build D iter stages init = Ok sched) <->
    (exists seq, Permutation seq stages /\ executable_sequence D init seq).
  Proof.
    intros Hnd Hout Hmk Hsingle Hself. split.
    - intros [sched H]. exists (concat sched). split.
      + apply (build_partition _ Hnd H).
      + apply runnable_sequence. eapply build_runnable; eauto.
    - intros (seq & Hperm & Hex).
      destruct (resolve_stages D iter stages init) as [out av] eqn:E.
      unfold build. rewrite build_set_resolve, E by auto. simpl.
      pose proof E as E0. apply resolve_cases in E; auto.
      destruct E as [(_ & _ & s & a & Hs & Ha & Hm)|(Hp & Hfuel & E)].
      { exfalso. apply marker_class_iff in Hm. eapply Hmk; eauto. }
      apply loop_inv in E; auto.
      destruct E as (round & prev & resolved & order & I & Hcase).
      assert (Hnomut : forall s a, In s stages -> ~ mutates D s a).
      { intros s a Hs [H1 H2]. exact (Hself s a Hs H1 H2). }
      destruct out as [sched|e]; [eauto|]. exfalso.
      destruct e; try contradiction; try congruence.
      + apply mutating_check_err in Hcase; [|apply ready_incl; auto].
        destruct Hcase as (_ & s & t & a & Hs & _ & _ & Hma & _).
        apply (ready_incl _ Hp) in Hs. exact (Hnomut s a Hs Hma).
      + destruct Hcase as (post & Hm & Hsh).
        pose proof (post_incl _ Hp _ _ Hm) as Hpi.
        unfold share_output in Hsh. apply exists_pair_true in Hsh.
        destruct Hsh as (s & t & Hs & Ht & Hne & Hsh). apply nonempty_true in Hsh.
        destruct Hsh as [a Ha]. apply in_sinter in Ha. destruct Ha as [Ha Hb].
        apply Hne. apply (Hsingle s t a); auto.
      + destruct Hcase as (_ & Hninc & p & -> & Hrp).
        destruct (i_prev I) as (_ & av0 & post & order0 & r & Hm & Hr & Ha & Hor).
        destruct (mutating_check_ok (@ready_incl _ Hp _ _) Hm) as (_ & Hpost & _).
        (* the last round placed nothing *)
        assert (Hpn : forall t, ~ In t post).
        { intros t Ht. assert (In t resolved).
          { rewrite Hr. apply in_add_resolved. right. split; auto. apply Hout.
            apply (post_incl _ Hp _ _ Hm); auto. }
          apply Hpost in Ht. destruct Ht as [Ht _]. apply in_ready in Ht; auto.
          apply (proj1 (proj2 Ht)). apply Hrp. auto. }
        (* so no unplaced stage had its inputs *)
        assert (Hstuck : forall s, In s stages -> ~ In s resolved -> ~ incl (d_in D s) av).
        { intros s Hs Hns Hinc. apply (Hpn s). apply Hpost. split.
          - apply in_ready; auto. split; auto. split.
            + intro Hx. apply Hns. rewrite Hr. apply in_add_resolved. auto.
            + intros a Hx. specialize (Hinc a Hx). rewrite Ha, in_add_outputs in Hinc.
              destruct Hinc as [?|(t & Ht & _)]; auto. exfalso. exact (Hpn t Ht).
          - intros (m & a & Hm' & Hma & _). apply (ready_incl _ Hp) in Hm'.
            exact (Hnomut m a Hm' Hma). }
        (* but the first unplaced stage of the sequence has them *)
        assert (Hall : forall before after, seq = before ++ after -> incl before resolved).
        { induction before as [|x before IHb] using rev_ind; intros after Es.
          - intros y [].
          - rewrite <- app_assoc in Es. simpl in Es.
            assert (Hb : incl before resolved) by (eapply IHb; eauto).
            intros y Hy. apply in_app_or in Hy. destruct Hy as [Hy|[<-|[]]]; auto.
            destruct (in_dec Nat.eq_dec x resolved) as [Hin|Hnin]; auto. exfalso.
            assert (Hxs : In x stages).
            { apply (Permutation_in _ Hperm). rewrite Es. apply in_elt. }
            apply (Hstuck x Hxs Hnin). intros a Hxa. apply (i_av I).
            destruct (Hex before x after Es a Hxa) as [Hi|(t & Ht & Hat)]; [left; auto|].
            apply Hb in Ht. apply (i_res I) in Ht. destruct Ht as [Ht _].
            apply runs_in_concat in Ht. destruct Ht as [k Hk]. right. exists k, t.
            split; [eapply runs_in_lt; eauto|auto]. }
        apply Hninc. intros s Hs. apply (Hall seq []).
        * symmetry. apply app_nil_r.
        * apply (Permutation_in _ (Permutation_sym Hperm)). auto.
  Qed.
End WithDecls.
