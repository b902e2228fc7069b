(** Lemmas for PluginProps.v. *)
From Verif Require Import Base BaseLemmas BuilderModel BuilderSpec BuilderProofs BuilderSim PluginSpec.
Set Implicit Arguments.
Open Scope list_scope.

Lemma not_marker a : ~ marker_class a -> is_type_marker (snd a) = false.
Proof. intros H. destruct (is_type_marker (snd a)) eqn:E; auto. apply marker_class_iff in E. contradiction. Qed.

Lemma without_app p l1 l2 : without p (l1 ++ l2) = without p l1 ++ without p l2.
Proof. unfold without. rewrite map_app, filter_app. auto. Qed.
Lemma without_group p g h : Permutation g (p :: h) \/ Permutation g h -> ~ In p h -> h <> [] ->
  exists g', without p [g] = [g'] /\ Permutation g' h.
Proof.
  intros P N H. exists (filter (fun s => negb (Nat.eqb s p)) g).
  assert (F : filter (fun s => negb (Nat.eqb s p)) h = h).
  { clear - N. induction h as [|a h IH]; simpl; auto. destruct (Nat.eqb_spec a p) as [->|]; simpl.
    - destruct N. left. auto.
    - f_equal. apply IH. intros X. apply N. right. auto. }
  assert (Q : Permutation (filter (fun s => negb (Nat.eqb s p)) g) h).
  { apply Permutation_trans with (filter (fun s => negb (Nat.eqb s p)) h); [|rewrite F; auto]. destruct P as [P|P].
    - etransitivity; [apply (filter_perm _ (fun s => negb (Nat.eqb s p)) (fun x => eq_refl) P)|]. simpl. rewrite Nat.eqb_refl. simpl. auto.
    - apply filter_perm; auto. }
  split; [|exact Q]. unfold without. simpl. destruct (filter (fun s => negb (Nat.eqb s p)) g); auto.
  apply Permutation_nil in Q. contradiction.
Qed.

Section Sim.
  Variable D : decls.
  Variables iter iter' : nat -> list sid -> list sid.
  Hypothesis Hiter : any_order iter.
  Hypothesis Hiter' : any_order iter'.
  Variables (stages : list sid) (init : list arg) (p : sid).
  Hypothesis Hnd : NoDup stages.
  Hypothesis Np : ~ In p stages.
  Hypothesis Hplain : forall s a, In s stages -> In a (d_in D s) -> is_type_marker (snd a) = false.
  Hypothesis O : onlooker D stages init p.
  Notation mut := (get_mutating_stages D stages).

  Lemma p_plain a : In a (d_in D p) -> is_type_marker (snd a) = false.
  Proof. intros H. apply not_marker. apply O. auto. Qed.
  Lemma p_no_mut : mutargs D p = [].
  Proof.
    destruct (mutargs D p) as [|a l] eqn:E; auto. assert (I : In a (mutargs D p)) by (rewrite E; left; auto).
    apply in_mutargs in I. destruct I as [I J]. destruct O as (_ & _ & _ & F). destruct (F a J). contradiction.
  Qed.
  Lemma mut_same : get_mutating_stages D (p :: stages) = mut.
  Proof.
    change (get_mutating_stages D (p :: stages)) with ((if nonempty (mutargs D p) then [(p, mutargs D p)] else []) ++ mut).
    rewrite p_no_mut. auto.
  Qed.
  Lemma p_no_key : ~ In p (map fst mut).
  Proof. intros H. apply get_mutating_keys in H. tauto. Qed.

  Lemma todo_same res res' : (forall s, s <> p -> (In s res' <-> In s res)) ->
    sdiff Nat.eq_dec (p :: stages) res' = (if smem p res' then [] else [p]) ++ sdiff Nat.eq_dec stages res.
  Proof.
    intros R. unfold sdiff. simpl. fold (smem p res').
    assert (E : filter (fun x => negb (mem Nat.eq_dec x res')) stages = filter (fun x => negb (mem Nat.eq_dec x res)) stages).
    { apply filter_ext_in. intros s Hs. f_equal. assert (N : s <> p) by (intros ->; auto). specialize (R s N).
      destruct (mem Nat.eq_dec s res') eqn:E1, (mem Nat.eq_dec s res) eqn:E2; auto; exfalso;
        rewrite ?mem_true, ?mem_false in *; tauto. }
    rewrite E. destruct (smem p res'); auto.
  Qed.
  Lemma ready_same res res' av av' :
    (forall s, s <> p -> (In s res' <-> In s res)) -> (forall a, ~ In a (d_out D p) -> (In a av' <-> In a av)) ->
    ready D (p :: stages) res' av' =
      (if negb (smem p res') && stage_resolves D p res' av' [] then [p] else []) ++ ready D stages res av.
  Proof.
    intros R A. unfold ready. rewrite (@todo_same res res' R), filter_app. f_equal.
    - destruct (smem p res'); simpl; auto.
    - apply filter_ext_in. intros s Hs. apply in_sdiff in Hs. destruct Hs as [Hs _].
      assert (X : incl (d_in D s) av' <-> incl (d_in D s) av).
      { split; intros I a Ha; apply A; auto; intros Y; destruct O as (_ & _ & _ & F); destruct (F a Y) as [_ G]; destruct (G s Hs); contradiction. }
      destruct (stage_resolves D s res' av' []) eqn:E1, (stage_resolves D s res av []) eqn:E2; auto; exfalso.
      + apply stage_resolves_spec in E1; [|eauto]. apply X in E1. apply stage_resolves_spec with (resolved := res) in E1; [|eauto]. congruence.
      + apply stage_resolves_spec in E2; [|eauto]. apply X in E2. apply stage_resolves_spec with (resolved := res') in E2; [|eauto]. congruence.
  Qed.
  Lemma keys_same c l : c = [] \/ c = [p] -> sinter Nat.eq_dec (map fst mut) (c ++ l) = sinter Nat.eq_dec (map fst mut) l.
  Proof.
    intros [->| ->]; auto. unfold sinter. apply filter_ext_in. intros s Hs. simpl.
    destruct (mem Nat.eq_dec s (p :: l)) eqn:E1, (mem Nat.eq_dec s l) eqn:E2; auto; exfalso; rewrite ?mem_true, ?mem_false in *.
    - destruct E1 as [E1|E1]; auto. subst s. apply p_no_key. auto.
    - apply E1. right. auto.
  Qed.
  Lemma check_same c l post : c = [] \/ c = [p] -> mutating_stages_check D l mut = Ok post ->
    exists c', (c' = [] \/ c' = [p]) /\ incl c' c /\ mutating_stages_check D (c ++ l) mut = Ok (c' ++ post).
  Proof.
    intros C H. unfold mutating_stages_check in *. rewrite (@keys_same c l C).
    destruct (negb (nonempty (sinter Nat.eq_dec (map fst mut) l))) eqn:E.
    - injection H as <-. exists c. split; auto. split; auto. apply incl_refl.
    - match type of H with context[exists_pair ?f ?m] => destruct (exists_pair f m) end; [discriminate|].
      injection H as <-. rewrite filter_app. eexists. split; [|split; [|reflexivity]].
      + destruct C as [->| ->]; simpl; auto. match goal with |- context[if ?b then _ else _] => destruct b end; auto.
      + apply incl_filter.
  Qed.

  Lemma sim fuel : forall round prev res order av sched avf prev' res' order' av' fuel',
    resolve_loop D iter fuel round stages mut [] prev res order av = (Ok sched, avf) ->
    S fuel <= fuel' ->
    ~ In p res -> (forall s, s <> p -> (In s res' <-> In s res)) ->
    (forall a, ~ In a (d_out D p) -> (In a av' <-> In a av)) ->
    incl init av -> (forall s a, In s res -> In a (d_out D s) -> In a av) ->
    match prev, prev' with
    | None, None => True
    | Some q, Some q' => ~ incl stages q /\ forall s, s <> p -> (In s q' <-> In s q)
    | _, _ => False
    end ->
    Forall2 (@Permutation sid) (without p order') order ->
    exists sched' avf', resolve_loop D iter' fuel' round (p :: stages) mut [] prev' res' order' av' = (Ok sched', avf') /\
      Forall2 (@Permutation sid) (without p sched') sched.
  Proof.
    induction fuel as [|fuel IH]; intros round prev res order av sched avf prev' res' order' av' fuel' H Hf Pn R A Ii Io Pv F; [discriminate|].
    destruct fuel' as [|fuel']; [lia|]. cbn [resolve_loop] in H |- *.
    set (cont := match prev with None => true | Some q => nonempty (sdiff Nat.eq_dec res q) end) in *.
    set (cont' := match prev' with None => true | Some q => nonempty (sdiff Nat.eq_dec res' q) end) in *.
    destruct cont eqn:Ec.
    2:{ exfalso. unfold cont in Ec. destruct prev as [q|]; [|discriminate]. apply sdiff_empty in Ec.
        destruct (nonempty (sdiff Nat.eq_dec stages res)) eqn:En; [discriminate|]. apply sdiff_empty in En.
        destruct prev' as [q'|]; [|contradiction]. apply (proj1 Pv). intros s Hs. auto. }
    assert (Ec' : cont' = true).
    { unfold cont', cont in *. destruct prev as [q|], prev' as [q'|]; try contradiction; auto.
      apply nonempty_true in Ec. destruct Ec as (x & X). apply in_sdiff in X. apply nonempty_true. exists x. apply in_sdiff.
      assert (Nx : x <> p) by (intros ->; tauto). split; [apply R; tauto|]. intros Y. apply (proj2 Pv x Nx) in Y. tauto. }
    rewrite Ec'. rewrite (@todo_same res res' R).
    destruct (nonempty (sdiff Nat.eq_dec stages res)) eqn:En; cbn [negb] in H.
    - (* a round of the pipeline *)
      assert (En' : nonempty ((if smem p res' then [] else [p]) ++ sdiff Nat.eq_dec stages res) = true)
        by (destruct (smem p res'); auto).
      rewrite En'. cbn [negb].
      rewrite <- (@todo_same res res' R).
      fold (ready D stages res av) in H. fold (ready D (p :: stages) res' av'). rewrite (@ready_same res res' av av' R A).
      set (c := if negb (smem p res') && stage_resolves D p res' av' [] then [p] else []).
      assert (C : c = [] \/ c = [p]) by (unfold c; destruct (_ && _); auto).
      destruct (mutating_stages_check D (ready D stages res av) mut) as [post|e] eqn:Em; [|discriminate].
      destruct (@check_same c (ready D stages res av) post C Em) as (c' & C' & Cc & ->).
      fold (share_output D post) in H. fold (share_output D (c' ++ post)).
      destruct (share_output D post) eqn:Es; [discriminate|].
      assert (Ps : incl post stages) by (eapply post_incl; eauto).
      assert (Es' : share_output D (c' ++ post) = false).
      { unfold share_output in *. rewrite exists_pair_false in *.
        assert (Z : forall s, In s post -> forall a, In a (d_out D p) -> ~ In a (d_out D s)).
        { intros s Hs a Ha. destruct O as (_ & _ & _ & G). destruct (G a Ha) as [_ G']. apply G'. auto. }
        intros s t Hs Ht Ne. apply in_app_or in Hs, Ht.
        assert (Hc : forall u, In u c' -> u = p) by (intros u U; destruct C' as [->| ->]; [destruct U|destruct U as [<-|[]]; auto]).
        destruct Hs as [Hs|Hs], Ht as [Ht|Ht]; auto.
        - apply Hc in Hs, Ht. congruence.
        - apply Hc in Hs. subst s. apply nonempty_false. intros a X. apply in_sinter in X. destruct X as [X Y]. exact (Z t Ht a X Y).
        - apply Hc in Ht. subst t. apply nonempty_false. intros a X. apply in_sinter in X. destruct X as [X Y]. exact (Z s Hs a Y X). }
      rewrite Es'.
      assert (Pne : post <> []).
      { intros ->. destruct fuel as [|fuel]; [discriminate|]. cbn [resolve_loop] in H.
        replace (nonempty (sdiff Nat.eq_dec (add_resolved D [] res) res)) with false in H
          by (symmetry; apply sdiff_empty; apply incl_refl).
        change (add_resolved D [] res) with res in H. rewrite En in H. discriminate. }
      assert (Npp : ~ In p post) by (intros X; auto).
      eapply IH with (1 := H); [lia| | | | | | |].
      + rewrite in_add_resolved. intros [X|[X _]]; auto.
      + intros s Ns. rewrite !in_add_resolved, in_app_iff, (R s Ns). split; [|tauto].
        intros [X|[[X|X] Y]]; auto. destruct C' as [->| ->]; [destruct X|destruct X as [<-|[]]; contradiction].
      + intros a Na. rewrite !in_add_outputs, (A a Na). split.
        * intros [X|(s & Hs & X)]; auto. right. exists s. split; auto. apply in_app_or in Hs. destruct Hs as [Hs|Hs]; auto.
          destruct C' as [->| ->]; [destruct Hs|destruct Hs as [<-|[]]; contradiction].
        * intros [X|(s & Hs & X)]; auto. right. exists s. split; auto. apply in_or_app. auto.
      + intros a Ha. apply in_add_outputs. auto.
      + intros s a Hs Ha. apply in_add_outputs. apply in_add_resolved in Hs. destruct Hs as [Hs|[Hs _]]; eauto.
      + split.
        * intros X. apply (proj2 (sdiff_empty Nat.eq_dec stages res)) in X. congruence.
        * exact R.
      + rewrite without_app. apply Forall2_app; auto.
        destruct (@without_group p (iter' round (c' ++ post)) post) as (g' & -> & Pg); auto.
        * destruct C' as [->| ->]; [right|left]; apply Hiter'.
        * constructor; [|constructor]. etransitivity; [exact Pg|]. symmetry. apply Hiter.
    - (* the pipeline is complete *)
      injection H as <- <-. apply sdiff_empty in En.
      assert (Ed : sdiff Nat.eq_dec stages res = []).
      { destruct (sdiff Nat.eq_dec stages res) as [|x l] eqn:X; auto. exfalso.
        assert (Y : In x (sdiff Nat.eq_dec stages res)) by (rewrite X; left; auto). apply in_sdiff in Y. apply (proj2 Y). apply En. tauto. }
      rewrite Ed, app_nil_r. destruct (smem p res') eqn:Ep; cbn [nonempty negb].
      + exists order', av'. auto.
      + cbn [filter].
        assert (Pr : stage_resolves D p res' av' [] = true).
        { apply stage_resolves_spec; [exact p_plain|]. intros a Ha. destruct O as (_ & _ & O1 & O2). apply A.
          - intros X. destruct (O2 a X). contradiction.
          - destruct (O1 a Ha) as [_ [X|(s & Hs & X)]]; auto. apply (Io s); auto. }
        rewrite Pr.
        destruct (@check_same [p] [] [] (or_intror eq_refl)) as (c' & C' & _ & Y).
        { unfold mutating_stages_check. replace (sinter Nat.eq_dec (map fst mut) []) with (@nil sid); auto.
          symmetry. clear. induction (map fst mut); simpl; auto. }
        assert (Y' : mutating_stages_check D [p] mut = Ok [p]).
        { unfold mutating_stages_check. replace (sinter Nat.eq_dec (map fst mut) [p]) with (@nil sid); auto.
          pose proof (@keys_same [p] [] (or_intror eq_refl)) as K. simpl in K. rewrite K. clear.
          induction (map fst mut); simpl; auto. }
        rewrite Y'. replace (exists_pair (fun s t => nonempty (sinter arg_dec (d_out D s) (d_out D t))) [p]) with false
          by (symmetry; apply exists_pair_false; intros s t [<-|[]] [<-|[]] N; congruence).
        destruct fuel' as [|fuel']; [lia|]. cbn [resolve_loop].
        assert (Inp : In p (add_resolved D [p] res')) by (apply in_add_resolved; right; split; [left; auto|apply O]).
        replace (nonempty (sdiff Nat.eq_dec (add_resolved D [p] res') res')) with true.
        2:{ symmetry. apply nonempty_true. exists p. apply in_sdiff. split; auto. apply mem_false in Ep. exact Ep. }
        replace (nonempty (sdiff Nat.eq_dec (p :: stages) (add_resolved D [p] res'))) with false.
        2:{ symmetry. apply sdiff_empty. intros s [<-|Hs]; auto. apply in_add_resolved. left. apply R; auto. intros ->. auto. }
        cbn [negb]. do 2 eexists. split; [reflexivity|]. rewrite without_app.
        replace (iter' round [p]) with [p].
        * unfold without at 2. simpl. rewrite Nat.eqb_refl. simpl. rewrite app_nil_r. auto.
        * pose proof (Hiter' round [p]) as X. symmetry in X. apply Permutation_length_1_inv in X. auto.
  Qed.

  Lemma plugin_resolves sched av :
    resolve_stages D iter stages init = (Ok sched, av) ->
    exists sched' av', resolve_stages D iter' (p :: stages) init = (Ok sched', av') /\
      Forall2 (@Permutation sid) (without p sched') sched.
  Proof.
    intros H. unfold resolve_stages in *.
    rewrite get_ordering_restrictions_none in H by auto.
    rewrite get_ordering_restrictions_none by (intros s a [<-|Hs]; [apply p_plain|eauto]).
    rewrite mut_same. eapply sim with (1 := H); auto.
    all: try (unfold resolve_fuel; simpl; lia); try tauto; try apply incl_refl; try (intros s a []; fail); try constructor.
  Qed.
End Sim.

From Verif Require Import RunnerModel RunnerSpec.

Section Run.
  Variable V : Type.
  Variable fields : sid -> list string.
  Variable behave : list (event V) -> sid -> dict V -> option (dict V).
  Variables (p : sid) (own : list string).
  Hypothesis Det : deterministic behave.
  Hypothesis Own : forall h i o n, behave h p i = Some o -> given o n <> None -> In n own.
  Hypothesis Fresh : forall s n, s <> p -> In n (fields s) -> ~ In n own.

  Lemma read_same (e1 e2 : env V) names : (forall n, In n names -> e1 n = e2 n) -> read_fields e1 names = read_fields e2 names.
  Proof.
    induction names as [|n t IH]; simpl; intros H; auto. rewrite (H n) by auto. rewrite IH by (intros; apply H; auto). auto.
  Qed.
  Lemma compose_without l : forall h1 h2 e1 e2, (forall n, ~ In n own -> e1 n = e2 n) ->
    match snd (compose fields behave h1 l e1), snd (compose fields behave h2 (filter (fun s => negb (Nat.eqb s p)) l) e2) with
    | Ok a, Ok b => forall n, ~ In n own -> a n = b n
    | Err x, Err _ => True
    | Err x, Ok _ => x = KeyError \/ exists h i, behave h p i = None
    | Ok _, Err _ => False
    end.
  Proof.
    induction l as [|s l IH]; intros h1 h2 e1 e2 E; [exact E|].
    cbn [compose filter]. destruct (Nat.eqb_spec s p) as [->|N]; cbn [negb].
    - destruct (read_fields e1 (fields p)) as [i|]; cbn [snd].
      2:{ destruct (snd (compose _ _ _ _ _)); auto. }
      destruct (behave h1 p i) as [o|] eqn:B; cbn [snd].
      + apply IH. intros n Hn. unfold updated. destruct (given o n) eqn:G; auto.
        exfalso. apply Hn. eapply Own; eauto. congruence.
      + destruct (snd (compose _ _ _ _ _)); eauto.
    - cbn [compose]. rewrite (@read_same e1 e2 (fields s)) by (intros n Hn; apply E; eapply Fresh; eauto).
      destruct (read_fields e2 (fields s)) as [i|]; cbn [snd]; auto.
      rewrite (Det h1 h2). destruct (behave h2 s i) as [o|]; cbn [snd]; auto.
      apply IH. intros n Hn. unfold updated. destruct (given o n); auto.
  Qed.
End Run.

Lemma concat_without p sched : concat (without p sched) = filter (fun s => negb (Nat.eqb s p)) (concat sched).
Proof.
  unfold without. induction sched as [|g t IH]; auto. simpl. rewrite filter_app, <- IH.
  destruct (filter (fun s => negb (Nat.eqb s p)) g); auto.
Qed.
Lemma without_wf p sched : well_formed sched -> well_formed (without p sched).
Proof.
  intros [N _]. split.
  - rewrite concat_without. apply NoDup_filter. auto.
  - apply Forall_forall. intros g Hg. unfold without in Hg. apply filter_In in Hg. destruct Hg as [_ Hg]. destruct g; [discriminate|]. discriminate.
Qed.
