(** Independence of the builder from the order of adding, from set iteration order, and
    from the annotations being marker aliases. *)
From Verif Require Import Base BaseLemmas BuilderModel BuilderSpec BuilderProofs.
Set Implicit Arguments.

Section Order.
  Variable D : decls.
  Variables iter1 iter2 : nat -> list sid -> list sid.
  Hypothesis H1 : any_order iter1.
  Hypothesis H2 : any_order iter2.

  Lemma held_back_perm l1 l2 s :
    set_eq l1 l2 -> held_back D l1 s <-> held_back D l2 s.
  Proof.
    intro H. unfold held_back.
    split; intros (m & a & Hm & Hr); exists m, a; split; auto; apply H; auto.
  Qed.

  Lemma mutating_check_perm stages1 stages2 l1 l2 :
    Permutation l1 l2 -> NoDup l1 -> incl l1 stages1 -> incl l2 stages2 ->
    match mutating_stages_check D l1 (get_mutating_stages D stages1),
          mutating_stages_check D l2 (get_mutating_stages D stages2) with
    | Ok p1, Ok p2 => Permutation p1 p2
    | Err e1, Err e2 => e1 = EAmbiguousMutation /\ e2 = EAmbiguousMutation
    | _, _ => False
    end.
  Proof.
    intros Hp Hnd Hi1 Hi2.
    assert (Hse : set_eq l1 l2) by (apply perm_set_eq; auto).
    destruct (mutating_stages_check D l1 (get_mutating_stages D stages1)) as [p1|e1] eqn:E1;
    destruct (mutating_stages_check D l2 (get_mutating_stages D stages2)) as [p2|e2] eqn:E2.
    - apply mutating_check_ok in E1; auto. apply mutating_check_ok in E2; auto.
      destruct E1 as ((f1 & F1) & P1 & _), E2 as ((f2 & F2) & P2 & _).
      apply NoDup_Permutation.
      + subst p1. apply NoDup_filter; auto.
      + subst p2. apply NoDup_filter. eapply Permutation_NoDup; eauto.
      + intro s. rewrite P1, P2, (held_back_perm s Hse), (Hse s). tauto.
    - apply mutating_check_ok in E1; auto. apply mutating_check_err in E2; auto.
      destruct E1 as (_ & _ & M), E2 as (_ & s & t & a & Hs & Ht & Hne & Ha & Hb).
      apply Hse in Hs. apply Hse in Ht. exact (M s t a Hs Ht Hne Ha Hb).
    - apply mutating_check_ok in E2; auto. apply mutating_check_err in E1; auto.
      destruct E2 as (_ & _ & M), E1 as (_ & s & t & a & Hs & Ht & Hne & Ha & Hb).
      apply Hse in Hs. apply Hse in Ht. exact (M s t a Hs Ht Hne Ha Hb).
    - apply mutating_check_err in E1; auto. apply mutating_check_err in E2; auto. tauto.
  Qed.

  Lemma exists_pair_perm f l1 l2 : set_eq l1 l2 -> exists_pair f l1 = exists_pair f l2.
  Proof.
    intro H. unfold exists_pair. apply existsb_set_eq; auto.
    intro x. apply existsb_set_eq; auto. apply sdiff_set_eq; auto. apply set_eq_refl.
  Qed.

  Lemma stage_resolves_set_eq s r1 r2 a1 a2 restr :
    set_eq r1 r2 -> set_eq a1 a2 ->
    stage_resolves D s r1 a1 restr = stage_resolves D s r2 a2 restr.
  Proof.
    intros Hr Ha. unfold stage_resolves. f_equal; f_equal; apply nonempty_set_eq.
    - apply sdiff_set_eq; auto. apply set_eq_refl.
    - apply sdiff_set_eq; auto. apply set_eq_refl.
  Qed.

  Definition prev_eq (p1 p2 : option (list sid)) : Prop :=
    match p1, p2 with
    | None, None => True
    | Some a, Some b => set_eq a b
    | _, _ => False
    end.

  Lemma ready_perm stages1 stages2 r1 r2 a1 a2 :
    Permutation stages1 stages2 -> set_eq r1 r2 -> set_eq a1 a2 ->
    Permutation (ready D stages1 r1 a1) (ready D stages2 r2 a2).
  Proof.
    intros Hs Hr Ha. unfold ready. apply filter_perm.
    - intro x. apply stage_resolves_set_eq; auto.
    - apply sdiff_perm; auto.
  Qed.

  Lemma loop_sim stages1 stages2 :
    Permutation stages1 stages2 -> NoDup stages1 ->
    (forall s a, In s stages1 -> In a (d_in D s) -> is_type_marker (snd a) = false) ->
    forall fuel round p1 p2 r1 r2 o1 o2 a1 a2,
      prev_eq p1 p2 -> set_eq r1 r2 -> Forall2 (@Permutation sid) o1 o2 -> set_eq a1 a2 ->
      let x1 := resolve_loop D iter1 fuel round stages1 (get_mutating_stages D stages1) []
                             p1 r1 o1 a1 in
      let x2 := resolve_loop D iter2 fuel round stages2 (get_mutating_stages D stages2) []
                             p2 r2 o2 a2 in
      same_result (fst x1) (fst x2) /\ set_eq (snd x1) (snd x2).
  Proof.
    intros Hperm Hnd Hplain fuel.
    assert (Hplain2 : forall s a, In s stages2 -> In a (d_in D s) -> is_type_marker (snd a) = false).
    { intros s a Hs. apply Hplain. exact (Permutation_in _ (Permutation_sym Hperm) Hs). }
    induction fuel as [|fuel IH]; intros round p1 p2 r1 r2 o1 o2 a1 a2 Hp Hr Ho Ha.
    - simpl. auto.
    - cbv zeta in *. cbn [resolve_loop].
      assert (Ec : (match p1 with None => true | Some p => nonempty (sdiff Nat.eq_dec r1 p) end)
                 = (match p2 with None => true | Some p => nonempty (sdiff Nat.eq_dec r2 p) end)).
      { destruct p1 as [p1|], p2 as [p2|]; simpl in Hp; try contradiction; auto.
        apply nonempty_set_eq, sdiff_set_eq; auto. }
      rewrite Ec. clear Ec.
      assert (En : nonempty (sdiff Nat.eq_dec stages1 r1) = nonempty (sdiff Nat.eq_dec stages2 r2)).
      { apply nonempty_set_eq, sdiff_set_eq; auto. apply perm_set_eq; auto. }
      rewrite En. clear En.
      destruct (match p2 with None => true | Some p => nonempty (sdiff Nat.eq_dec r2 p) end).
      + destruct (nonempty (sdiff Nat.eq_dec stages2 r2)); cbn [negb]; [|simpl; auto].
        fold (ready D stages1 r1 a1). fold (ready D stages2 r2 a2).
        pose proof (ready_perm Hperm Hr Ha) as Hrd.
        pose proof (@mutating_check_perm stages1 stages2 _ _ Hrd (@ready_NoDup D stages1 Hnd r1 a1)
                      (@ready_incl D stages1 Hplain r1 a1) (@ready_incl D stages2 Hplain2 r2 a2)) as Hm.
        destruct (mutating_stages_check D (ready D stages1 r1 a1) _) as [q1|e1];
        destruct (mutating_stages_check D (ready D stages2 r2 a2) _) as [q2|e2]; try contradiction.
        * pose proof (perm_set_eq Hm) as Hq.
          rewrite (exists_pair_perm _ Hq).
          destruct (exists_pair _ q2); [simpl; auto|].
          apply IH.
          -- exact Hr.
          -- intro x. rewrite !in_add_resolved, (Hr x), (Hq x). tauto.
          -- apply Forall2_app; auto. constructor; auto.
             rewrite (H1 round q1), (H2 round q2). exact Hm.
          -- intro a. rewrite !in_add_outputs, (Ha a).
             split; intros [?|(s & Hs & ?)]; auto; right; exists s; split; auto; apply Hq; auto.
        * destruct Hm as [-> ->]. simpl. auto.
      + destruct (nonempty (sdiff Nat.eq_dec stages2 r2)); simpl; auto.
  Qed.

  (** C03 *)
  Lemma build_order_independent b1 b2 init1 init2 :
    Permutation b1 b2 -> NoDup b1 -> set_eq init1 init2 ->
    same_result (build D iter1 b1 init1) (build D iter2 b2 init2) /\
    set_eq (snd (build_set D iter1 b1 init1)) (snd (build_set D iter2 b2 init2)).
  Proof.
    intros Hperm Hnd Hi.
    assert (Hnd2 : NoDup b2) by (eapply Permutation_NoDup; eauto).
    unfold build. rewrite !build_set_resolve by auto.
    unfold resolve_stages.
    destruct (get_ordering_restrictions D b1) as [x1|e1] eqn:E1.
    - apply get_ordering_restrictions_ok in E1. destruct E1 as [-> Hp].
      rewrite get_ordering_restrictions_none.
      + replace (resolve_fuel b2) with (resolve_fuel b1)
          by (unfold resolve_fuel; rewrite (Permutation_length Hperm); auto).
        apply loop_sim; simpl; auto; apply set_eq_refl.
      + intros s a Hs. apply Hp. exact (Permutation_in _ (Permutation_sym Hperm) Hs).
    - pose proof (get_ordering_restrictions_err _ _ E1) as ->.
      destruct (get_ordering_restrictions D b2) as [x2|e2] eqn:E2.
      + exfalso. apply get_ordering_restrictions_ok in E2. destruct E2 as [-> Hp].
        rewrite get_ordering_restrictions_none in E1; [discriminate|].
        intros s a Hs. apply Hp. exact (Permutation_in _ Hperm Hs).
      + pose proof (get_ordering_restrictions_err _ _ E2) as ->. simpl. auto.
  Qed.
End Order.

(* ------------------------------------------------------------------ *)
(** * Markers are ordinary annotations *)

Section Rename.
  Variable D : decls.
  Variable f : ptype -> ptype.
  Hypothesis Hinj : forall t u, f t = f u -> t = u.
  Hypothesis Hbefore : forall t, is_type_before (f t) = is_type_before t.
  Hypothesis Hafter : forall t, is_type_after (f t) = is_type_after t.

  Definition ra (a : arg) : arg := (fst a, f (snd a)).
  Definition rD : decls := {| d_in := fun s => map ra (d_in D s);
                              d_out := fun s => map ra (d_out D s) |}.

  Lemma ra_inj a b : ra a = ra b -> a = b.
  Proof.
    destruct a as [n t], b as [m u]; unfold ra; simpl. intro H. injection H as -> H.
    apply Hinj in H. congruence.
  Qed.

  Lemma mem_ra a l : mem arg_dec (ra a) (map ra l) = mem arg_dec a l.
  Proof.
    unfold mem. destruct (in_dec arg_dec (ra a) (map ra l)) as [H|H];
      destruct (in_dec arg_dec a l) as [H'|H']; auto; exfalso.
    - apply in_map_iff in H. destruct H as [b [E Hb]]. apply ra_inj in E. subst. auto.
    - apply H. apply in_map. auto.
  Qed.

  Lemma filter_map_comm A B (g : A -> B) p q l :
    (forall x, p (g x) = q x) -> filter p (map g l) = map g (filter q l).
  Proof.
    intro H. induction l as [|x l IH]; simpl; auto. rewrite H, IH. destruct (q x); auto.
  Qed.

  Lemma sdiff_ra s t : sdiff arg_dec (map ra s) (map ra t) = map ra (sdiff arg_dec s t).
  Proof. apply filter_map_comm. intro x. rewrite mem_ra. auto. Qed.
  Lemma sinter_ra s t : sinter arg_dec (map ra s) (map ra t) = map ra (sinter arg_dec s t).
  Proof. apply filter_map_comm. intro x. apply mem_ra. Qed.
  Lemma nonempty_map A B (g : A -> B) l : nonempty (map g l) = nonempty l.
  Proof. destruct l; auto. Qed.
  Lemma sadd_ra x s : sadd arg_dec (ra x) (map ra s) = map ra (sadd arg_dec x s).
  Proof. unfold sadd. rewrite mem_ra. destruct (mem arg_dec x s); auto. rewrite map_app. auto. Qed.
  Lemma sunion_ra s t : sunion arg_dec (map ra s) (map ra t) = map ra (sunion arg_dec s t).
  Proof.
    unfold sunion. revert s. induction t as [|x t IH]; intro s; simpl; auto.
    rewrite sadd_ra, IH. auto.
  Qed.

  Lemma strip_ra l : strip_markers (map ra l) = map ra (strip_markers l).
  Proof.
    apply filter_map_comm. intros [n t]. simpl. unfold is_type_marker. rewrite Hbefore, Hafter. auto.
  Qed.

  Lemma get_args_class t : is_type_before t = true \/ is_type_after t = true -> get_args t = [].
  Proof. destruct t; simpl; auto. intros [?|?]; discriminate. Qed.

  Lemma restrictions_of_arg_ra s a : restrictions_of_arg s (ra a) = restrictions_of_arg s a.
  Proof.
    unfold restrictions_of_arg, ra. destruct a as [n t]. simpl.
    rewrite Hbefore, Hafter.
    destruct (is_type_before t) eqn:Eb; destruct (is_type_after t) eqn:Ea; auto.
    - rewrite (@get_args_class (f t)) by (rewrite Hbefore; auto).
      rewrite (@get_args_class t) by auto. auto.
    - rewrite (@get_args_class (f t)) by (rewrite Hbefore; auto).
      rewrite (@get_args_class t) by auto. auto.
    - rewrite (@get_args_class (f t)) by (rewrite Hafter; auto).
      rewrite (@get_args_class t) by auto. auto.
  Qed.

  Lemma restrictions_of_args_ra s l :
    restrictions_of_args s (map ra l) = restrictions_of_args s l.
  Proof.
    induction l as [|a l IH]; simpl; auto. rewrite restrictions_of_arg_ra, IH. auto.
  Qed.

  Lemma get_ordering_restrictions_ra stages :
    get_ordering_restrictions rD stages = get_ordering_restrictions D stages.
  Proof.
    induction stages as [|s l IH]; simpl; auto. rewrite restrictions_of_args_ra, IH. auto.
  Qed.

  Definition rm (m : list (sid * list arg)) := map (fun kv => (fst kv, map ra (snd kv))) m.

  Lemma get_mutating_ra stages :
    get_mutating_stages rD stages = rm (get_mutating_stages D stages).
  Proof.
    unfold get_mutating_stages, rm. induction stages as [|s l IH]; simpl; auto.
    rewrite map_app, <- IH. f_equal.
    rewrite (filter_map_comm ra _ (fun i => amem i (d_out D s)))
      by (intro x; apply mem_ra).
    rewrite nonempty_map. destruct (nonempty _); auto.
  Qed.

  Lemma dict_get_rm m s : dict_get (rm m) s = option_map (map ra) (dict_get m s).
  Proof.
    induction m as [|[k v] m IH]; simpl; auto. destruct (Nat.eqb k s); auto.
  Qed.
  Lemma dict_at_rm m s : dict_at (rm m) s = map ra (dict_at m s).
  Proof. unfold dict_at. rewrite dict_get_rm. destruct (dict_get m s); auto. Qed.

  Lemma exists_pair_ext g h l : (forall s t, g s t = h s t) -> exists_pair g l = exists_pair h l.
  Proof.
    intro H. unfold exists_pair. apply existsb_set_eq; [|apply set_eq_refl].
    intro x. apply existsb_set_eq; [auto|apply set_eq_refl].
  Qed.

  Lemma mutating_check_ra can_run m :
    mutating_stages_check rD can_run (rm m) = mutating_stages_check D can_run m.
  Proof.
    unfold mutating_stages_check.
    replace (map fst (rm m)) with (map fst m) by (unfold rm; rewrite map_map; auto).
    destruct (negb (nonempty (sinter Nat.eq_dec (map fst m) can_run))); auto.
    rewrite (exists_pair_ext _
               (fun s t => nonempty (sinter arg_dec (dict_at m s) (dict_at m t))))
      by (intros s t; rewrite !dict_at_rm, sinter_ra, nonempty_map; auto).
    destruct (exists_pair _ _); auto. f_equal. apply filter_ext. intro s.
    replace (flat_map (dict_at (rm m)) (sinter Nat.eq_dec (map fst m) can_run))
      with (map ra (flat_map (dict_at m) (sinter Nat.eq_dec (map fst m) can_run))).
    - cbn [rD d_in]. rewrite sinter_ra, dict_get_rm.
      destruct (dict_get m s); cbn [option_map].
      + rewrite sdiff_ra, nonempty_map. auto.
      + rewrite nonempty_map. auto.
    - induction (sinter Nat.eq_dec (map fst m) can_run) as [|x l IH]; simpl; auto.
      rewrite map_app, dict_at_rm, IH. auto.
  Qed.

  Lemma stage_resolves_ra s resolved available restr :
    stage_resolves rD s resolved (map ra available) restr
    = stage_resolves D s resolved available restr.
  Proof.
    unfold stage_resolves. cbn [rD d_in]. rewrite strip_ra, sdiff_ra, nonempty_map. auto.
  Qed.

  Lemma add_outputs_ra post available :
    add_outputs rD post (map ra available) = map ra (add_outputs D post available).
  Proof.
    unfold add_outputs. revert available. induction post as [|s l IH]; intro av; simpl; auto.
    rewrite sunion_ra, IH. auto.
  Qed.

  Lemma add_resolved_ra post resolved : add_resolved rD post resolved = add_resolved D post resolved.
  Proof.
    unfold add_resolved. revert resolved. induction post as [|s l IH]; intro rs; simpl; auto.
    rewrite IH. f_equal. generalize (d_out D s). intro outs. revert rs.
    induction outs as [|o outs IHo]; intro rs; simpl; auto.
  Qed.

  Variable iter : nat -> list sid -> list sid.

  (** Two results agree exactly, apart from the text of a missing-inputs message. *)
  Definition agree (r1 r2 : res berr (list (list sid))) : Prop :=
    match r1, r2 with
    | Ok s1, Ok s2 => s1 = s2
    | Err e1, Err e2 => exn_class e1 = exn_class e2
    | _, _ => False
    end.

  Lemma loop_ra stages restr fuel : forall round m prev resolved order available,
    agree (fst (resolve_loop rD iter fuel round stages (rm m) restr prev resolved order (map ra available)))
          (fst (resolve_loop D iter fuel round stages m restr prev resolved order available)) /\
    snd (resolve_loop rD iter fuel round stages (rm m) restr prev resolved order (map ra available))
    = map ra (snd (resolve_loop D iter fuel round stages m restr prev resolved order available)).
  Proof.
    induction fuel as [|fuel IH]; intros round m prev resolved order available; simpl.
    - auto.
    - destruct (match prev with None => true | Some p => nonempty (sdiff Nat.eq_dec resolved p) end).
      + destruct (negb (nonempty (sdiff Nat.eq_dec stages resolved))); simpl; auto.
        rewrite (filter_ext _ (fun s => stage_resolves D s resolved available restr))
          by (intro s; apply stage_resolves_ra).
        rewrite mutating_check_ra.
        destruct (mutating_stages_check D _ m) as [post|e]; simpl; auto.
        rewrite (exists_pair_ext _ (fun s t => nonempty (sinter arg_dec (d_out D s) (d_out D t))))
          by (intros s t; rewrite sinter_ra, nonempty_map; auto).
        destruct (exists_pair _ post); simpl; auto.
        rewrite add_resolved_ra, add_outputs_ra. apply IH.
      + destruct (nonempty (sdiff Nat.eq_dec stages resolved)); simpl; auto.
  Qed.

  Lemma check_runnable_ra sched : forall available,
    check_runnable rD sched (map ra available) = check_runnable D sched available.
  Proof.
    induction sched as [|g rest IH]; intro available; simpl; auto.
    rewrite (existsb_set_eq _ (fun s => nonempty (sdiff arg_dec (d_in D s) available)) )
      with (l2 := g) by (try apply set_eq_refl; intro s; rewrite sdiff_ra, nonempty_map; auto).
    destruct (existsb _ g); auto.
    change (fold_left (fun av s => sunion arg_dec av (map ra (d_out D s))) g (map ra available))
      with (add_outputs rD g (map ra available)).
    rewrite add_outputs_ra. apply IH.
  Qed.

  Lemma build_ra stages init :
    agree (build rD iter stages (map ra init)) (build D iter stages init).
  Proof.
    unfold build, build_set, resolve_stages.
    rewrite get_ordering_restrictions_ra.
    destruct (get_ordering_restrictions D stages) as [restr|e]; simpl; auto.
    rewrite get_mutating_ra.
    destruct (loop_ra stages restr (resolve_fuel stages) 0 (get_mutating_stages D stages)
                      None [] [] init) as [Ha Hs].
    destruct (resolve_loop rD iter _ _ _ _ _ _ _ _ _) as [r1 av1].
    destruct (resolve_loop D iter _ _ _ _ _ _ _ _ _) as [r2 av2].
    simpl in *. subst av1.
    destruct r1 as [s1|e1], r2 as [s2|e2]; simpl in *; try contradiction; auto.
    subst s2. unfold new_runner. rewrite check_runnable_ra.
    destruct (check_runnable D s1 av2); simpl; auto.
  Qed.
End Rename.

Lemma unmark_inj t u : unmark t = unmark u -> t = u.
Proof.
  destruct t as [n|[] s|b a], u as [m|[] s'|b' a']; simpl; intro H; try discriminate;
    try (injection H as H; f_equal; lia); try (injection H as H; lia); auto.
Qed.
Lemma unmark_before t : is_type_before (unmark t) = is_type_before t.
Proof. destruct t as [n|[] s|b a]; auto. Qed.
Lemma unmark_after t : is_type_after (unmark t) = is_type_after t.
Proof. destruct t as [n|[] s|b a]; auto. Qed.

Lemma build_unmark D iter stages init :
  same_outcome (build (unmark_decls D) iter stages (map unmark_arg init))
               (build D iter stages init).
Proof. exact (build_ra D unmark unmark_inj unmark_before unmark_after iter stages init). Qed.

Lemma unmark_no_alias D s a k t :
  In a (d_in (unmark_decls D) s ++ d_out (unmark_decls D) s) -> snd a <> TAlias k t.
Proof.
  intro H. apply in_app_or in H.
  assert (X : exists b, a = unmark_arg b).
  { destruct H as [H|H]; apply in_map_iff in H; destruct H as [b [<- _]]; eauto. }
  destruct X as [[n u] ->]. destruct u as [m|[] m|b c]; simpl; discriminate.
Qed.

(* ------------------------------------------------------------------ *)
(** * Exceptions of build *)

Lemma loop_err_class D iter fuel : forall round stages m restr prev resolved order av e,
  fst (resolve_loop D iter fuel round stages m restr prev resolved order av) = Err e ->
  e = EOutOfFuel \/ exn_class e = "StageResolutionError"%string.
Proof.
  induction fuel as [|fuel IH]; intros round stages m restr prev resolved order av e; simpl.
  - intro H. injection H as <-. auto.
  - destruct (match prev with None => true | Some p => nonempty (sdiff Nat.eq_dec resolved p) end).
    + destruct (negb (nonempty (sdiff Nat.eq_dec stages resolved))); [discriminate|].
      destruct (mutating_stages_check D _ m) as [post|e'] eqn:E; simpl.
      * destruct (exists_pair _ post); simpl.
        -- intro H. injection H as <-. auto.
        -- apply IH.
      * intro H. injection H as <-. unfold mutating_stages_check in E.
        destruct (negb _) in E; [discriminate|].
        destruct (exists_pair _ _) in E; [|discriminate]. injection E as <-. auto.
    + destruct (nonempty (sdiff Nat.eq_dec stages resolved)); simpl; intro H; [|discriminate].
      injection H as <-. auto.
Qed.

Lemma build_errors D iter stages init e :
  any_order iter -> NoDup stages ->
  build D iter stages init = Err e ->
  exn_class e = "StageResolutionError"%string \/ e = EIndexError.
Proof.
  intros Hi Hnd H. unfold build in H. rewrite build_set_resolve in H by auto.
  destruct (resolve_stages D iter stages init) as [out av] eqn:E. simpl in H. subst out.
  destruct (@resolve_cases D iter stages init _ _ Hnd E) as [(X & _)|(_ & Hf & X)].
  - injection X as ->. auto.
  - pose proof (@loop_err_class D iter (resolve_fuel stages) 0 stages
      (get_mutating_stages D stages) [] None [] [] init e) as L.
    rewrite X in L. destruct (L eq_refl) as [->|]; auto. exfalso. auto.
Qed.

Lemma build_index_error D iter stages init :
  any_order iter -> NoDup stages ->
  build D iter stages init = Err EIndexError <->
  exists s a, In s stages /\ In a (d_in D s) /\ marker_class a.
Proof.
  intros Hi Hnd. unfold build. rewrite build_set_resolve by auto.
  destruct (resolve_stages D iter stages init) as [out av] eqn:E. simpl.
  destruct (@resolve_cases D iter stages init _ _ Hnd E) as [(-> & _ & s & a & Hs & Ha & Hm)|(Hp & Hf & X)].
  - split; auto. intros _. exists s, a. rewrite <- marker_class_iff. auto.
  - split.
    + intros ->.
      pose proof (@loop_err_class D iter (resolve_fuel stages) 0 stages
        (get_mutating_stages D stages) [] None [] [] init EIndexError) as L.
      rewrite X in L. destruct (L eq_refl) as [L'|L']; discriminate.
    + intros (s & a & Hs & Ha & Hm). apply marker_class_iff in Hm.
      rewrite (Hp s a Hs Ha) in Hm. discriminate.
Qed.

(* ------------------------------------------------------------------ *)
(** * add_stage *)

Lemma smem_true s b : smem s b = true <-> In s b.
Proof. apply mem_true. Qed.

Lemma add_stage_cases D b s :
  (In s b -> add_stage D b s = Err EValueError) /\
  (~ In s b -> (exists o, In o (d_out D s) /\ marker_class o) -> add_stage D b s = Err ETypeError) /\
  (~ In s b -> (forall o, In o (d_out D s) -> ~ marker_class o) -> add_stage D b s = Ok (b ++ [s])).
Proof.
  unfold add_stage. destruct (smem s b) eqn:E.
  - apply smem_true in E. tauto.
  - assert (~ In s b) by (intro X; apply smem_true in X; congruence).
    split; [tauto|].
    destruct (existsb (fun o => is_type_marker (snd o)) (d_out D s)) eqn:X.
    + split; auto. intros _ Hn. apply existsb_exists in X. destruct X as (o & Ho & Hm).
      apply marker_class_iff in Hm. exfalso. eapply Hn; eauto.
    + split; auto. intros _ (o & Ho & Hm). apply marker_class_iff in Hm.
      rewrite existsb_false_iff in X. rewrite (X o Ho) in Hm. discriminate.
Qed.

Definition acceptable (D : decls) (s : sid) : bool :=
  negb (existsb (fun o => is_type_marker (snd o)) (d_out D s)).

Lemma acceptable_iff D s :
  acceptable D s = true <-> forall o, In o (d_out D s) -> ~ marker_class o.
Proof.
  unfold acceptable. rewrite negb_true_iff, existsb_false_iff.
  split; intros H o Ho.
  - intro Hm. apply marker_class_iff in Hm. rewrite (H o Ho) in Hm. discriminate.
  - destruct (is_type_marker (snd o)) eqn:E; auto. apply marker_class_iff in E.
    exfalso. eapply H; eauto.
Qed.

Lemma add_stages_from D calls : forall b,
  NoDup b ->
  let b' := fold_left (fun b s => match add_stage D b s with Ok b' => b' | Err _ => b end) calls b in
  NoDup b' /\ forall s, In s b' <-> In s b \/ (In s calls /\ acceptable D s = true).
Proof.
  induction calls as [|c calls IH]; intros b Hnd; simpl.
  - split; auto. intro s. tauto.
  - unfold add_stage at 2 4. unfold smem, mem at 1 2.
    destruct (in_dec Nat.eq_dec c b) as [Hin|Hin].
    + destruct (IH b Hnd) as [N I]. split; auto. intro s. rewrite I.
      split; [tauto|]. intros [?|[[->|?] ?]]; tauto.
    + fold (acceptable D c).
      destruct (existsb (fun o => is_type_marker (snd o)) (d_out D c)) eqn:E.
      * destruct (IH b Hnd) as [N I]. split; auto. intro s. rewrite I.
        assert (acceptable D c = false) by (unfold acceptable; rewrite E; auto).
        split; [tauto|]. intros [?|[[->|?] ?]]; auto. congruence.
      * destruct (IH (b ++ [c])) as [N I].
        { apply NoDup_app_comm_snoc; auto. }
        split; auto. intro s. rewrite I, in_app_iff. simpl.
        assert (acceptable D c = true) by (unfold acceptable; rewrite E; auto).
        split.
        -- intros [[?|[->|[]]]|?]; tauto.
        -- intros [?|[[->|?] ?]]; tauto.
Qed.

Lemma add_stages_NoDup D calls : NoDup (add_stages D calls).
Proof. apply add_stages_from. constructor. Qed.

Lemma in_add_stages D calls s :
  In s (add_stages D calls) <->
  In s calls /\ forall o, In o (d_out D s) -> ~ marker_class o.
Proof.
  rewrite <- acceptable_iff. unfold add_stages.
  destruct (@add_stages_from D calls [] (NoDup_nil _)) as [_ I]. unfold new_builder. rewrite I.
  simpl. tauto.
Qed.

Lemma add_stages_perm D calls1 calls2 :
  (forall s, In s calls1 <-> In s calls2) ->
  Permutation (add_stages D calls1) (add_stages D calls2).
Proof.
  intro H. apply NoDup_Permutation; try apply add_stages_NoDup.
  intro s. rewrite !in_add_stages, H. tauto.
Qed.

Lemma build_supplied D iter :
  any_order iter -> forall stages init sched,
  NoDup stages -> build D iter stages init = Ok sched ->
  forall s a, In s stages -> In a (d_in D s) ->
  In a init \/ exists t, In t stages /\ In a (d_out D t).
Proof.
  intros Hi stages init sched Hnd Hb s a Hs Ha.
  destruct (@build_partition D iter Hi stages init sched Hnd Hb) as [Hp _].
  pose proof (@build_runnable D iter Hi stages init sched Hnd Hb) as Hr.
  apply (Permutation_in _ (Permutation_sym Hp)) in Hs. apply runs_in_concat in Hs.
  destruct Hs as [k Hk]. destruct (Hr k s a Hk Ha) as [?|(j & t & _ & Ht & Ho)]; auto.
  right. exists t. split; auto. apply (Permutation_in _ Hp). apply runs_in_concat. eauto.
Qed.

Lemma new_runner_iff D sched init :
  (new_runner D sched init = Ok sched <-> runnable D init sched) /\
  (new_runner D sched init = Err ERunningError <-> ~ runnable D init sched).
Proof.
  unfold new_runner. rewrite <- check_runnable_iff.
  destruct (check_runnable D sched init); split; split; intros; auto; try discriminate.
  - exfalso. auto.
Qed.
