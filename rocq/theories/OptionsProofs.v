(** Lemmas for OptionsProps.v. *)
From Verif Require Import Base BaseLemmas OptionsModel OptionsSpec.
Set Implicit Arguments.
Open Scope string_scope.
Open Scope list_scope.

Lemma jget_in A (l : list (string * A)) k v : jget l k = Some v -> In (k, v) l.
Proof.
  induction l as [|[k' v'] t IH]; simpl; [discriminate|].
  destruct (String.eqb_spec k' k) as [->|]; auto. intro H. injection H as ->. auto.
Qed.
Lemma jget_none A (l : list (string * A)) k : jget l k = None <-> ~ In k (map fst l).
Proof.
  induction l as [|[k' v'] t IH]; simpl; [tauto|].
  destruct (String.eqb_spec k' k) as [->|N].
  - split; [discriminate|]. intros H. exfalso. apply H. auto.
  - rewrite IH. tauto.
Qed.
Lemma jget_unique A (l : list (string * A)) k v :
  NoDup (map fst l) -> In (k, v) l -> jget l k = Some v.
Proof.
  induction l as [|[k' v'] t IH]; simpl; [tauto|]. intros N [H|H].
  - injection H as -> ->. rewrite String.eqb_refl. auto.
  - inversion N; subst. destruct (String.eqb_spec k' k) as [->|]; auto.
    exfalso. apply H2. apply in_map_iff. exists (k, v). auto.
Qed.
Lemma smem_str_in x l : smem_str x l = true <-> In x l.
Proof.
  unfold smem_str. rewrite existsb_exists. split.
  - intros (y & H & E). apply String.eqb_eq in E. subst. auto.
  - intro H. exists x. split; auto. apply String.eqb_refl.
Qed.
Lemma smem_str_not x l : smem_str x l = false <-> ~ In x l.
Proof. rewrite <- smem_str_in. destruct (smem_str x l); intuition congruence. Qed.

(** What the proofs use about the tables; checked by computation below. *)
Definition table_ok (sec : section) : bool :=
  let names := map fst (sec_fields sec) in
  let fix nodup (l : list string) : bool :=
    match l with [] => true | x :: t => negb (smem_str x t) && nodup t end in
  nodup names && nodup (map fst (sec_alias sec)) && nodup (map snd (sec_alias sec)) &&
  forallb (fun a => smem_str (snd a) names) (sec_alias sec) &&
  forallb (fun a => negb (smem_str (fst a) names) || String.eqb (fst a) (snd a)) (sec_alias sec) &&
  negb (smem_str "_" names) && negb (smem_str "_" (map fst (sec_alias sec))).

Lemma tables_ok : forallb table_ok sections = true.
Proof. vm_compute. reflexivity. Qed.
Lemma section_names : NoDup (map sec_name sections).
Proof.
  assert (H : (fix nodup (l : list string) : bool :=
    match l with [] => true | x :: t => negb (smem_str x t) && nodup t end) (map sec_name sections) = true)
    by (vm_compute; reflexivity).
  induction (map sec_name sections) as [|x l IH]; constructor;
    apply andb_true_iff in H; destruct H as [H1 H2]; auto.
  apply negb_true_iff in H1. apply smem_str_not in H1. auto.
Qed.

Record TableOk (sec : section) : Prop := {
  t_fields : NoDup (map fst (sec_fields sec));
  t_alias : NoDup (map fst (sec_alias sec));
  t_target : NoDup (map snd (sec_alias sec));
  t_known : forall a f, In (a, f) (sec_alias sec) -> In f (map fst (sec_fields sec));
  t_id : forall a f, In (a, f) (sec_alias sec) -> In a (map fst (sec_fields sec)) -> a = f;
  t_us : ~ In "_" (map fst (sec_fields sec));
  t_us' : ~ In "_" (map fst (sec_alias sec))
}.

Lemma nodup_b l :
  (fix nodup (l : list string) : bool :=
    match l with [] => true | x :: t => negb (smem_str x t) && nodup t end) l = true -> NoDup l.
Proof.
  induction l as [|x l IH]; intro H; constructor;
    apply andb_true_iff in H; destruct H as [H1 H2]; auto.
  apply negb_true_iff in H1. apply smem_str_not in H1. auto.
Qed.

Lemma table_ok_spec sec : table_ok sec = true -> TableOk sec.
Proof.
  unfold table_ok. rewrite !andb_true_iff. intros ((((((H1 & H2) & H3) & H4) & H5) & H6) & H7).
  rewrite forallb_forall in H4, H5.
  constructor; try (apply nodup_b; assumption).
  - intros a f H. apply H4 in H. apply smem_str_in in H. auto.
  - intros a f H Ha. apply H5 in H. simpl in H. apply orb_true_iff in H. destruct H as [H|H].
    + apply negb_true_iff, smem_str_not in H. contradiction.
    + apply String.eqb_eq in H. auto.
  - apply negb_true_iff, smem_str_not in H6. auto.
  - apply negb_true_iff, smem_str_not in H7. auto.
Qed.

Lemma tables sec : In sec sections -> TableOk sec.
Proof. intro H. apply table_ok_spec. pose proof tables_ok as X. rewrite forallb_forall in X. auto. Qed.

Section Load.
  Variable lower : string -> string.
  Hypothesis K : keeps_names lower.
  Notation mapped := (mapped lower).
  Notation denotes := (denotes lower).
  Notation good_keys := (good_keys lower).

  Section One.
    Variable sec : section.
    Hypothesis Hs : In sec sections.
    Let T : TableOk sec := tables Hs.

    Lemma denotes_mapped k f : In f (map fst (sec_fields sec)) -> (denotes sec k f <-> mapped sec k = f).
    Proof.
      intro Hf. unfold OptionsSpec.denotes, OptionsModel.mapped. split.
      - intros [_ [H|H]].
        + destruct (jget (sec_alias sec) (lower k)) as [f'|] eqn:E; auto.
          apply jget_in in E. rewrite H in E. symmetry. apply (@t_id _ T f f'); auto.
        + rewrite (@jget_unique _ _ _ _ (t_alias T) H). auto.
      - intro H. split; auto. destruct (jget (sec_alias sec) (lower k)) as [f'|] eqn:E; auto.
        apply jget_in in E. subst. auto.
    Qed.

    Lemma us_mapped k : mapped sec k = "_" <-> lower k = "_".
    Proof.
      unfold OptionsModel.mapped. split.
      - destruct (jget (sec_alias sec) (lower k)) as [f'|] eqn:E; auto.
        intros ->. apply jget_in in E. exfalso. apply (t_us T). eapply t_known; eauto.
      - intros ->. destruct (jget (sec_alias sec) "_") as [f'|] eqn:E; auto.
        apply jget_in in E. exfalso. apply (t_us' T). apply in_map_iff. exists ("_", f'). auto.
    Qed.

    Definition known (m : string) : Prop := In m (map fst (sec_fields sec)) \/ m = "_".

    Lemma validate_iff data : forall seen errs,
      validate lower sec data seen errs = Ok tt <->
      errs = [] /\ (forall k, In k (map fst data) -> known (mapped sec k)) /\
      NoDup (map (fun kv => mapped sec (fst kv)) data) /\
      (forall k, In k (map fst data) -> ~ In (mapped sec k) seen).
    Proof.
      induction data as [|[k v] t IH]; intros seen errs; simpl.
      - split.
        + destruct errs; [|discriminate]. repeat split; try tauto. constructor.
        + intros (-> & _). auto.
      - destruct (smem_str (mapped sec k) seen) eqn:E.
        + apply smem_str_in in E. split; [discriminate|]. intros (_ & _ & _ & H).
          exfalso. apply (H k); auto.
        + apply smem_str_not in E. rewrite IH.
          assert (X : negb (smem_str (mapped sec k) (map fst (sec_fields sec))) && negb (String.eqb (mapped sec k) "_") = false
                      <-> known (mapped sec k)).
          { unfold known. rewrite <- smem_str_in, <- String.eqb_eq.
            destruct (smem_str _ _), (String.eqb _ _); simpl; intuition congruence. }
          assert (Y : (if negb (smem_str (mapped sec k) (map fst (sec_fields sec))) && negb (String.eqb (mapped sec k) "_")
                       then mapped sec k :: errs else errs) = [] <-> errs = [] /\ known (mapped sec k)).
          { rewrite <- X. destruct (negb _ && negb _); intuition congruence. }
          rewrite Y. clear X Y. split.
          * intros ((-> & Hk) & Ha & Hn & Hs'). split; auto. split; [|split].
            -- intros x [<-|Hx]; auto.
            -- constructor; auto. intro Hin. apply in_map_iff in Hin. destruct Hin as ([k2 v2] & H1 & H2).
               apply (Hs' k2); [apply in_map_iff; exists (k2, v2); auto|]. left. auto.
            -- intros x [<-|Hx]; auto. intro Hin. apply (Hs' x Hx). right. auto.
          * intros (-> & Ha & Hn & Hs'). inversion Hn as [|? ? N1 N2]; subst.
            split; [split; auto|]. split; auto. split; auto.
            intros x Hx [H|H]; [|apply (Hs' x); auto].
            apply N1. rewrite H. apply in_map_iff in Hx. destruct Hx as ([k2 v2] & <- & H2).
            apply in_map_iff. exists (k2, v2). auto.
    Qed.

    Lemma validate_value data : forall seen errs e,
      validate lower sec data seen errs = Err e -> oexn e = "ValueError".
    Proof.
      induction data as [|[k v] t IH]; intros seen errs e; simpl.
      - destruct errs; [discriminate|]. intro H. injection H as <-. auto.
      - destruct (smem_str _ seen); [intro H; injection H as <-; auto|]. apply IH.
    Qed.

    Lemma nodup_map_inj (g : string -> string) (data : list (string * jval)) :
      NoDup (map fst data) ->
      (NoDup (map (fun kv => g (fst kv)) data) <->
       forall k1 k2, In k1 (map fst data) -> In k2 (map fst data) -> g k1 = g k2 -> k1 = k2).
    Proof.
      intro N. induction data as [|[k v] t IH]; simpl in *.
      - split; [intros; tauto|constructor].
      - inversion N as [|? ? N1 N2]; subst. specialize (IH N2).
        split.
        + intro H. inversion H as [|? ? M1 M2]; subst. rewrite IH in M2.
          assert (X : forall k2, In k2 (map fst t) -> g k = g k2 -> False).
          { intros k2 H2 E. apply M1. apply in_map_iff in H2. destruct H2 as ([k3 v3] & <- & H3).
            apply in_map_iff. exists (k3, v3). auto. }
          intros k1 k2 [<-|H1] [<-|H2] E; auto; exfalso; eauto.
        + intro H. constructor.
          * intro X. apply in_map_iff in X. destruct X as ([k3 v3] & E & H3).
            assert (k = k3).
            { apply H; auto. right. apply in_map_iff. exists (k3, v3). auto. }
            subst. apply N1. apply in_map_iff. exists (k3, v3). auto.
          * apply IH. intros; apply H; auto.
    Qed.

    Lemma good_keys_iff data : NoDup (map fst data) ->
      (validate lower sec data [] [] = Ok tt <-> good_keys sec data).
    Proof.
      intro N. rewrite validate_iff, (@nodup_map_inj (mapped sec) data N).
      assert (Kn : forall k, known (mapped sec k) <-> lower k = "_" \/ exists f, denotes sec k f).
      { intro k. unfold known. rewrite us_mapped. split; intros [H|H]; auto.
        - right. exists (mapped sec k). apply denotes_mapped; auto.
        - left. destruct H as [f H]. assert (Hf := proj1 H). apply (@denotes_mapped k _ Hf) in H.
          subst f. auto. }
      unfold OptionsSpec.good_keys. split.
      - intros (_ & H1 & H2 & _). split; [|split].
        + intros k Hk. apply Kn. auto.
        + intros k1 k2 f I1 I2 D1 D2. apply H2; auto. assert (Hf := proj1 D1).
          apply (@denotes_mapped k1 _ Hf) in D1. apply (@denotes_mapped k2 _ Hf) in D2. congruence.
        + intros k1 k2 I1 I2 D1 D2. apply H2; auto. apply us_mapped in D1. apply us_mapped in D2. congruence.
      - intros (H1 & H2 & H3). split; auto. split; [intros k Hk; apply Kn; auto|]. split; [|simpl; tauto].
        intros k1 k2 I1 I2 E. destruct (proj2 (Kn k1) (H1 k1 I1)) as [Hf|Hu].
        + apply (H2 k1 k2 (mapped sec k1)); auto; apply denotes_mapped; auto.
        + apply H3; auto; apply us_mapped; congruence.
    Qed.

    (** lookups *)
    Lemma lower_get_in data n v : lower_get lower data n = Some v -> exists k, In (k, v) data /\ lower k = n.
    Proof.
      induction data as [|[k w] t IH]; simpl; [discriminate|].
      destruct (lower_get lower t n) eqn:E.
      - intro H. injection H as ->. destruct (IH eq_refl) as (k' & H1 & H2). eauto.
      - destruct (String.eqb_spec (lower k) n); [|discriminate]. intro H. injection H as ->. eauto.
    Qed.
    Lemma lower_get_none data n : lower_get lower data n = None <-> forall k, In k (map fst data) -> lower k <> n.
    Proof.
      induction data as [|[k w] t IH]; simpl; [split; [tauto|auto]|].
      destruct (lower_get lower t n) eqn:E.
      - split; [discriminate|]. intro H. exfalso.
        assert (X : Some j = None) by (apply IH; auto). discriminate.
      - destruct (String.eqb_spec (lower k) n) as [Ek|Nk].
        + split; [discriminate|]. intro H. exfalso. apply (H k); auto.
        + split; auto. intros _ x [<-|Hx]; auto. apply IH; auto.
    Qed.
    Lemma alias_of_spec l f : (exists a, In (a, f) l /\ alias_of l f = a) \/
                              ((forall a, ~ In (a, f) l) /\ alias_of l f = f).
    Proof.
      induction l as [|[a f'] t IH]; simpl.
      - right. auto.
      - destruct (String.eqb_spec f' f) as [->|N].
        + left. exists a. auto.
        + destruct IH as [(b & H1 & H2)|[H1 H2]].
          * left. exists b. auto.
          * right. split; auto. intros b [H|H]; [congruence|]. apply (H1 b). auto.
    Qed.
    Lemma nodup_snd_unique (l : list (string * string)) a b f :
      NoDup (map snd l) -> In (a, f) l -> In (b, f) l -> a = b.
    Proof.
      induction l as [|[x y] t IH]; simpl; [tauto|]. intros N. inversion N as [|? ? N1 N2]; subst.
      intros [H1|H1] [H2|H2]; auto; try congruence.
      - injection H1 as -> ->. exfalso. apply N1. apply in_map_iff. exists (b, f). auto.
      - injection H2 as -> ->. exfalso. apply N1. apply in_map_iff. exists (a, f). auto.
    Qed.

    Lemma field_given data f def k v :
      NoDup (map fst data) -> good_keys sec data ->
      In (k, v) data -> denotes sec k f -> field_value lower sec data f def = v.
    Proof.
      intros N (_ & G & _) Hk D. assert (Hf := proj1 D).
      assert (Hlow : lower f = f) by (apply (proj2 K sec); auto).
      assert (Hkm : In k (map fst data)) by (apply in_map_iff; exists (k, v); auto).
      (* whatever is found under a spelling of f is v *)
      assert (U : forall n w, lower_get lower data n = Some w -> n = f \/ In (n, f) (sec_alias sec) -> w = v).
      { intros n w E Hn. apply lower_get_in in E. destruct E as (k' & H1 & H2).
        assert (Hk' : In k' (map fst data)) by (apply in_map_iff; exists (k', w); auto).
        assert (k' = k).
        { apply (G k' k f); auto. split; auto. rewrite H2. auto. }
        subst k'. pose proof (@jget_unique _ _ _ _ N Hk). pose proof (@jget_unique _ _ _ _ N H1). congruence. }
      unfold field_value. rewrite Hlow.
      destruct (lower_get lower data f) as [w|] eqn:E1; [eapply U; eauto|].
      destruct (alias_of_spec (sec_alias sec) f) as [(a & Ha & Ea)|[Ha Ea]]; rewrite Ea.
      - destruct (lower_get lower data a) as [w|] eqn:E2; [eapply U; eauto|].
        exfalso. rewrite lower_get_none in E1, E2. destruct D as [_ [D|D]].
        + apply (E1 k Hkm D).
        + apply (E2 k Hkm). eapply nodup_snd_unique; eauto. apply (t_target T).
      - rewrite E1. exfalso. rewrite lower_get_none in E1. destruct D as [_ [D|D]].
        + apply (E1 k Hkm D).
        + apply (Ha (lower k) D).
    Qed.

    Lemma field_default data f def :
      In f (map fst (sec_fields sec)) ->
      (forall k, In k (map fst data) -> ~ denotes sec k f) -> field_value lower sec data f def = def.
    Proof.
      intros Hf H.
      assert (Hlow : lower f = f) by (apply (proj2 K sec); auto).
      assert (U : forall n, n = f \/ In (n, f) (sec_alias sec) -> lower_get lower data n = None).
      { intros n Hn. apply lower_get_none. intros k Hk E. apply (H k Hk). split; auto. rewrite E. auto. }
      unfold field_value. rewrite Hlow, (U f) by auto.
      destruct (alias_of_spec (sec_alias sec) f) as [(a & Ha & Ea)|[Ha Ea]]; rewrite Ea, U; auto.
    Qed.

    (** the value is given or default *)
    Lemma field_cases (data : list (string * jval)) f :
      In f (map fst (sec_fields sec)) ->
      (exists k v, In (k, v) data /\ denotes sec k f) \/ (forall k, In k (map fst data) -> ~ denotes sec k f).
    Proof.
      intro Hf. induction data as [|[k v] t IH]; simpl; [tauto|].
      destruct (string_dec (mapped sec k) f) as [E|E].
      - left. exists k, v. split; auto. apply denotes_mapped; auto.
      - destruct IH as [(k' & v' & H1 & H2)|IH]; [left; eauto|].
        right. intros k' [<-|Hk']; auto. rewrite denotes_mapped; auto.
    Qed.
  End One.

  (* ---------------------------------------------------------------- *)
  Lemma content_of_get (d : list (string * jval)) sec : NoDup (map fst d) ->
    forall v, content_of d sec v <-> v = match jget d (sec_name sec) with Some v => v | None => JObj [] end.
  Proof.
    intros N v. unfold content_of. destruct (jget d (sec_name sec)) as [w|] eqn:E.
    - apply jget_in in E. split.
      + intros [H|[H _]].
        * pose proof (@jget_unique _ _ _ _ N H). pose proof (@jget_unique _ _ _ _ N E). congruence.
        * exfalso. apply H. apply in_map_iff. exists (sec_name sec, w). auto.
      + intros ->. auto.
    - pose proof E as E'. apply jget_none in E. split.
      + intros [H|[_ H]]; auto. exfalso. apply E. apply in_map_iff. exists (sec_name sec, v). auto.
      + intros ->. auto.
  Qed.

  Lemma content_of_exists (d : list (string * jval)) sec : NoDup (map fst d) -> exists v, content_of d sec v.
  Proof. intro N. eexists. apply content_of_get; auto. Qed.

  Definition load (sec : section) (l : list (string * jval)) : list (string * jval) :=
    map (fun fd => (fst fd, field_value lower sec l (fst fd) (snd fd))) (sec_fields sec).

  Lemma load_all_ok (d : list (string * jval)) : NoDup (map fst d) -> forall secs r,
    load_all lower secs d = Ok r ->
    map fst r = map sec_name secs /\
    forall sec, In sec secs -> exists l,
      content_of d sec (JObj l) /\ validate lower sec l [] [] = Ok tt /\ In (sec_name sec, load sec l) r.
  Proof.
    intro N. induction secs as [|s t IH]; intros r H; simpl in H.
    - injection H as <-. simpl. split; [auto|tauto].
    - unfold load_dataclass in H.
      destruct (match jget d (sec_name s) with Some v => v | None => JObj [] end) as [| | | | |l] eqn:E;
        try discriminate.
      destruct (validate lower s l [] []) as [[]|] eqn:V; [|discriminate].
      destruct (load_all lower t d) as [r'|] eqn:L; [|discriminate].
      injection H as <-. destruct (IH r' eq_refl) as [IH1 IH2].
      simpl. split; [congruence|].
      intros sec [<-|Hs].
      + exists l. split; [apply content_of_get; auto|]. split; auto.
      + destruct (IH2 sec Hs) as (l' & H1 & H2 & H3). exists l'. auto.
  Qed.

  Lemma load_all_err (d : list (string * jval)) : NoDup (map fst d) -> forall secs e,
    load_all lower secs d = Err e ->
    exists sec v, In sec secs /\ content_of d sec v /\
      match v with
      | JObj l => validate lower sec l [] [] = Err e
      | _ => e = EAttribute
      end.
  Proof.
    intro N. induction secs as [|s t IH]; intros e H; simpl in H; [discriminate|].
    unfold load_dataclass in H.
    assert (C := proj2 (@content_of_get d s N _) eq_refl).
    destruct (match jget d (sec_name s) with Some v => v | None => JObj [] end) as [| | | | |l] eqn:E.
    1-5: injection H as <-; exists s; eexists; split; [left; auto|]; split; [exact C|]; reflexivity.
    destruct (validate lower s l [] []) as [[]|] eqn:V.
    - destruct (load_all lower t d) as [r'|] eqn:L; [discriminate|].
      injection H as <-. destruct (IH _ eq_refl) as (sec & v & H1 & H2 & H3).
      exists sec, v. split; [right; auto|auto].
    - injection H as <-. exists s, (JObj l). split; [left; auto|]. split; auto.
  Qed.

  Lemma no_extra (d : list (string * jval)) :
    filter (fun k => negb (smem_str k (map sec_name sections))) (map fst d) = [] <->
    forall k, In k (map fst d) -> In k (map sec_name sections).
  Proof.
    generalize (map sec_name sections) as S. intro S.
    induction (map fst d) as [|k l IH]; simpl; [tauto|].
    destruct (smem_str k S) eqn:E; simpl.
    - apply smem_str_in in E. rewrite IH. split; intros H; auto. intros x [<-|Hx]; auto.
    - apply smem_str_not in E. split; [discriminate|]. intro H. exfalso. apply E. apply H. auto.
  Qed.

  Lemma from_dict_ok d r : NoDup (map fst d) -> from_dict lower d = Ok r ->
    (forall k, In k (map fst d) -> In k (map sec_name sections)) /\
    map fst r = map sec_name sections /\
    forall sec, In sec sections -> exists l,
      content_of d sec (JObj l) /\ validate lower sec l [] [] = Ok tt /\ In (sec_name sec, load sec l) r.
  Proof.
    intros N. unfold from_dict.
    destruct (filter _ _) as [|x t] eqn:E; [|discriminate].
    pose proof (proj1 (no_extra d) E) as E2. intro H. split; auto. apply load_all_ok; auto.
  Qed.

  Lemma jget_load sec l f def : TableOk sec -> In (f, def) (sec_fields sec) ->
    jget (load sec l) f = Some (field_value lower sec l f def).
  Proof.
    intros T Hf. apply jget_unique.
    - unfold load. rewrite map_map. simpl. apply (t_fields T).
    - unfold load. apply in_map_iff. exists (f, def). auto.
  Qed.

  Lemma content_nodup d sec l : nested_dict d -> content_of d sec (JObj l) -> NoDup (map fst l).
  Proof.
    intros [_ H] [X|[_ X]]; [exact (H _ _ X)|]. injection X as ->. constructor.
  Qed.

  Lemma from_dict_option d r sec l f def :
    nested_dict d -> from_dict lower d = Ok r -> In sec sections ->
    content_of d sec (JObj l) -> In (f, def) (sec_fields sec) ->
    option_value r (sec_name sec) f = Some (field_value lower sec l f def) /\ good_keys sec l.
  Proof.
    intros Nd H Hs Hc Hf. destruct Nd as [N Nn].
    destruct (@from_dict_ok d r N H) as (_ & Hr & Hl).
    destruct (Hl sec Hs) as (l' & C' & V & Hin).
    assert (l' = l).
    { apply (@content_of_get _ sec N _) in Hc. apply (@content_of_get _ sec N _) in C'. congruence. }
    subst l'. split.
    - unfold option_value.
      assert (Nr : NoDup (map fst r)) by (rewrite Hr; apply section_names).
      rewrite (@jget_unique _ _ _ _ Nr Hin). apply jget_load; auto. apply tables; auto.
    - apply good_keys_iff; auto. apply (@content_nodup d sec l); [split; auto|auto].
  Qed.

  Lemma from_dict_given d r sec l k v f :
    nested_dict d -> from_dict lower d = Ok r -> In sec sections ->
    content_of d sec (JObj l) -> In (k, v) l -> denotes sec k f ->
    option_value r (sec_name sec) f = Some v.
  Proof.
    intros Nd H Hs Hc Hk D. assert (Hf := proj1 D). apply in_map_iff in Hf.
    destruct Hf as ([f' def] & Ef & Hf). simpl in Ef. subst f'.
    destruct (@from_dict_option d r sec l f def) as [E G]; auto. rewrite E. f_equal.
    apply (@field_given sec Hs l f def k v); auto. apply (@content_nodup d sec l); auto.
  Qed.

  Lemma from_dict_default d r sec l f def :
    nested_dict d -> from_dict lower d = Ok r -> In sec sections ->
    content_of d sec (JObj l) -> In (f, def) (sec_fields sec) ->
    (forall k, In k (map fst l) -> ~ denotes sec k f) ->
    option_value r (sec_name sec) f = Some def.
  Proof.
    intros Nd H Hs Hc Hf Hn. destruct (@from_dict_option d r sec l f def) as [E G]; auto.
    rewrite E. f_equal. apply field_default; auto. apply in_map_iff. exists (f, def). auto.
  Qed.

  (** acceptance *)
  Lemma from_dict_accepts d : nested_dict d ->
    (exists r, from_dict lower d = Ok r) <->
    (forall k, In k (map fst d) -> In k (map sec_name sections)) /\
    (forall sec v, In sec sections -> content_of d sec v -> exists l, v = JObj l /\ good_keys sec l).
  Proof.
    intro Nd. destruct Nd as [N Nn]. split.
    - intros [r H]. destruct (@from_dict_ok d r N H) as (H1 & _ & Hl). split; auto.
      intros sec v Hs Hv. destruct (Hl sec Hs) as (l & C & V & _).
      assert (v = JObj l).
      { apply (@content_of_get _ sec N _) in Hv. apply (@content_of_get _ sec N _) in C. congruence. }
      exists l. split; auto. apply good_keys_iff; auto. apply (@content_nodup d sec l); [split; auto|auto].
    - intros [H1 H2]. unfold from_dict. rewrite (proj2 (no_extra d) H1).
      destruct (load_all lower sections d) as [r|e] eqn:E; eauto. exfalso.
      apply load_all_err in E; auto. destruct E as (sec & v & Hs & Hc & X).
      destruct (H2 sec v Hs Hc) as (l & -> & G).
      apply (good_keys_iff Hs) in G; [congruence|]. apply (@content_nodup d sec l); [split; auto|auto].
  Qed.

  Lemma from_dict_err d e : nested_dict d -> from_dict lower d = Err e ->
    oexn e = "ValueError" \/
    (e = EAttribute /\ exists sec v, In sec sections /\ content_of d sec v /\ forall l, v <> JObj l).
  Proof.
    intros [N Nn]. unfold from_dict. destruct (filter _ _) as [|x t].
    - intro H. apply load_all_err in H; auto. destruct H as (sec & v & Hs & Hc & X).
      destruct v; try (right; split; auto; exists sec; eexists; split; [auto|split; [eauto|discriminate]]; fail).
      left. eapply validate_value; eauto.
    - intro H. injection H as <-. auto.
  Qed.

  Lemma good_keys_perm sec l1 l2 : Permutation l1 l2 -> good_keys sec l1 -> good_keys sec l2.
  Proof.
    intros P (H1 & H2 & H3).
    assert (X : forall k, In k (map fst l2) -> In k (map fst l1)).
    { intros k Hk. eapply Permutation_in; [apply Permutation_sym, Permutation_map; exact P|auto]. }
    split; [|split]; intros; eauto.
  Qed.

  Lemma field_value_perm sec l1 l2 f def : In sec sections ->
    Permutation l1 l2 -> NoDup (map fst l1) -> good_keys sec l1 -> In f (map fst (sec_fields sec)) ->
    field_value lower sec l1 f def = field_value lower sec l2 f def.
  Proof.
    intros Hs P N G Hf.
    assert (N2 : NoDup (map fst l2)) by (eapply Permutation_NoDup; [apply Permutation_map; exact P|auto]).
    destruct (@field_cases sec Hs l1 f Hf) as [(k & v & Hk & D)|Hn].
    - rewrite (@field_given sec Hs l1 f def k v), (@field_given sec Hs l2 f def k v); auto.
      + eapply good_keys_perm; eauto.
      + eapply Permutation_in; eauto.
    - rewrite !(@field_default sec Hs); auto.
      intros k Hk. apply Hn. eapply Permutation_in; [apply Permutation_sym, Permutation_map; exact P|auto].
  Qed.
End Load.

(** the results of load_all as a function of the contents *)
Section Result.
  Variable lower : string -> string.
  Hypothesis K : keeps_names lower.

  Definition content_obj (d : list (string * jval)) (sec : section) : list (string * jval) :=
    match jget d (sec_name sec) with Some (JObj l) => l | _ => [] end.

  Lemma load_all_result (d : list (string * jval)) : forall secs r,
    load_all lower secs d = Ok r ->
    r = map (fun sec => (sec_name sec, load lower sec (content_obj d sec))) secs.
  Proof.
    induction secs as [|s t IH]; intros r H; simpl in H.
    - injection H as <-. auto.
    - unfold load_dataclass in H. unfold content_obj. simpl.
      destruct (jget d (sec_name s)) as [v|].
      + destruct v as [| | | | |l]; try discriminate.
        destruct (validate lower s l [] []); [|discriminate].
        destruct (load_all lower t d) as [r'|]; [|discriminate]. injection H as <-.
        rewrite (IH r' eq_refl). reflexivity.
      + destruct (validate lower s [] [] []); [|discriminate].
        destruct (load_all lower t d) as [r'|]; [|discriminate]. injection H as <-.
        rewrite (IH r' eq_refl). reflexivity.
  Qed.

  Lemma forall2_keys (R : string * jval -> string * jval -> Prop) d' d2 :
    (forall a b, R a b -> fst a = fst b) -> Forall2 R d' d2 -> map fst d' = map fst d2.
  Proof. intros HR F. induction F; simpl; f_equal; auto. Qed.

  Lemma reordered_keys d1 d2 : reordered d1 d2 -> Permutation (map fst d1) (map fst d2).
  Proof.
    intros (d' & P & F). transitivity (map fst d').
    - apply Permutation_map. auto.
    - erewrite forall2_keys; [apply Permutation_refl| |exact F]. intros a b [H _]. auto.
  Qed.

  Lemma reordered_content d1 d2 sec v1 : nested_dict d1 -> reordered d1 d2 ->
    content_of d1 sec v1 -> exists v2, content_of d2 sec v2 /\ same_value v1 v2.
  Proof.
    intros _ R [H|[H ->]].
    - destruct R as (d' & P & F). apply (Permutation_in _ P) in H. clear P.
      induction F as [|a b t t' [H1 H2] F IH] in H |- *; [destruct H|].
      destruct H as [->|H].
      + destruct b as [n v2]. simpl in *. subst n. exists v2. split; [left; left; auto|auto].
      + destruct (IH H) as (v2 & [C|[C1 C2]] & X).
        * exists v2. split; auto. left. right. auto.
        * exists v2. split; auto.
          exfalso. apply C1. rewrite <- (@forall2_keys _ t t' (fun a b H => proj1 H) F).
          apply in_map_iff. exists (sec_name sec, v1). auto.
    - exists (JObj []). split; [|constructor]. right. split; auto.
      intro X. apply H. eapply Permutation_in; [apply Permutation_sym, reordered_keys; exact R|auto].
  Qed.

  Lemma reordered_sym d1 d2 : reordered d1 d2 -> reordered d2 d1.
  Proof.
    intros (d' & P & F).
    (* permute back *)
    assert (X : forall l l' : list (string * jval), Permutation l l' -> forall m,
              Forall2 (fun a b => fst a = fst b /\ same_value (snd a) (snd b)) l m ->
              exists m', Permutation m m' /\
              Forall2 (fun a b => fst a = fst b /\ same_value (snd a) (snd b)) l' m').
    { induction 1 as [|x l l' P' IH|x y l|l l' l'' P1 IH1 P2 IH2]; intros m Fm.
      - inversion Fm; subst. exists []. split; constructor.
      - inversion Fm as [|? b ? m0 H1 H2]; subst. destruct (IH _ H2) as (m' & Q & G).
        exists (b :: m'). split; auto.
      - inversion Fm as [|? b ? m0 H1 H2]; subst. inversion H2 as [|? b' ? m1 H3 H4]; subst.
        exists (b' :: b :: m1). split; [constructor|]. repeat (constructor; auto).
      - destruct (IH1 _ Fm) as (m1 & Q1 & G1). destruct (IH2 _ G1) as (m2 & Q2 & G2).
        exists m2. split; auto. eapply Permutation_trans; eauto. }
    destruct (X d' d1 (Permutation_sym P) d2 F) as (m & Q & G).
    exists m. split; auto. clear -G. induction G as [|a b l m [H1 H2] G IH]; constructor; auto.
    split; auto. destruct (snd a), (snd b); auto; try congruence. apply Permutation_sym. auto.
  Qed.

  Lemma reordered_nested d1 d2 : reordered d1 d2 -> nested_dict d1 -> nested_dict d2.
  Proof.
    intros R [N Nn]. split.
    - eapply Permutation_NoDup; [apply reordered_keys; exact R|auto].
    - destruct R as (d' & P & F). intros n l H.
      assert (exists l', In (n, JObj l') d' /\ Permutation l' l).
      { clear -F H. induction F as [|a b t t' [H1 H2] F IH]; [destruct H|]. destruct H as [->|H].
        - simpl in *. destruct a as [m v]. simpl in *. subst m. destruct v; try discriminate.
          exists l0. split; auto.
        - destruct (IH H) as (l' & H3 & H4). exists l'. split; simpl; auto. }
      destruct H0 as (l' & H1 & H2). apply (Permutation_in _ (Permutation_sym P)) in H1.
      eapply Permutation_NoDup; [apply Permutation_map; exact H2|]. exact (Nn _ _ H1).
  Qed.

  Lemma from_dict_reordered d1 d2 :
    nested_dict d1 -> reordered d1 d2 ->
    match from_dict lower d1, from_dict lower d2 with
    | Ok r1, Ok r2 => r1 = r2
    | Err _, Err _ => True
    | _, _ => False
    end.
  Proof.
    intros Nd R. pose proof (reordered_nested R Nd) as Nd2.
    assert (Acc : forall da db, nested_dict da -> nested_dict db -> reordered da db ->
              (exists r, from_dict lower da = Ok r) -> exists r, from_dict lower db = Ok r).
    { intros da db Na Nb Rab. rewrite !from_dict_accepts; auto. intros [H1 H2]. split.
      - intros k Hk. apply H1. eapply Permutation_in; [apply Permutation_sym, reordered_keys; exact Rab|auto].
      - intros sec v Hs Hc. destruct (reordered_content Nb (reordered_sym Rab) Hc) as (v2 & C2 & X).
        destruct (H2 sec v2 Hs C2) as (l & -> & G). destruct v; try discriminate.
        exists l0. split; auto. eapply good_keys_perm; [apply Permutation_sym; exact X|auto]. }
    destruct (from_dict lower d1) as [r1|e1] eqn:E1; destruct (from_dict lower d2) as [r2|e2] eqn:E2; auto.
    - unfold from_dict in E1, E2. destruct (filter _ (map fst d1)); [|discriminate].
      destruct (filter _ (map fst d2)); [|discriminate].
      pose proof E1 as E1'. pose proof E2 as E2'.
      apply load_all_result in E1. apply load_all_result in E2. subst r1 r2.
      apply map_ext_in. intros sec Hs. f_equal. unfold load. apply map_ext_in. intros [f def] Hf. f_equal.
      simpl.
      destruct (@load_all_ok lower d1 (proj1 Nd) sections _ E1') as [_ Hl].
      destruct (Hl sec Hs) as (l1 & C1 & V1 & _).
      destruct (reordered_content Nd R C1) as (v2 & C2 & X).
      assert (exists l2, v2 = JObj l2 /\ Permutation l1 l2) as (l2 & -> & P).
      { destruct v2; try discriminate. eauto. }
      assert (c1 : content_obj d1 sec = l1).
      { apply (@content_of_get _ sec (proj1 Nd) _) in C1. unfold content_obj.
        destruct (jget d1 (sec_name sec)); [subst j|injection C1 as ->]; auto. }
      assert (c2 : content_obj d2 sec = l2).
      { apply (@content_of_get _ sec (proj1 Nd2) _) in C2. unfold content_obj.
        destruct (jget d2 (sec_name sec)); [subst j|injection C2 as ->]; auto. }
      rewrite c1, c2. apply (field_value_perm K); auto.
      + apply (@content_nodup d1 sec l1); auto.
      + apply (good_keys_iff lower Hs); auto. apply (@content_nodup d1 sec l1); auto.
      + apply in_map_iff. exists (f, def). auto.
    - destruct (Acc d1 d2 Nd Nd2 R) as [r X]; eauto. congruence.
    - destruct (Acc d2 d1 Nd2 Nd (reordered_sym R)) as [r X]; eauto. congruence.
  Qed.
End Result.

Section More.
  Variable lower : string -> string.
  Hypothesis K : keeps_names lower.

  (** one section does not depend on the others *)
  Lemma section_independent d1 d2 r1 r2 sec v1 v2 f :
    nested_dict d1 -> nested_dict d2 ->
    from_dict lower d1 = Ok r1 -> from_dict lower d2 = Ok r2 ->
    In sec sections -> content_of d1 sec v1 -> content_of d2 sec v2 -> same_value v1 v2 ->
    In f (map fst (sec_fields sec)) ->
    exists v, option_value r1 (sec_name sec) f = Some v /\ option_value r2 (sec_name sec) f = Some v.
  Proof.
    intros N1 N2 E1 E2 Hs C1 C2 S Hf.
    destruct (proj1 (from_dict_accepts lower N1) (ex_intro _ r1 E1)) as [_ A1].
    destruct (proj1 (from_dict_accepts lower N2) (ex_intro _ r2 E2)) as [_ A2].
    destruct (A1 sec v1 Hs C1) as (l1 & -> & G1). destruct (A2 sec v2 Hs C2) as (l2 & -> & G2).
    simpl in S. apply in_map_iff in Hf. destruct Hf as ([f' def] & Ef & Hf). simpl in Ef. subst f'.
    exists (field_value lower sec l1 f def). split.
    - apply (@from_dict_option lower d1 r1 sec l1 f def); auto.
    - assert (E : field_value lower sec l1 f def = field_value lower sec l2 f def).
      { apply (field_value_perm K); auto.
        - apply (@content_nodup d1 sec l1); auto.
        - apply in_map_iff. exists (f, def). auto. }
      rewrite E. apply (@from_dict_option lower d2 r2 sec l2 f def); auto.
  Qed.

  Lemma as_dict_keys r : map fst (as_dict r) = map fst r.
  Proof. unfold as_dict. rewrite map_map. auto. Qed.

  Lemma section_eq s1 s2 : In s1 sections -> In s2 sections -> sec_name s1 = sec_name s2 -> s1 = s2.
  Proof.
    generalize section_names. generalize sections. intro S. induction S as [|x S IH]; simpl; [tauto|].
    intro N. inversion N as [|? ? N1 N2]; subst. intros [<-|H1] [<-|H2] E; auto.
    - exfalso. apply N1. rewrite E. apply in_map. auto.
    - exfalso. apply N1. rewrite <- E. apply in_map. auto.
  Qed.

  Lemma load_fst sec l : map fst (load lower sec l) = map fst (sec_fields sec).
  Proof. unfold load. rewrite map_map. auto. Qed.

  Lemma roundtrip d r : nested_dict d -> from_dict lower d = Ok r -> from_dict lower (as_dict r) = Ok r.
  Proof.
    intros Nd H. pose proof Nd as [N Nn].
    assert (Hr : r = map (fun sec => (sec_name sec, load lower sec (content_obj d sec))) sections).
    { unfold from_dict in H. destruct (filter _ _); [|discriminate]. apply load_all_result in H. auto. }
    assert (Hkeys : map fst r = map sec_name sections) by (rewrite Hr, map_map; auto).
    assert (Hin : forall sec, In sec sections -> content_of (as_dict r) sec (JObj (load lower sec (content_obj d sec)))).
    { intros sec Hs. left. unfold as_dict. apply in_map_iff.
      exists (sec_name sec, load lower sec (content_obj d sec)). split; auto.
      rewrite Hr. apply in_map_iff. exists sec. auto. }
    assert (Nd2 : nested_dict (as_dict r)).
    { split.
      - unfold py_dict. rewrite as_dict_keys, Hkeys. apply section_names.
      - intros n l Hl. unfold as_dict in Hl. apply in_map_iff in Hl. destruct Hl as ([n' l'] & E & Hl).
        injection E as -> ->. rewrite Hr in Hl. apply in_map_iff in Hl. destruct Hl as (sec & E & Hs).
        injection E as <- <-. unfold py_dict. rewrite load_fst. apply (t_fields (tables Hs)). }
    assert (Hid : forall sec k f, In sec sections -> In k (map fst (sec_fields sec)) ->
                    denotes lower sec k f -> f = k).
    { intros sec k f Hs Hk D. pose proof (proj1 D) as Hf. apply (@denotes_mapped lower sec Hs k _ Hf) in D.
      subst f. assert (D2 : denotes lower sec k k).
      { split; auto. left. apply (proj2 K sec); auto. }
      apply (@denotes_mapped lower sec Hs k _ Hk) in D2. auto. }
    assert (A : exists r2, from_dict lower (as_dict r) = Ok r2).
    { apply from_dict_accepts; auto. split.
      - rewrite as_dict_keys, Hkeys. auto.
      - intros sec v Hs Hv. apply (@content_of_get _ sec (proj1 Nd2) _) in Hv.
        pose proof (Hin sec Hs) as Hv2. apply (@content_of_get _ sec (proj1 Nd2) _) in Hv2.
        exists (load lower sec (content_obj d sec)). split; [congruence|].
        unfold good_keys. rewrite load_fst. split; [|split].
        + intros k Hk. right. exists k. split; auto. left. apply (proj2 K sec); auto.
        + intros k1 k2 f H1 H2 D1 D2. apply Hid in D1; auto. apply Hid in D2; auto. congruence.
        + intros k1 k2 H1 H2 D1 D2. rewrite (proj2 K sec k1), (proj2 K sec k2) in *; auto. congruence. }
    destruct A as [r2 A]. rewrite A. f_equal.
    pose proof A as A'. unfold from_dict in A'. destruct (filter _ (map fst (as_dict r))); [|discriminate].
    apply load_all_result in A'. rewrite A', Hr. apply map_ext_in. intros sec Hs. f_equal.
    rewrite <- Hr.
    assert (Ec : content_obj (as_dict r) sec = load lower sec (content_obj d sec)).
    { pose proof (Hin sec Hs) as Hv2. apply (@content_of_get _ sec (proj1 Nd2) _) in Hv2.
      unfold content_obj at 1. destruct (jget (as_dict r) (sec_name sec)); [subst j; auto|].
      injection Hv2 as Hv2. auto. }
    rewrite Ec. unfold load at 1. unfold load at 2. apply map_ext_in. intros [f def] Hf. f_equal. simpl.
    assert (Hf' : In f (map fst (sec_fields sec))) by (apply in_map_iff; exists (f, def); auto).
    destruct (proj1 (from_dict_accepts lower Nd2) (ex_intro _ _ A)) as [_ A1].
    destruct (A1 sec _ Hs (Hin sec Hs)) as (l & El & G). injection El as <-.
    apply (@field_given lower K sec Hs _ f def f); auto.
    - rewrite load_fst. apply (t_fields (tables Hs)).
    - unfold load. apply in_map_iff. exists (f, def). auto.
    - split; auto. left. apply (proj2 K sec); auto.
  Qed.

  (** [from_json_file] *)
  Lemma from_json_spec text parse :
    match from_json_file lower text parse with
    | Ok (Some o) => exists s d, text = Some s /\ parse s = Some (JObj d) /\ from_dict lower d = Ok o
    | Ok None => text = None \/ exists s, text = Some s /\
        (parse s = None \/ exists d e, parse s = Some (JObj d) /\ from_dict lower d = Err e /\ e <> EAttribute)
    | Err e => e = EAttribute /\ exists s v, text = Some s /\ parse s = Some v /\
        ((forall d, v <> JObj d) \/ exists d, v = JObj d /\ from_dict lower d = Err EAttribute)
    end.
  Proof.
    unfold from_json_file. destruct text as [s|]; auto.
    destruct (parse s) as [v|] eqn:Ep; [|right; exists s; auto].
    destruct v as [| | | | |d].
    1-5: split; auto; exists s; eexists; split; auto; split; [eauto|]; left; discriminate.
    destruct (from_dict lower d) as [o|e] eqn:E.
    - exists s, d. auto.
    - destruct e.
      1-3: right; exists s; split; auto; right; exists d; eexists; split; auto; split; eauto; discriminate.
      split; auto. exists s, (JObj d). split; auto. split; auto. right. exists d. auto.
  Qed.
End More.

(* ------------------------------------------------------------------ spellings *)
Definition seqb2 (a b : string * string) := String.eqb (fst a) (fst b) && String.eqb (snd a) (snd b).
Definition seqb3 (a b : string * string * string) := seqb2 (fst a) (fst b) && String.eqb (snd a) (snd b).
(** The aliases are the short forms and the other names, and nothing else. *)
Definition spell_ok (sec : section) : bool :=
  forallb (fun a => (String.eqb (fst a) (snd a)) ||
                    (String.eqb (fst a) (strip (snd a)) && negb (existsb (seqb2 (sec_name sec, snd a)) no_short_form))
                    || existsb (seqb3 (sec_name sec, fst a, snd a)) other_names) (sec_alias sec) &&
  forallb (fun f => String.eqb (strip f) f || existsb (seqb2 (sec_name sec, f)) no_short_form ||
                    existsb (seqb2 (strip f, f)) (sec_alias sec)) (map fst (sec_fields sec)) &&
  forallb (fun o => negb (String.eqb (fst (fst o)) (sec_name sec)) ||
                    existsb (seqb2 (snd (fst o), snd o)) (sec_alias sec)) other_names.
Lemma spell_all : forallb spell_ok sections = true.
Proof. vm_compute. reflexivity. Qed.
Lemma seqb2_eq a b : seqb2 a b = true <-> a = b.
Proof.
  destruct a, b. unfold seqb2. simpl. rewrite andb_true_iff, !String.eqb_eq. split; [intros [-> ->]; auto|].
  intro H; injection H; auto.
Qed.
Lemma seqb3_eq a b : seqb3 a b = true <-> a = b.
Proof.
  destruct a, b. unfold seqb3. simpl. rewrite andb_true_iff, seqb2_eq, String.eqb_eq. split; [intros [-> ->]; auto|].
  intro H; injection H; auto.
Qed.
Lemma existsb_seqb2 a l : existsb (seqb2 a) l = true <-> In a l.
Proof. rewrite existsb_exists. split; [intros (x & H & E); apply seqb2_eq in E; subst; auto|]. intro H. exists a. rewrite seqb2_eq. auto. Qed.
Lemma existsb_seqb3 a l : existsb (seqb3 a) l = true <-> In a l.
Proof. rewrite existsb_exists. split; [intros (x & H & E); apply seqb3_eq in E; subst; auto|]. intro H. exists a. rewrite seqb3_eq. auto. Qed.

Lemma denotes_spelling lower sec f k : In sec sections -> In f (map fst (sec_fields sec)) ->
  (denotes lower sec k f <-> lower k = f \/ (lower k = strip f /\ ~ In (sec_name sec, f) no_short_form) \/
                             In (sec_name sec, lower k, f) other_names).
Proof.
  intros Hs Hf. pose proof (proj1 (forallb_forall _ _) spell_all sec Hs) as S. unfold spell_ok in S.
  rewrite !andb_true_iff, !forallb_forall in S. destruct S as [[S1 S2] S3]. unfold denotes. split.
  - intros [_ [E|E]]; auto. apply S1 in E. cbn [fst snd] in E. rewrite !orb_true_iff, andb_true_iff, !String.eqb_eq, negb_true_iff in E.
    destruct E as [[E|[E N]]|E]; auto.
    + right; left. split; auto. intro X. apply existsb_seqb2 in X. congruence.
    + right; right. apply existsb_seqb3. exact E.
  - intros [E|[[E N]|E]]; (split; [exact Hf|]); auto.
    + apply S2 in Hf. rewrite !orb_true_iff, String.eqb_eq in Hf. destruct Hf as [[X|X]|X].
      * left. congruence.
      * apply existsb_seqb2 in X. contradiction.
      * right. rewrite E. apply existsb_seqb2. exact X.
    + right. apply S3 in E. cbn [fst snd] in E. rewrite String.eqb_refl in E. apply existsb_seqb2. exact E.
Qed.

Lemma single_nested n k v : nested_dict [(n, JObj [(k, v)])].
Proof.
  split; [repeat constructor; simpl; tauto|]. intros n' l [E|[]]. injection E as <- <-. repeat constructor; simpl; tauto.
Qed.
Lemma field_def sec f : In f (map fst (sec_fields sec)) -> exists def, In (f, def) (sec_fields sec).
Proof. intro H. apply in_map_iff in H. destruct H as ([f' d] & <- & H). eauto. Qed.

Lemma accepted_spellings lower : keeps_names lower ->
  forall sec f, In sec sections -> In f (map fst (sec_fields sec)) ->
  forall k,
    (forall v, exists r, from_dict lower [(sec_name sec, JObj [(k, v)])] = Ok r /\
                         option_value r (sec_name sec) f = Some v) <->
    lower k = f \/ (lower k = strip f /\ ~ In (sec_name sec, f) no_short_form) \/
    In (sec_name sec, lower k, f) other_names.
Proof.
  intros K sec f Hs Hf k. rewrite <- (@denotes_spelling lower sec f k Hs Hf). pose proof (fun v => @single_nested (sec_name sec) k v) as N.
  destruct (@field_def sec f Hf) as [def Hd].
  assert (C : forall v, content_of [(sec_name sec, JObj [(k, v)])] sec (JObj [(k, v)])) by (intro v; left; simpl; auto).
  split.
  - intro H. destruct (H (JArr [def])) as (r & E & O).
    destruct (@field_cases lower sec Hs [(k, JArr [def])] f Hf) as [(k' & v' & [X|[]] & D)|X].
    + injection X as <- <-. exact D.
    + exfalso.
      pose proof (@from_dict_default lower K _ r sec _ f def (N _) E Hs (C _) Hd X) as Y.
      rewrite O in Y. injection Y as Y.
      assert (G : forall j, JArr [j] <> j).
      { fix IH 1. intros [| | | |[|a [|]]|] G; try discriminate. injection G as G. exact (IH a G). }
      exact (G def Y).
  - intros D v.
    assert (A : exists r, from_dict lower [(sec_name sec, JObj [(k, v)])] = Ok r).
    { apply (@from_dict_accepts lower _ (N v)). split.
      - intros n [<-|[]]. exact (in_map sec_name _ _ Hs).
      - intros sec' w Hs' [[X|[]]|[_ ->]].
        + injection X as X <-. apply section_eq in X; auto. subst sec'. exists [(k, v)]. split; auto. split; [|split].
          * intros k' [<-|[]]. eauto.
          * intros k1 k2 g [<-|[]] [<-|[]]; auto.
          * intros k1 k2 [<-|[]] [<-|[]]; auto.
        + exists []. split; auto. split; [|split]; simpl; tauto. }
    destruct A as [r A]. exists r. split; auto.
    refine (@from_dict_given lower K _ r sec [(k, v)] k v f (N v) A Hs (C v) _ D). left; reflexivity.
Qed.

Lemma prelim_loaded lower : keeps_names lower ->
  forall d r, nested_dict d -> from_dict lower d = Ok r ->
    map fst (prelim_options r) = map fst prelim_sources /\
    forall n sec f, In (n, (sec, f)) prelim_sources ->
      exists v, option_value r sec f = Some v /\ In (n, Some v) (prelim_options r).
Proof.
  intros K d r N E. split; [reflexivity|].
  assert (P : forall sec f, In sec sections -> In f (map fst (sec_fields sec)) -> exists v, option_value r (sec_name sec) f = Some v).
  { intros sec f Hs Hf. destruct (@field_def sec f Hf) as [def Hd].
    destruct (proj1 (@from_dict_accepts lower d N) (ex_intro _ r E)) as [_ A].
    destruct (@content_of_exists d sec (proj1 N)) as [w C]. destruct (A sec w Hs C) as (l & -> & _).
    eexists. exact (proj1 (@from_dict_option lower d r sec l f def N E Hs C Hd)). }
  intros n sec f H.
  assert (S : exists v, option_value r sec f = Some v).
  { simpl in H. repeat (destruct H as [H|H]; [injection H as <- <- <-|]); try contradiction;
    match goal with |- exists v, option_value r ?s ?f = _ =>
      let t := constr:(find (fun x => String.eqb (sec_name x) s) sections) in
      let t' := eval vm_compute in t in
      match t' with Some ?x => apply (P x f); [simpl; tauto|simpl; tauto] end end. }
  destruct S as [v S]. exists v. split; auto. rewrite <- S.
  simpl in H. repeat (destruct H as [H|H]; [injection H as <- <- <-; simpl; unfold option_value; tauto|]). contradiction.
Qed.

(* ---------------------------------------------------------------- *)
(** [default] *)
Lemma options_default_some kw o : options_default kw = Some o <->
  (forall k, In k (map fst kw) <-> exists sec, In sec sections /\ k = sec_name sec) /\
  o = map (fun sec => (sec_name sec, match jget kw (sec_name sec) with Some (Some v) => v | _ => sec_fields sec end)) sections.
Proof.
  unfold options_default. generalize sections as S. intro S.
  destruct (forallb (fun sec => smem_str (sec_name sec) (map fst kw)) S &&
            forallb (fun k => smem_str k (map sec_name S)) (map fst kw)) eqn:E.
  - apply andb_true_iff in E. destruct E as [A B]. rewrite forallb_forall in A, B. split.
    + intro H. injection H as <-. split; auto. intro k. split.
      * intro H. apply B, smem_str_in, in_map_iff in H. destruct H as (sec & <- & H). eauto.
      * intros (sec & H & ->). apply smem_str_in. auto.
    + intros [_ ->]. auto.
  - split; [discriminate|]. intros [H _]. exfalso. apply andb_false_iff in E.
    assert (A : forallb (fun sec => smem_str (sec_name sec) (map fst kw)) S = true).
    { apply forallb_forall. intros sec Hs. apply smem_str_in. apply H. eauto. }
    assert (B : forallb (fun k => smem_str k (map sec_name S)) (map fst kw) = true).
    { apply forallb_forall. intros k Hk. apply smem_str_in. apply H in Hk. destruct Hk as (sec & Hs & ->). apply in_map. auto. }
    rewrite A, B in E. destruct E; discriminate.
Qed.

Lemma default_params_in sec f : In f (default_params sec) <->
  In f (map fst (sec_fields sec)) /\ ~ (sec_name sec = "pythia" /\ f = "params").
Proof.
  unfold default_params. rewrite filter_In, negb_true_iff, andb_false_iff, !String.eqb_neq. split.
  - intros [A B]. split; auto. intros [C D]. tauto.
  - intros [A B]. split; auto. destruct (string_dec (sec_name sec) "pythia"); tauto.
Qed.

Lemma class_default_some sec kw v : class_default sec kw = Some v <->
  (forall k, In k (map fst kw) -> In k (map fst (sec_fields sec)) /\ ~ (sec_name sec = "pythia" /\ k = "params")) /\
  v = map (fun fd => (fst fd, match jget kw (fst fd) with Some v => v | None => snd fd end)) (sec_fields sec).
Proof.
  unfold class_default. destruct (forallb _ _) eqn:E.
  - rewrite forallb_forall in E. split.
    + intro H. injection H as <-. split; auto. intros k Hk. apply default_params_in, smem_str_in. auto.
    + intros [_ ->]. auto.
  - split; [discriminate|]. intros [H _]. assert (X : forallb (fun k => smem_str k (default_params sec)) (map fst kw) = true); [|congruence].
    apply forallb_forall. intros k Hk. apply smem_str_in, default_params_in. auto.
Qed.

Lemma in_code_and_in_file lower : keeps_names lower ->
  forall d kw, nested_dict d -> py_dict kw ->
    (forall k, In k (map fst d) -> exists sec, In sec sections /\ k = sec_name sec) ->
    (forall k, In k (map fst kw) -> exists sec, In sec sections /\ k = sec_name sec) ->
    (forall sec, In sec sections ->
       (exists l v, In (sec_name sec, JObj l) d /\ class_default sec l = Some v /\ In (sec_name sec, Some v) kw) \/
       (~ In (sec_name sec) (map fst d) /\ In (sec_name sec, None) kw)) ->
    exists o, options_default kw = Some o /\ from_dict lower d = Ok o.
Proof.
  intros K d kw Nd Nk Hd Hk Hg. pose proof Nd as [N Nn].
  eexists. split.
  - apply options_default_some. split; [|reflexivity]. intro k. split; auto. intros (sec & Hs & ->).
    destruct (Hg sec Hs) as [(l & v & _ & _ & X)|[_ X]]; apply (in_map fst) in X; exact X.
  - assert (Hid : forall sec k f, In sec sections -> In k (map fst (sec_fields sec)) -> denotes lower sec k f -> f = k).
    { intros sec k f Hs Hi D. pose proof (proj1 D) as Hf. apply (@denotes_mapped lower sec Hs k _ Hf) in D.
      subst f. assert (D2 : denotes lower sec k k).
      { split; auto. left. apply (proj2 K sec); auto. }
      apply (@denotes_mapped lower sec Hs k _ Hi) in D2. auto. }
    assert (Hc : forall sec, In sec sections -> exists l, content_of d sec (JObj l) /\
                   (forall k, In k (map fst l) -> In k (map fst (sec_fields sec))) /\
                   match jget kw (sec_name sec) with Some (Some v) => v | _ => sec_fields sec end =
                   map (fun fd => (fst fd, match jget l (fst fd) with Some v => v | None => snd fd end)) (sec_fields sec)).
    { intros sec Hs. destruct (Hg sec Hs) as [(l & v & A & B & C)|[A C]].
      - exists l. apply class_default_some in B. destruct B as [B ->]. split; [left; auto|]. split; [intros k X; apply B; auto|].
        rewrite (@jget_unique _ _ _ _ Nk C). reflexivity.
      - exists []. split; [right; auto|]. split; [intros k []|]. rewrite (@jget_unique _ _ _ _ Nk C). simpl.
        rewrite map_ext with (g := fun x => x); [symmetry; apply map_id|]. intros []; reflexivity. }
    assert (A : exists r, from_dict lower d = Ok r).
    { apply from_dict_accepts; auto. split.
      - intros k X. apply Hd in X. destruct X as (sec & Hs & ->). apply in_map. auto.
      - intros sec v Hs Hv. destruct (Hc sec Hs) as (l & C & G & _). exists l. split.
        + apply (@content_of_get _ sec N _) in Hv. apply (@content_of_get _ sec N _) in C. congruence.
        + unfold good_keys. split; [|split].
          * intros k X. right. exists k. split; auto. left. apply (proj2 K sec); auto.
          * intros k1 k2 f H1 H2 D1 D2. apply Hid in D1; auto. apply Hid in D2; auto. congruence.
          * intros k1 k2 H1 H2 D1 D2. rewrite (proj2 K sec k1), (proj2 K sec k2) in *; auto. congruence. }
    destruct A as [r A]. rewrite A. f_equal. pose proof A as A'. unfold from_dict in A'.
    destruct (filter _ (map fst d)); [|discriminate]. apply load_all_result in A'. rewrite A'.
    apply map_ext_in. intros sec Hs. f_equal. destruct (Hc sec Hs) as (l & C & G & ->).
    assert (Ec : content_obj d sec = l).
    { apply (@content_of_get _ sec N _) in C. unfold content_obj. destruct (jget d (sec_name sec)); [subst j; auto|]. injection C as C. auto. }
    rewrite Ec. unfold load. apply map_ext_in. intros [f def] Hf. f_equal. simpl.
    assert (Hf' : In f (map fst (sec_fields sec))) by (apply in_map_iff; exists (f, def); auto).
    destruct (proj1 (from_dict_accepts lower Nd) (ex_intro _ _ A)) as [_ A1].
    destruct (A1 sec _ Hs C) as (l' & El & Gk). injection El as <-.
    destruct (jget l f) as [v|] eqn:E.
    + apply (@field_given lower K sec Hs _ f def f); auto.
      * apply (@content_nodup d sec l); auto.
      * apply jget_in. auto.
      * split; auto. left. apply (proj2 K sec); auto.
    + apply jget_none in E. apply field_default; auto. intros k X D. apply Hid in D; auto. subst k. contradiction.
Qed.
