(** C28-C31, C57, C58: the option properties. *)
From Coq Require Import QArith.
From Verif Require Import Base BaseLemmas OptionsModel OptionsSpec OptionsProofs.
Set Implicit Arguments.
Open Scope string_scope.
Open Scope list_scope.

(** [str.lower] on ASCII text satisfies the only hypothesis made about it. *)
Example ascii_lower_keeps_names : keeps_names ascii_lower.
Proof.
  split; [reflexivity|]. intros sec f Hs Hf. simpl in Hs.
  repeat (destruct Hs as [<-|Hs];
    [simpl in Hf; repeat (match goal with H : _ \/ _ |- _ => destruct H end);
     subst; try reflexivity; contradiction|]).
  contradiction.
Qed.

(** A user file: an alias in mixed case, a plain name in upper case, a comment. *)
Definition user_file : list (string * jval) :=
  [("perf", JObj [("MaxPerf", JBool true); ("EPSILON", JNum (1 # 20)); ("_", JStr "mine")]);
   ("selvars", JObj [("Type", JStr "Ftr")])].
Example user_file_accepted :
  nested_dict user_file /\
  exists r, from_dict ascii_lower user_file = Ok r /\
    option_value r "perf" "max_perf" = Some (JBool true) /\
    option_value r "perf" "epsilon" = Some (JNum (1 # 20)) /\
    option_value r "perf" "beta_threshold" = Some (JNum (55 # 100)) /\
    option_value r "selvars" "selvars_type" = Some (JStr "Ftr").
Proof.
  split.
  - split.
    + repeat constructor; simpl; intuition discriminate.
    + intros n l [H|[H|[]]]; injection H as <- <-; repeat constructor; simpl; intuition discriminate.
  - eexists. split; [vm_compute; reflexivity|]. repeat split; reflexivity.
Qed.

(** C28 *)
Theorem C28_given_value_or_default :
  forall lower, keeps_names lower ->
  forall d r, nested_dict d -> from_dict lower d = Ok r ->
  forall sec l f def, In sec sections -> In (f, def) (sec_fields sec) -> content_of d sec (JObj l) ->
    (forall k v, In (k, v) l -> denotes lower sec k f -> option_value r (sec_name sec) f = Some v) /\
    ((forall k v, In (k, v) l -> ~ denotes lower sec k f) ->
       option_value r (sec_name sec) f = Some def).
Proof.
  intros lower K d r N H sec l f def Hs Hf Hc. split.
  - intros k v Hk D. exact (@from_dict_given lower K d r sec l k v f N H Hs Hc Hk D).
  - intros Hn. apply (@from_dict_default lower K d r sec l f def N H Hs Hc Hf).
    intros k Hk. apply in_map_iff in Hk. destruct Hk as ([k' v] & <- & Hk). exact (Hn k' v Hk).
Qed.

(** C29: acceptance; a refusal over names is a ValueError *)
Theorem C29_unknown_options_are_errors :
  forall lower, keeps_names lower ->
  forall d, nested_dict d -> (forall n v, In (n, v) d -> exists l, v = JObj l) ->
    (forall k, In k (map fst d) -> (forall sec, In sec sections -> k <> sec_name sec) ->
       exists e, from_dict lower d = Err e /\ oexn e = "ValueError") /\
    (forall sec l k, In sec sections -> In (sec_name sec, JObj l) d -> In k (map fst l) ->
       lower k <> "_" -> (forall f, ~ denotes lower sec k f) ->
       exists e, from_dict lower d = Err e /\ oexn e = "ValueError").
Proof.
  intros lower K d N Ho.
  assert (V : (exists r, from_dict lower d = Ok r) \/ exists e, from_dict lower d = Err e /\ oexn e = "ValueError").
  { destruct (from_dict lower d) as [r|e] eqn:E; [eauto|].
    destruct (@from_dict_err lower d e N E) as [X|(_ & sec & v & _ & C & X)]; [eauto|].
    exfalso. destruct C as [C|[_ C]]; [|exact (X _ C)].
    destruct (Ho _ _ C) as [l ->]. exact (X l eq_refl). }
  split.
  - intros k Hk Hn. destruct V as [V|V]; auto. exfalso.
    apply (@from_dict_accepts lower d N) in V. destruct V as [V _]. apply V in Hk.
    apply in_map_iff in Hk. destruct Hk as (sec & E & Hs). exact (Hn sec Hs (eq_sym E)).
  - intros sec l k Hs Hl Hk Hu Hd. destruct V as [V|V]; auto. exfalso.
    apply (@from_dict_accepts lower d N) in V. destruct V as [_ V].
    destruct (V sec (JObj l) Hs (or_introl Hl)) as (l' & E & G). injection E as <-.
    destruct (proj1 G k Hk) as [X|[f X]]; [exact (Hu X)|exact (Hd f X)].
Qed.

(** C29, conversely: nothing else is refused *)
Theorem C29_known_options_are_accepted :
  forall lower, keeps_names lower ->
  forall d, nested_dict d -> (forall n v, In (n, v) d -> exists l, v = JObj l) ->
    ((exists r, from_dict lower d = Ok r) <->
     (forall k, In k (map fst d) -> exists sec, In sec sections /\ k = sec_name sec) /\
     (forall sec l, In sec sections -> In (sec_name sec, JObj l) d -> good_keys lower sec l)).
Proof.
  intros lower K d N Ho. rewrite (@from_dict_accepts lower d N). split.
  - intros [H1 H2]. split.
    + intros k Hk. apply H1 in Hk. apply in_map_iff in Hk. destruct Hk as (sec & E & Hs). eauto.
    + intros sec l Hs Hl. destruct (H2 sec (JObj l) Hs (or_introl Hl)) as (l' & E & G).
      injection E as <-. exact G.
  - intros [H1 H2]. split.
    + intros k Hk. destruct (H1 k Hk) as (sec & Hs & ->). apply in_map. exact Hs.
    + intros sec v Hs [C|[C ->]].
      * destruct (Ho _ _ C) as [l ->]. exists l. split; auto.
      * exists []. split; auto. split; [|split]; simpl; tauto.
Qed.

(** README documents opts.general.betaThreshold; a file with that section is refused. *)
Example general_section_refused :
  exists e, from_dict ascii_lower [("general", JObj [("betaThreshold", JNum (55 # 100))])] = Err e
            /\ oexn e = "ValueError".
Proof. eexists. split; vm_compute; reflexivity. Qed.

(** C30 *)
Theorem C30_two_spellings_refused :
  forall lower, keeps_names lower ->
  forall d, nested_dict d -> (forall n v, In (n, v) d -> exists l, v = JObj l) ->
  forall sec l k1 k2 f, In sec sections -> In (sec_name sec, JObj l) d ->
    In k1 (map fst l) -> In k2 (map fst l) -> k1 <> k2 ->
    denotes lower sec k1 f -> denotes lower sec k2 f ->
    exists e, from_dict lower d = Err e /\ oexn e = "ValueError".
Proof.
  intros lower K d N Ho sec l k1 k2 f Hs Hl H1 H2 Hne D1 D2.
  destruct (from_dict lower d) as [r|e] eqn:E.
  - exfalso. assert (V : exists r, from_dict lower d = Ok r) by eauto.
    apply (@from_dict_accepts lower d N) in V. destruct V as [_ V].
    destruct (V sec (JObj l) Hs (or_introl Hl)) as (l' & El & G). injection El as <-.
    exact (Hne (proj1 (proj2 G) k1 k2 f H1 H2 D1 D2)).
  - exists e. split; auto. destruct (@from_dict_err lower d e N E) as [X|(_ & s & v & _ & C & X)]; auto.
    exfalso. destruct C as [C|[_ C]]; [|exact (X _ C)].
    destruct (Ho _ _ C) as [l' ->]. exact (X l' eq_refl).
Qed.
Example two_spellings_case :
  exists e, from_dict ascii_lower [("pilot", JObj [("nTries", JNum 5); ("N_TRIES", JNum 6)])] = Err e
            /\ oexn e = "ValueError".
Proof. eexists. split; vm_compute; reflexivity. Qed.

(** C31 *)
Theorem C31_order_irrelevant :
  forall lower, keeps_names lower ->
  forall d1 d2, nested_dict d1 -> reordered d1 d2 ->
    (forall r, from_dict lower d1 = Ok r -> from_dict lower d2 = Ok r) /\
    (forall e, from_dict lower d1 = Err e -> exists e', from_dict lower d2 = Err e').
Proof.
  intros lower K d1 d2 N R. pose proof (@from_dict_reordered lower K d1 d2 N R) as H.
  destruct (from_dict lower d1), (from_dict lower d2); try contradiction;
    split; intros ? E; try discriminate; injection E as <-; subst; eauto.
Qed.
Theorem C31_sections_independent :
  forall lower, keeps_names lower ->
  forall d1 d2 r1 r2, nested_dict d1 -> nested_dict d2 ->
    from_dict lower d1 = Ok r1 -> from_dict lower d2 = Ok r2 ->
  forall sec v1 v2 f, In sec sections -> content_of d1 sec v1 -> content_of d2 sec v2 ->
    same_value v1 v2 -> In f (map fst (sec_fields sec)) ->
    exists v, option_value r1 (sec_name sec) f = Some v /\ option_value r2 (sec_name sec) f = Some v.
Proof.
  intros lower K d1 d2 r1 r2 N1 N2 E1 E2 sec v1 v2 f Hs C1 C2 S Hf.
  exact (@section_independent lower K d1 d2 r1 r2 sec v1 v2 f N1 N2 E1 E2 Hs C1 C2 S Hf).
Qed.
Example reordered_case :
  reordered user_file
    [("selvars", JObj [("Type", JStr "Ftr")]);
     ("perf", JObj [("_", JStr "mine"); ("MaxPerf", JBool true); ("EPSILON", JNum (1 # 20))])].
Proof.
  exists (rev user_file). split; [apply Permutation_rev|].
  constructor; [split; [reflexivity|apply Permutation_refl]|].
  constructor; [split; [reflexivity|]|constructor]. simpl.
  apply Permutation_sym. change ([("MaxPerf", JBool true); ("EPSILON", JNum (1 # 20)); ("_", JStr "mine")])
    with ([("MaxPerf", JBool true); ("EPSILON", JNum (1 # 20))] ++ [("_", JStr "mine")]).
  apply Permutation_cons_append.
Qed.

(** C57: reading an options file *)
Theorem C57_options_file_outcomes :
  forall lower, keeps_names lower ->
  forall text parse,
    (forall s d, text = Some s -> parse s = Some (JObj d) -> nested_dict d) ->
    (forall o, from_json_file lower text parse = Ok (Some o) <->
       exists s d, text = Some s /\ parse s = Some (JObj d) /\ from_dict lower d = Ok o) /\
    (from_json_file lower text parse = Ok None <->
       text = None \/ exists s, text = Some s /\
         (parse s = None \/
          exists d e, parse s = Some (JObj d) /\ from_dict lower d = Err e /\ oexn e = "ValueError")) /\
    (forall e, from_json_file lower text parse = Err e -> oexn e = "AttributeError" /\
       exists s v, text = Some s /\ parse s = Some v /\
         ((forall d, v <> JObj d) \/
          exists d sec w, v = JObj d /\ In sec sections /\ In (sec_name sec, w) d /\ forall l, w <> JObj l)).
Proof.
  intros lower K text parse N. pose proof (from_json_spec lower text parse) as S.
  split; [|split].
  - intro o. split.
    + intro E. rewrite E in S. exact S.
    + intros (s & d & -> & P & E). unfold from_json_file. rewrite P, E. reflexivity.
  - split.
    + intro E. rewrite E in S. destruct S as [S|(s & Es & [P|(d & e & P & F & X)])]; auto.
      * right. exists s. auto.
      * right. exists s. split; auto. right. exists d, e. split; auto. split; auto.
        destruct (@from_dict_err lower d e (N s d Es P) F) as [Y|[Y _]]; auto. contradiction.
    + intros [->|(s & -> & [P|(d & e & P & F & X)])]; unfold from_json_file; auto.
      * rewrite P. reflexivity.
      * rewrite P, F. destruct e; auto; discriminate.
  - intros e E. rewrite E in S. destruct S as (-> & s & v & Es & P & X). split; auto.
    exists s, v. split; auto. split; auto. destruct X as [X|(d & -> & F)]; auto.
    right. destruct (@from_dict_err lower d EAttribute (N s d Es P) F) as [Y|(_ & sec & w & Hs & C & Y)];
      [discriminate|].
    exists d, sec, w. split; auto. split; auto. split; auto.
    destruct C as [C|[_ C]]; auto. exfalso. exact (Y _ C).
Qed.
(** The documented contract (an options object or None) fails for a null section. *)
Theorem C57_never_raises_refuted :
  exists text parse e, from_json_file ascii_lower (Some text) parse = Err e /\ oexn e = "AttributeError" /\
    parse text = Some (JObj [("perf", JNull)]).
Proof.
  exists "{""perf"": null}", (fun _ => Some (JObj [("perf", JNull)])), EAttribute.
  repeat split; vm_compute; reflexivity.
Qed.

(** C58: loaded options survive being written out and loaded again *)
Theorem C58_loading_is_stable :
  forall lower, keeps_names lower ->
  forall d r, nested_dict d -> from_dict lower d = Ok r -> from_dict lower (as_dict r) = Ok r.
Proof. exact roundtrip. Qed.

(** C68: a key on its own in a section.  Which spellings set an option, for every option. *)
Theorem C68_accepted_spellings :
  forall lower, keeps_names lower ->
  forall sec f, In sec sections -> In f (map fst (sec_fields sec)) ->
  forall k,
    (forall v, exists r, from_dict lower [(sec_name sec, JObj [(k, v)])] = Ok r /\
                         option_value r (sec_name sec) f = Some v) <->
    lower k = f \/
    (lower k = strip f /\ ~ In (sec_name sec, f) no_short_form) \/
    In (sec_name sec, lower k, f) other_names.
Proof. exact accepted_spellings. Qed.
Example C68_met : strip "min_distance" = "mindistance" /\
  (exists r, from_dict ascii_lower [("selvars", JObj [("minDistance", JNum 1)])] = Ok r) /\
  (exists e, from_dict ascii_lower [("sifted", JObj [("numGenerations", JNum 1)])] = Err e).
Proof. split; [reflexivity|]. split; eexists; vm_compute; reflexivity. Qed.

(** C69: PRELIM's options are the loaded ones. *)
Theorem C69_prelim_gets_the_loaded_options :
  forall lower, keeps_names lower ->
  forall d r, nested_dict d -> from_dict lower d = Ok r ->
    map fst (prelim_options r) = map fst prelim_sources /\
    forall n sec f, In (n, (sec, f)) prelim_sources ->
      exists v, option_value r sec f = Some v /\ In (n, Some v) (prelim_options r).
Proof. exact prelim_loaded. Qed.

(** C117: options made in the program.  A caller names the fields of each section, leaving out
    sections (None) and fields at will: the result is that of a file with the same contents. *)
Theorem C117_options_in_code_and_in_a_file_agree :
  forall lower, keeps_names lower ->
  forall d kw, nested_dict d -> py_dict kw ->
    (forall k, In k (map fst d) -> exists sec, In sec sections /\ k = sec_name sec) ->
    (forall k, In k (map fst kw) -> exists sec, In sec sections /\ k = sec_name sec) ->
    (forall sec, In sec sections ->
       (exists l v, In (sec_name sec, JObj l) d /\ class_default sec l = Some v /\ In (sec_name sec, Some v) kw) \/
       (~ In (sec_name sec) (map fst d) /\ In (sec_name sec, None) kw)) ->
    exists o, options_default kw = Some o /\ from_dict lower d = Ok o.
Proof. exact in_code_and_in_file. Qed.
(** Which calls are accepted, and what they return *)
Theorem C117_what_default_accepts :
  (forall kw, (exists o, options_default kw = Some o) <->
     forall k, In k (map fst kw) <-> exists sec, In sec sections /\ k = sec_name sec) /\
  (forall kw o sec v, py_dict kw -> options_default kw = Some o -> In sec sections ->
     In (sec_name sec, Some v) kw -> jget o (sec_name sec) = Some v) /\
  (forall sec kw, (exists v, class_default sec kw = Some v) <->
     forall k, In k (map fst kw) -> In k (map fst (sec_fields sec)) /\ (sec_name sec, k) <> ("pythia", "params")) /\
  (forall sec kw v f def, In sec sections -> py_dict kw -> class_default sec kw = Some v -> In (f, def) (sec_fields sec) ->
     (forall x, In (f, x) kw -> jget v f = Some x) /\ (~ In f (map fst kw) -> jget v f = Some def)).
Proof.
  split; [|split; [|split]].
  - intro kw. split.
    + intros [o H]. apply options_default_some in H. apply H.
    + intro H. eexists. apply options_default_some. split; [exact H|reflexivity].
  - intros kw o sec v N H Hs Hv. apply options_default_some in H. destruct H as [_ ->].
    apply jget_unique.
    + rewrite map_map. apply section_names.
    + apply in_map_iff. exists sec. split; auto. rewrite (@jget_unique _ _ _ _ N Hv). reflexivity.
  - intros sec kw. split.
    + intros [v H]. apply class_default_some in H. destruct H as [H _]. intros k Hk. destruct (H k Hk) as [A B].
      split; auto. intro E. injection E as E1 E2. tauto.
    + intro H. eexists. apply class_default_some. split; [|reflexivity]. intros k Hk. destruct (H k Hk) as [A B].
      split; auto. intros [E1 E2]. apply B. congruence.
  - intros sec kw v f def Hs N H Hf. apply class_default_some in H. destruct H as [_ ->].
    assert (X : jget (map (fun fd => (fst fd, match jget kw (fst fd) with Some v => v | None => snd fd end)) (sec_fields sec)) f =
                Some (match jget kw f with Some v => v | None => def end)).
    { apply jget_unique; [rewrite map_map; apply (t_fields (tables Hs))|]. apply in_map_iff. exists (f, def). auto. }
    rewrite X. split.
    + intros x Hx. rewrite (@jget_unique _ _ _ _ N Hx). reflexivity.
    + intro Hn. apply jget_none in Hn. rewrite Hn. reflexivity.
Qed.
(** The class documentation's InstanceSpaceOptions.default() raises. *)
Theorem C117_default_without_arguments_refuted : ~ exists o, options_default [] = Some o.
Proof. intros [o H]. discriminate. Qed.
Example C117_met :
  let d := [("pilot", JObj [("n_tries", JNum 9)]); ("perf", JObj [])] in
  exists kw o, options_default kw = Some o /\ from_dict ascii_lower d = Ok o /\
    In ("pilot", Some [("x0", JNull); ("alpha", JNull); ("analytic", JBool false); ("n_tries", JNum 9)]) kw /\
    In ("trace", None) kw /\ option_value o "pilot" "n_tries" = Some (JNum 9).
Proof.
  exists (map (fun sec => (sec_name sec,
     if String.eqb (sec_name sec) "pilot" then class_default sec [("n_tries", JNum 9)]
     else if String.eqb (sec_name sec) "perf" then class_default sec [] else None)) sections).
  eexists. split; [vm_compute; reflexivity|]. split; [vm_compute; reflexivity|].
  split; [vm_compute; intuition|]. split; [vm_compute; intuition|vm_compute; reflexivity].
Qed.

Print Assumptions C28_given_value_or_default.
Print Assumptions C29_unknown_options_are_errors.
Print Assumptions C29_known_options_are_accepted.
Print Assumptions C30_two_spellings_refused.
Print Assumptions C31_order_irrelevant.
Print Assumptions C31_sections_independent.
Print Assumptions C57_options_file_outcomes.
Print Assumptions C57_never_raises_refuted.
Print Assumptions C58_loading_is_stable.
Print Assumptions C68_accepted_spellings.
Print Assumptions C69_prelim_gets_the_loaded_options.
Print Assumptions C117_options_in_code_and_in_a_file_agree.
Print Assumptions C117_what_default_accepts.
Print Assumptions C117_default_without_arguments_refuted.
