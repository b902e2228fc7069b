(** Lemmas about the output methods called one after the other. *)
From Verif Require Import BaseLemmas Mat PreprocSpec SerialModel SerialSpec SerialProofs WebProofs SerialProps CrashModel CrashProofs DrawModel DrawSpec DrawProofs OutputsModel OutputsSpec.
Set Implicit Arguments.
Open Scope nat_scope.
Open Scope list_scope.

(** the last content written to a file *)
Fixpoint last_content (l : list fcall) (f : string) : option content :=
  match l with
  | [] => None
  | w :: t => match last_content t f with
              | Some c => Some c
              | None => match w with Ok (n, c) => if String.eqb f n then Some c else None | Err _ => None end
              end
  end.
Definition done (can_write : string -> bool) (w : fcall) : Prop := exists n c, w = Ok (n, c) /\ can_write n = true.

Section Calls.
  Variable can_write : string -> bool.
  Lemma make_calls_done l d : Forall (done can_write) l ->
    exists d', make_calls can_write l d = (d', None) /\ forall f, d' f = match last_content l f with Some c => Some c | None => d f end.
  Proof.
    revert d. induction l as [|w l IH]; intros d H; [exists d; auto|].
    apply Forall_cons_iff in H. destruct H as [(n & c & -> & C) H]. simpl. rewrite C.
    destruct (IH (store n c d) H) as (d' & -> & D). exists d'. split; auto. intro f. rewrite D. unfold store.
    destruct (last_content l f); auto. destruct (String.eqb f n); auto.
  Qed.
  Lemma make_calls_returns l d d' : make_calls can_write l d = (d', None) -> Forall (done can_write) l.
  Proof.
    revert d. induction l as [|w l IH]; intros d H; [constructor|]. simpl in H. destruct w as [[n c]|e]; [|discriminate].
    destruct (can_write n) eqn:C; [|discriminate]. constructor; [exists n, c; auto|]. eapply IH; eauto.
  Qed.
  Lemma last_content_in l f c : last_content l f = Some c -> In (Ok (f, c)) l.
  Proof.
    induction l as [|w l IH]; simpl; [discriminate|]. destruct (last_content l f); [auto|]. destruct w as [[n b]|]; [|discriminate].
    destruct (String.eqb_spec f n); [|discriminate]. intro E. injection E as <-. subst. auto.
  Qed.
  Lemma last_content_none l f : last_content l f = None <-> forall c, ~ In (Ok (f, c)) l.
  Proof.
    split.
    - induction l as [|w l IH]; simpl; [intros _ c []|]. destruct (last_content l f); [discriminate|]. intros E c [->|H]; [|eapply IH; eauto].
      rewrite String.eqb_refl in E. discriminate.
    - intro H. destruct (last_content l f) as [c|] eqn:E; auto. apply last_content_in in E. destruct (H _ E).
  Qed.
End Calls.

Lemma last_table l f : last_content (map table_call l) f = option_map CTable (last_write l f).
Proof.
  induction l as [|x l IH]; simpl; auto. rewrite IH. destruct (last_write l f); simpl; auto.
  destruct x as [[n t]|]; simpl; auto. destruct (String.eqb f n); auto.
Qed.
Lemma draw_last l : forall d d', draw l d = (d', None) ->
  (forall f, option_map CPlot (d' f) = match last_content (map plot_call l) f with Some c => Some c | None => option_map CPlot (d f) end) /\
  Forall succeeds l.
Proof.
  induction l as [|x l IH]; simpl; intros d d' H; [injection H as <-; auto|].
  destruct x as [[n p]|]; [|discriminate]. destruct (IH _ _ H) as [A B]. split; [|constructor; auto; exists n, p; auto].
  intro f. rewrite A. simpl. destruct (last_content (map plot_call l) f); auto. destruct (String.eqb f n); auto.
Qed.

Lemma app_assoc_s a b c : append (append a b) c = append a (append b c).
Proof. induction a as [|x a IH]; simpl; auto. rewrite IH. reflexivity. Qed.
Lemma named_png f r n p : named f r = Ok (n, p) -> n = f.
Proof. unfold named. destruct r; [|discriminate]. intro E. injection E as <- _. reflexivity. Qed.
Lemma graph_named log10p1 use_sim m w f p : In (Ok (f, p)) (graph_calls log10p1 use_sim m w) -> exists a, f = append a ".png".
Proof.
  assert (P : forall a l, exists b, png a l = append b ".png") by (intros a l; exists (append a l); symmetry; apply app_assoc_s).
  unfold graph_calls. rewrite !in_app_iff. intros [I|[I|[I|[I|I]]]].
  - apply in_map_iff in I. destruct I as (j & E & _). unfold feature_call in E. destruct (nth_error (m_feat_labels m) j); [|discriminate].
    apply named_png in E. subst. apply P.
  - apply in_flat_map in I. destruct I as (j & _ & I). unfold algorithm_calls in I.
    destruct (nth_error (m_algo_labels m) j); [|destruct I as [I|[]]; discriminate].
    destruct I as [I|[I|[I|[I|[I|[]]]]]]; try (apply named_png in I; subst; apply P); try (injection I as <- _; apply P).
    destruct (nth_error (m_good m) j); [|discriminate]. apply named_png in I; subst; apply P.
  - destruct I as [I|[I|[I|[I|[]]]]]; first [apply named_png in I; subst|injection I as <- _].
    + exists "distribution_number_good_algos"%string. reflexivity.
    + exists "distribution_portfolio"%string. reflexivity.
    + exists "distribution_svm_portfolio"%string. reflexivity.
    + exists "distribution_beta_score"%string. reflexivity.
  - destruct (m_s m); [|destruct I]. destruct I as [I|[]]. apply named_png in I. subst. exists "distribution_sources"%string. reflexivity.
  - destruct I as [I|[]]. apply named_png in I. subst. exists "footprint_portfolio"%string. reflexivity.
Qed.
Section Session.
  Variable can_write : string -> bool.
  Variable colours : SerialModel.table.
  Variable log10p1 : num -> num.
  Variable use_sim : bool.
  Variable w : nat.
  Notation produced := (produced can_write colours log10p1 use_sim w).
  Notation returns := (returns can_write colours log10p1 use_sim w).
  Notation call := (call can_write colours log10p1 use_sim w true).
  Notation session := (session can_write colours log10p1 use_sim w true).

  Lemma tables_call l d' d : perform can_write l no_tables = (d', None) ->
    (exists e, make_calls can_write (map table_call l) d = (e, None) /\
       forall f, e f = match option_map CTable (d' f) with Some c => Some c | None => d f end).
  Proof.
    intro P. destruct (perform_ok _ _ _ P) as [W D].
    destruct (@make_calls_done can_write (map table_call l) d) as (e & E & F).
    { apply Forall_forall. intros x I. apply in_map_iff in I. destruct I as (y & <- & I).
      destruct (W y I) as (n & t & -> & C). exists n, (CTable t). auto. }
    exists e. split; auto. intro f. rewrite F, last_table, D. unfold after, no_tables. destruct (last_write l f); auto.
  Qed.
  Lemma call_returns s m d : returns s m ->
    exists e, call s m d = (e, None) /\ forall f, e f = match produced s m f with Some c => Some c | None => d f end.
  Proof.
    intro R. destruct s; unfold OutputsSpec.returns, OutputsSpec.produced, OutputsModel.call in *.
    - unfold save_to_csv in *. fold (csv_calls m) in *. destruct (perform can_write (csv_calls m) no_tables) as [d' o] eqn:P.
      simpl in R. subst o. apply tables_call. exact P.
    - unfold save_for_web in *. fold (web_calls colours m) in *. destruct (perform can_write (web_calls colours m) no_tables) as [d' o] eqn:P.
      simpl in R. subst o. apply tables_call. exact P.
    - destruct R as [R C]. unfold save_graphs in *. destruct (_ || _); [discriminate|].
      destruct (draw (graph_calls log10p1 use_sim m w) no_plots) as [d' o] eqn:P. simpl in R, C. subst o.
      destruct (draw_last _ _ P) as [D S].
      destruct (@make_calls_done can_write (map plot_call (graph_calls log10p1 use_sim m w)) d) as (e & E & F).
      { apply Forall_forall. intros x I. pose proof I as J. apply in_map_iff in I. destruct I as (y & <- & I).
        apply (proj1 (Forall_forall _ _) S) in I. destruct I as (n & p & ->). exists n, (CPlot p). split; auto.
        apply C. rewrite D. destruct (last_content _ n) eqn:X; [discriminate|]. exfalso. exact (proj1 (last_content_none _ _) X _ J). }
      exists e. split; auto. intro f. rewrite F. simpl. rewrite D. unfold no_plots.
      destruct (last_content (map plot_call (graph_calls log10p1 use_sim m w)) f); auto.
    - eexists. split; [reflexivity|]. intro f. simpl. destruct (can_write "model.mat") eqn:C.
      + unfold store. destruct (String.eqb_spec f "model.mat") as [->|]; simpl; [rewrite C|]; auto.
      + destruct (String.eqb_spec f "model.mat") as [->|]; simpl; [rewrite C|]; auto.
  Qed.

  (** the methods write different files *)
  Lemma csv_named m f t : In (Ok (f, t)) (csv_calls m) -> In f csv_file_names \/ exists a, f = append "footprint_" (append a ".csv").
  Proof.
    intro I. unfold csv_calls in I. apply in_app_iff in I. destruct I as [I|I]; [|left; eapply data_writes_names; eauto].
    right. apply footprint_writes_in in I. apply drawn_file in I. destruct I as (i & l & _ & _ & [[-> _]|[-> _]]); unfold best_file, good_file.
    - exists (append l "_best"). rewrite app_assoc_s. reflexivity.
    - exists (append l "_good"). rewrite app_assoc_s. reflexivity.
  Qed.
  Lemma produced_kind s m f c : returns s m -> produced s m f = Some c -> kind s f.
  Proof.
    intros R H. destruct s; unfold OutputsSpec.returns, OutputsSpec.produced in *.
    - unfold save_to_csv in *. fold (csv_calls m) in *. destruct (perform can_write (csv_calls m) no_tables) as [d' o] eqn:P.
      simpl in R, H. subst o. destruct (perform_ok _ _ _ P) as [_ D]. rewrite D in H. unfold after, no_tables in H.
      destruct (last_write (csv_calls m) f) eqn:L; [|discriminate]. apply last_write_in in L. eapply csv_named; eauto.
    - unfold save_for_web in *. fold (web_calls colours m) in *. destruct (perform can_write (web_calls colours m) no_tables) as [d' o] eqn:P.
      simpl in R, H. subst o. destruct (perform_ok _ _ _ P) as [_ D]. rewrite D in H. unfold after, no_tables in H.
      destruct (last_write (web_calls colours m) f) eqn:L; [|discriminate]. apply last_write_in in L. destruct L as [L|L].
      + injection L as <- _. left. reflexivity.
      + right. apply web_writes_names in L. exact L.
    - destruct R as [R _]. unfold save_graphs in *. destruct (_ || _); [discriminate|].
      destruct (draw (graph_calls log10p1 use_sim m w) no_plots) as [d' o] eqn:P. simpl in R, H. subst o.
      destruct (draw_last _ _ P) as [D _]. rewrite D in H. unfold no_plots in H.
      destruct (last_content _ f) eqn:L; [|discriminate]. apply last_content_in in L. apply in_map_iff in L. destruct L as ([[n p]|] & E & I); [|discriminate].
      injection E as -> _. eapply graph_named; eauto.
    - destruct (String.eqb_spec f "model.mat"); [auto|discriminate].
  Qed.
  Lemma csv_extension s f : s = SaveToCsv \/ s = SaveForWeb -> kind s f -> exists a, f = append a ".csv".
  Proof.
    assert (F : forall l, Forall (fun f => exists a, f = append a ".csv") l -> forall f, In f l -> exists a, f = append a ".csv").
    { intros l H g I. apply (proj1 (Forall_forall _ _) H g I). }
    intros [->| ->]; cbn [kind].
    - intros [I|(a & ->)]; [|exists (append "footprint_" a); symmetry; apply app_assoc_s].
      revert f I. apply F. unfold data_names. repeat (constructor; [match goal with |- exists a, ?s = _ => exists (String.substring 0 (String.length s - 4) s) end; reflexivity|]). constructor.
    - revert f. apply F. unfold web_names. repeat (constructor; [match goal with |- exists a, ?s = _ => exists (String.substring 0 (String.length s - 4) s) end; reflexivity|]). constructor.
  Qed.
  Lemma csv_web f : kind SaveToCsv f -> kind SaveForWeb f -> False.
  Proof.
    cbn [kind]. intros [A|(a & ->)] B.
    - unfold data_names, web_names in *. simpl in A, B. repeat (destruct A as [<-|A]; [intuition discriminate|]). destruct A.
    - unfold web_names in B. simpl in B. intuition discriminate.
  Qed.
  Lemma kind_unique s s' f : kind s f -> kind s' f -> s = s'.
  Proof.
    assert (X : forall s f, (s = SaveToCsv \/ s = SaveForWeb) -> kind s f -> kind SaveGraphs f -> False).
    { intros r g S A (b & ->). destruct (@csv_extension _ _ S A) as (a & E). apply append_inj in E; [destruct E as [_ E]; discriminate E|reflexivity]. }
    assert (Y : forall s f, (s = SaveToCsv \/ s = SaveForWeb) -> kind s f -> kind SaveToMat f -> False).
    { intros r g S A B. cbn [kind] in B. subst g. destruct (@csv_extension _ _ S A) as (a & E).
      change "model.mat"%string with (append "model" ".mat") in E. apply append_inj in E; [destruct E as [_ E]; discriminate E|reflexivity]. }
    assert (Z : forall f, kind SaveGraphs f -> kind SaveToMat f -> False).
    { intros g (a & ->) E. cbn [kind] in E. change "model.mat"%string with (append "model" ".mat") in E. apply append_inj in E; [destruct E as [_ E]; discriminate E|reflexivity]. }
    destruct s, s'; intros A B; auto; exfalso; eauto using csv_web.
  Qed.

  Lemma not_gitignore s f : kind s f -> f <> ".gitignore"%string.
  Proof.
    intros K ->. destruct s.
    - destruct (@csv_extension SaveToCsv _ (or_introl eq_refl) K) as (a & E). change ".gitignore"%string with (append ".gitig" "nore") in E.
      apply append_inj in E; [destruct E as [_ E]; discriminate E|reflexivity].
    - destruct (@csv_extension SaveForWeb _ (or_intror eq_refl) K) as (a & E). change ".gitignore"%string with (append ".gitig" "nore") in E.
      apply append_inj in E; [destruct E as [_ E]; discriminate E|reflexivity].
    - destruct K as (a & E). change ".gitignore"%string with (append ".gitig" "nore") in E.
      apply append_inj in E; [destruct E as [_ E]; discriminate E|reflexivity].
    - discriminate K.
  Qed.
  Lemma after_same s r m : produced s (model_after r m) = produced s m /\ (returns s (model_after r m) <-> returns s m).
  Proof.
    destruct r; [|split; [reflexivity|tauto]..]. cbn [model_after]. destruct s; try (split; [reflexivity|tauto]).
    unfold OutputsSpec.produced, OutputsSpec.returns, save_to_csv. fold (csv_calls (after_save m)). fold (csv_calls m).
    change (after_save m) with (maybe_renamed true true m). rewrite calls_renamed. split; [reflexivity|tauto].
  Qed.
  Lemma session_files l : forall m d, (forall s, In s l -> returns s m) ->
    exists e, session l m d = (e, None) /\
      (forall s f c, In s l -> produced s m f = Some c -> e f = Some c) /\
      (forall f, (forall s, In s l -> produced s m f = None) -> e f = d f).
  Proof.
    induction l as [|s l IH]; intros m d R.
    - exists d. split; auto. split; [intros s f c []|auto].
    - destruct (@call_returns s m d) as (d1 & E1 & D1); [apply R; simpl; auto|]. cbn [OutputsModel.session]. rewrite E1.
      destruct (IH (model_after s m) d1) as (e & E & A & B).
      { intros r I. apply after_same. apply R. simpl. auto. }
      exists e. split; auto.
      assert (A' : forall r f c, In r l -> produced r m f = Some c -> e f = Some c).
      { intros r f c I P. apply (A r); auto. rewrite (proj1 (after_same r s m)). auto. }
      assert (B' : forall f, (forall r, In r l -> produced r m f = None) -> e f = d1 f).
      { intros f H. apply B. intros r I. rewrite (proj1 (after_same r s m)). auto. }
      split.
      + intros r f c [<-|I] P; [|eapply A'; eauto].
        assert (C : (exists r, In r l /\ exists c', produced r m f = Some c') \/ forall r, In r l -> produced r m f = None).
        { clear. induction l as [|r l IH]; [right; intros ? []|]. destruct (produced r m f) as [c'|] eqn:E; [left; exists r; simpl; eauto|].
          destruct IH as [(q & I & c' & H)|H]; [left; exists q; simpl; eauto|]. right. intros q [<-|I]; auto. }
        destruct C as [(r & I & c' & P')|N].
        * assert (r = s). { eapply kind_unique; eapply produced_kind; eauto; apply R; simpl; auto. }
          subst r. eapply A'; eauto.
        * rewrite B' by auto. rewrite D1, P. reflexivity.
      + intros f H. rewrite B' by (intros r I; apply H; simpl; auto). rewrite D1, H by (simpl; auto). reflexivity.
  Qed.
  (** what a call that raises leaves *)
  Lemma make_calls_kind l : forall d d' o, make_calls can_write l d = (d', o) -> forall f, d' f = d f \/ exists c, In (Ok (f, c)) l.
  Proof.
    induction l as [|x l IH]; intros d d' o H f; cbn [make_calls] in H; [injection H as <- _; auto|].
    destruct x as [[n c]|e]; [|injection H as <- _; auto]. destruct (can_write n); [|injection H as <- _; auto].
    destruct (IH _ _ _ H f) as [E|(c' & I)]; [|right; exists c'; right; auto]. unfold store in E.
    destruct (String.eqb_spec f n) as [X|X]; [subst n; right; exists c; left; auto|left; auto].
  Qed.
  Lemma call_kind s m d d' o : call s m d = (d', o) -> forall f, d' f = d f \/ kind s f.
  Proof.
    intros H f. destruct s; cbn [OutputsModel.call] in H.
    - destruct (make_calls_kind _ _ H f) as [E|(c & I)]; auto. right. apply in_map_iff in I. destruct I as ([[n t]|] & E & I); [|discriminate].
      injection E as -> _. eapply csv_named; eauto.
    - destruct (make_calls_kind _ _ H f) as [E|(c & I)]; auto. right. apply in_map_iff in I. destruct I as ([[n t]|] & E & I); [|discriminate].
      injection E as -> _. destruct I as [I|I]; [injection I as <- _; left; reflexivity|]. right. apply web_writes_names in I. exact I.
    - destruct (_ || _); [injection H as <- _; auto|].
      destruct (make_calls_kind _ _ H f) as [E|(c & I)]; auto. right. apply in_map_iff in I. destruct I as ([[n t]|] & E & I); [|discriminate].
      injection E as -> _. eapply graph_named; eauto.
    - cbn [andb] in H. destruct (can_write "model.mat"%string); injection H as <- _; [|auto]. unfold store. destruct (String.eqb_spec f "model.mat"); [right; auto|auto].
  Qed.
  Lemma tables_done l : Forall (done can_write) (map table_call l) -> exists d', perform can_write l no_tables = (d', None).
  Proof.
    intro F. apply perform_all. intros x I. rewrite Forall_forall in F. destruct (F (table_call x) (in_map _ _ _ I)) as (n & c & E & C).
    destruct x as [[n' t]|]; [|discriminate]. injection E as -> <-. exists n, t. auto.
  Qed.
  Lemma draw_all l : forall d, (forall x, In x l -> exists n p, x = Ok (n, p)) -> exists d', draw l d = (d', None).
  Proof.
    induction l as [|x l IH]; intros d H; [cbn; eauto|]. destruct (H x (or_introl eq_refl)) as (n & p & ->). cbn [draw]. apply IH. intros; apply H; right; auto.
  Qed.
  Lemma call_none s m d d' : call s m d = (d', None) -> returns s m.
  Proof.
    intro H. destruct s; cbn [OutputsModel.call OutputsSpec.returns] in *; auto.
    - apply make_calls_returns in H. destruct (tables_done _ H) as (e & E). unfold save_to_csv. fold (csv_calls m). rewrite E. reflexivity.
    - apply make_calls_returns in H. destruct (tables_done _ H) as (e & E). unfold save_for_web. fold (web_calls colours m). rewrite E. reflexivity.
    - unfold OutputsSpec.produced, save_graphs. destruct (_ || _); [discriminate|]. apply make_calls_returns in H. rewrite Forall_forall in H.
      destruct (@draw_all (graph_calls log10p1 use_sim m w) no_plots) as (e & E).
      { intros x I. destruct (H (plot_call x) (in_map _ _ _ I)) as (n & c & X & _). destruct x as [[n' p]|]; [eauto|discriminate]. }
      rewrite E. split; auto. intros f P. cbn [fst] in P. rewrite (proj1 (draw_last _ _ E)) in P. unfold no_plots in P.
      destruct (last_content _ f) as [c|] eqn:L; [|cbn in P; destruct (P eq_refl)]. apply last_content_in in L. destruct (H _ L) as (n & c' & X & C). injection X as -> _. exact C.
  Qed.
  Lemma session_raises l : forall m d d' e, session l m d = (d', Some e) ->
    exists before s rest, l = before ++ s :: rest /\ (forall r, In r before -> returns r m) /\ ~ returns s m /\
      (forall r f c, In r before -> produced r m f = Some c -> d' f = Some c) /\
      (forall f, (forall r, In r before \/ r = s -> ~ kind r f) -> d' f = d f).
  Proof.
    induction l as [|s l IH]; intros m d d' e H; [discriminate|]. cbn [OutputsModel.session] in H.
    destruct (call s m d) as [d1 [e1|]] eqn:C.
    - injection H as <- <-. exists [], s, l. split; auto. split; [intros r []|]. split.
      + intro R. destruct (@call_returns s m d R) as (d2 & E & _). congruence.
      + split; [intros r f c []|]. intros f N. destruct (call_kind _ _ _ C f) as [E|K]; auto. destruct (N s (or_intror eq_refl) K).
    - pose proof (call_none _ _ _ C) as R. destruct (IH _ _ _ _ H) as (b & r & rest & -> & Rb & Nr & P & U).
      assert (Nr' : ~ returns r m) by (intro X; apply Nr; apply after_same; auto).
      exists (s :: b), r, rest. split; auto. split; [|split; [auto|split]].
      + intros q [<-|I]; auto. apply (proj2 (after_same q s m)). auto.
      + intros q f c I Pf. assert (Rq : returns q m) by (destruct I as [<-|I]; auto; apply (proj2 (after_same q s m)); auto).
        destruct (in_dec (fun a b : method => ltac:(decide equality)) q b) as [Ib|Nb].
        * apply (P q); auto. rewrite (proj1 (after_same q s m)). auto.
        * destruct I as [<-|I]; [|contradiction]. pose proof (produced_kind _ _ _ Rq Pf) as K.
          rewrite U.
          -- destruct (@call_returns s m d R) as (d2 & E & F). rewrite C in E. injection E as <-. rewrite F, Pf. reflexivity.
          -- intros q Iq Kq. pose proof (kind_unique _ _ _ K Kq) as X. subst q. destruct Iq as [Iq|Iq]; [contradiction|]. subst r. contradiction.
      + intros f N. rewrite U by (intros q Iq; apply N; destruct Iq; [left; right; auto|right; auto]).
        destruct (call_kind _ _ _ C f) as [E|K]; auto. destruct (N s (or_introl (or_introl eq_refl)) K).
  Qed.
End Session.
