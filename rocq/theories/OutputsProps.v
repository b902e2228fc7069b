(** C126: the output methods called one after the other on one directory. *)
From Verif Require Import BaseLemmas Mat PreprocSpec SerialModel SerialSpec SerialProofs WebSpec WebProps SerialProps CrashModel DrawModel OutputsModel OutputsSpec OutputsProofs.
Set Implicit Arguments.
Open Scope nat_scope.
Open Scope list_scope.

Section Outputs.
  Variable can_write : string -> bool.
  Variable colours : SerialModel.table.
  Variable log10p1 : num -> num.
  Variable use_sim : bool.
  Variable w : nat.
  Notation produced := (produced can_write colours log10p1 use_sim w).
  Notation returns := (returns can_write colours log10p1 use_sim w).
  Notation session := (session can_write colours log10p1 use_sim w).

  (** Whatever the order in which the methods are called, and however often, if each returns when called
      alone then none raises; every file a method would produce alone is there as it would be, and every
      other file is as it was. *)
  Theorem C126_any_order :
    forall methods m d, (forall s, In s methods -> returns s m) ->
      exists d', session true methods m d = (d', None) /\
        (forall s f c, In s methods -> produced s m f = Some c -> d' f = Some c) /\
        (forall f, (forall s, In s methods -> produced s m f = None) -> d' f = d f).
  Proof. intros. apply session_files. auto. Qed.
  (** So two programs that call the same methods leave the same files. *)
  Theorem C126_same_methods_same_files :
    forall l1 l2 m d d1 d2, (forall s, In s l1 -> returns s m) -> (forall s, In s l1 <-> In s l2) ->
      session true l1 m d = (d1, None) -> session true l2 m d = (d2, None) -> forall f, d1 f = d2 f.
  Proof.
    intros l1 l2 m d d1 d2 R S E1 E2 f.
    destruct (@C126_any_order l1 m d R) as (e1 & X1 & A1 & B1). rewrite X1 in E1. injection E1 as ->.
    destruct (@C126_any_order l2 m d) as (e2 & X2 & A2 & B2); [intros s I; apply R, S; auto|]. rewrite X2 in E2. injection E2 as ->.
    assert (C : (exists s c, In s l1 /\ produced s m f = Some c) \/ forall s, In s l1 -> produced s m f = None).
    { clear. induction l1 as [|r l IH]; [right; intros ? []|]. destruct (produced r m f) as [c'|] eqn:E; [left; exists r; simpl; eauto|].
      destruct IH as [(q & c' & I & H)|H]; [left; exists q; simpl; eauto|]. right. intros q [<-|I]; auto. }
    destruct C as [(s & c & I & P)|N].
    - rewrite (A1 _ _ _ I P). rewrite (A2 s _ _ (proj1 (S s) I) P). reflexivity.
    - rewrite B1 by auto. rewrite B2; auto. intros s I. apply N, S. auto.
  Qed.
  (** The program raises exactly if one of the methods raises when called alone. *)
  Theorem C126_when_none_raises :
    forall methods m d, (exists d', session true methods m d = (d', None)) <-> forall s, In s methods -> returns s m.
  Proof.
    intros methods m d. split.
    - intros [d' H]. revert m d H. induction methods as [|r l IH]; intros m d H s I; [destruct I|destruct I as [<-|I]].
      + cbn [OutputsModel.session] in H. destruct (call _ _ _ _ _ _ r m d) as [d1 [e|]] eqn:C; [discriminate|]. eapply call_none; eauto.
      + cbn [OutputsModel.session] in H. destruct (call _ _ _ _ _ _ r m d) as [d1 [e|]] eqn:C; [discriminate|].
        apply (proj2 (after_same can_write colours log10p1 use_sim w s r m)). eauto.
    - intro R. destruct (@session_files can_write colours log10p1 use_sim w methods m d R) as (d' & E & _). eauto.
  Qed.
  (** If the program raises, it is the first method that raises when called alone; what the methods before it produced
      is there all the same, and files that neither they nor it are named for are as they were. *)
  Theorem C126_if_one_raises :
    forall methods m d d' e, session true methods m d = (d', Some e) ->
      exists before s rest, methods = before ++ s :: rest /\ (forall r, In r before -> returns r m) /\ ~ returns s m /\
        (forall r f c, In r before -> produced r m f = Some c -> d' f = Some c) /\
        (forall f, (forall r, In r before \/ r = s -> ~ kind r f) -> d' f = d f).
  Proof. intros. eapply session_raises. eauto. Qed.
  (** The archive made of the directory afterwards: every file a method produced can be read back from it.
      [walked] is what os.walk finds: the files of the directory, in any order, and the archive itself. *)
  Theorem C126_archive :
    forall (bytes : content -> string) methods m d d' z walked,
      (forall s, In s methods -> returns s m) ->
      session true methods m d = (d', None) ->
      (forall x, In x walked -> f_name x = z \/ exists c, d' (f_name x) = Some c /\ f_bytes x = bytes c) ->
      (forall f c, d' f = Some c -> exists x, In x walked /\ f_name x = f) ->
      (forall s, In s methods -> produced s m z = None) ->
      forall s f c, In s methods -> produced s m f = Some c ->
        zip_read (save_zip z walked) (append "output/" f) = Some (bytes c).
  Proof.
    intros bytes l m d d' z walked R E W V Z s f c I P.
    destruct (@C126_any_order l m d R) as (e & X & A & _). rewrite X in E. injection E as ->.
    pose proof (A _ _ _ I P) as D. destruct (V _ _ D) as (x & Ix & <-).
    assert (Nz : f_name x <> z) by (intro Y; rewrite Y in P; rewrite (Z _ I) in P; discriminate).
    assert (K : kept z x).
    { split; auto. apply (@not_gitignore s). eapply produced_kind; eauto. }
    destruct (W _ Ix) as [Y|(c' & D' & B)]; [contradiction|]. rewrite D in D'. injection D' as <-. rewrite <- B.
    apply C55_when_nothing_is_lost; auto.
    intros a b Ia Ib [_ Ka] [_ Kb] N. destruct (W _ Ia) as [?|(ca & Da & ->)]; [contradiction|].
    destruct (W _ Ib) as [?|(cb & Db & ->)]; [contradiction|]. congruence.
  Qed.
  (** Without the directory the first method raises and nothing is written, except save_to_mat, which
      returns. *)
  Theorem C126_no_directory :
    forall s rest m d, session false (s :: rest) m d =
      match s with SaveToMat => session false rest m d | _ => (d, Some ENotDirectory) end.
  Proof. intros s rest m d. destruct s; reflexivity. Qed.
End Outputs.

(** save_to_mat returns whether or not it wrote its file. *)
Theorem C126_save_to_mat_returns :
  forall can_write colours log10p1 use_sim w is_dir m d,
    let r := call can_write colours log10p1 use_sim w is_dir SaveToMat m d in
    snd r = None /\
    (fst r "model.mat"%string = Some (CLabels (m_algo_labels m)) \/ fst r = d) /\
    forall f, f <> "model.mat"%string -> fst r f = d f.
Proof.
  intros. subst r. cbn [call]. split; auto. cbn [fst]. destruct (is_dir && can_write "model.mat"%string); split; auto.
  - intros f N. unfold store. destruct (String.eqb_spec f "model.mat"); [contradiction|auto].
Qed.
Theorem C126_returning_means_saved_refuted :
  exists can_write m d, call can_write (tab [] 0) (fun v => v) false 2 true SaveToMat m d = (d, None) /\ d "model.mat"%string = None.
Proof. exists (fun _ => false), (ex_model ["A"; "B"]%string [0; 1]), (fun _ => None). split; reflexivity. Qed.

(** A program that calls every method, some of them twice. *)
Example C126_met :
  let m := ex_model ["A"; "B"]%string [0; 1] in
  let cw := fun _ : string => true in
  (forall s, returns cw (tab [] 0) (fun v => v) false 2 s m) /\
  exists d', session cw (tab [] 0) (fun v => v) false 2 true [SaveGraphs; SaveToCsv; SaveToMat; SaveForWeb; SaveToCsv] m (fun _ => None) = (d', None) /\
    d' "model.mat"%string = Some (CLabels ["A"; "B"]%string) /\
    (exists p, d' "footprint_A.png"%string = Some (CPlot p)) /\ (exists t, d' "footprint_A_best.csv"%string = Some (CTable t)) /\
    d' "notes.txt"%string = None.
Proof.
  cbv zeta. split.
  - intros []; try reflexivity. split; reflexivity.
  - eexists. split; [reflexivity|]. split; [vm_compute; reflexivity|]. split; [eexists; vm_compute; reflexivity|].
    split; [eexists; vm_compute; reflexivity|vm_compute; reflexivity].
Qed.
(** a file that save_for_web writes cannot be opened: the tables of save_to_csv are there, model.mat is not *)
Example C126_raises_met :
  let m := ex_model ["A"; "B"]%string [0; 1] in
  let cw := fun f : string => negb (String.eqb f "feature_raw_color.csv") in
  ~ returns cw (tab [] 0) (fun v => v) false 2 SaveForWeb m /\
  exists d', session cw (tab [] 0) (fun v => v) false 2 true [SaveToCsv; SaveForWeb; SaveToMat] m (fun _ => None) = (d', Some EWrite) /\
    (exists t, d' "footprint_A_best.csv"%string = Some (CTable t)) /\ d' "model.mat"%string = None.
Proof.
  cbv zeta. split; [vm_compute; discriminate|]. eexists. split; [reflexivity|]. split; [eexists; vm_compute; reflexivity|vm_compute; reflexivity].
Qed.

Print Assumptions C126_any_order.
Print Assumptions C126_when_none_raises.
Print Assumptions C126_if_one_raises.
Print Assumptions C126_same_methods_same_files.
Print Assumptions C126_archive.
Print Assumptions C126_no_directory.
Print Assumptions C126_save_to_mat_returns.
Print Assumptions C126_returning_means_saved_refuted.
