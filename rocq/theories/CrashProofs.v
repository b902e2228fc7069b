(** Lemmas about calls cut off. *)
From Verif Require Import BaseLemmas Mat PreprocSpec SerialModel SerialSpec SerialProofs SerialProps CrashModel.
Set Implicit Arguments.
Open Scope nat_scope.
Open Scope list_scope.

Section Calls.
  Variable can_write : string -> bool.

  (** what a cut leaves: everything as before or as written, but for one file *)
  Lemma cut_files l d d' : cut_off can_write l d d' ->
    exists n done, incl done l /\ forall f, f <> n -> d' f = after done d f.
  Proof.
    intros H. induction H as [l d|n t rest d junk C|n t rest d d' C H IH].
    - exists EmptyString, []. split; [intros ? []|]. intros. reflexivity.
    - exists n, []. split; [intros ? []|]. intros f N. unfold replace, after. simpl.
      destruct (String.eqb_spec f n); [contradiction|auto].
    - destruct IH as (k & done & I & D). exists k, (Ok (n, t) :: done). split.
      + intros w [<-|Hw]; [left; auto|right; auto].
      + intros f N. rewrite D by auto. unfold after, put. simpl. destruct (last_write done f); auto.
        destruct (String.eqb f n); auto.
  Qed.
  (** a cut changes only files the calls write *)
  Lemma cut_outside l d d' : cut_off can_write l d d' -> forall f, last_write l f = None -> d' f = d f.
  Proof.
    intros H. induction H as [l d|n t rest d junk C|n t rest d d' C H IH]; intros f N; auto.
    - unfold replace. destruct (String.eqb_spec f n) as [->|]; auto. exfalso.
      apply (proj1 (last_write_none _ _) N t). left. auto.
    - assert (N' : last_write rest f = None).
      { apply last_write_none. intros u I. apply (proj1 (last_write_none _ _) N u). right. auto. }
      rewrite (IH _ N'). unfold put. destruct (String.eqb_spec f n) as [->|]; auto. exfalso.
      apply (proj1 (last_write_none _ _) N t). left. auto.
  Qed.
  Lemma rerun l d d1 d2 : perform can_write l d = (d2, None) -> cut_off can_write l d d1 ->
    exists d3, perform can_write l d1 = (d3, None) /\ forall f, d3 f = d2 f.
  Proof.
    intros P C. destruct (perform_ok _ _ _ P) as [W D].
    destruct (@perform_all can_write l d1 W) as [d3 P3]. exists d3. split; auto. intros f.
    destruct (perform_ok _ _ _ P3) as [_ D3]. rewrite D3, D. unfold after.
    destruct (last_write l f) eqn:E; auto. apply (cut_outside C). auto.
  Qed.
  Lemma one_damaged l d d1 d2 : (forall f t u, In (Ok (f, t)) l -> In (Ok (f, u)) l -> u = t) ->
    perform can_write l d = (d2, None) -> cut_off can_write l d d1 ->
    exists n, forall f, f <> n -> d1 f = d f \/ d1 f = d2 f.
  Proof.
    intros U P C. destruct (perform_ok _ _ _ P) as [_ D]. destruct (cut_files C) as (n & done & I & E).
    exists n. intros f N. rewrite (E f N). unfold after. destruct (last_write done f) as [t|] eqn:L; auto.
    right. apply last_write_in in L. rewrite D. unfold after.
    rewrite (@last_write_unique l f t); auto. intros u Hu. apply (U f); auto.
  Qed.
End Calls.

Lemma csv_unique m f t u : NoDup (m_algo_labels m) -> In (Ok (f, t)) (csv_calls m) -> In (Ok (f, u)) (csv_calls m) -> u = t.
Proof.
  intros N A B. unfold csv_calls in *. apply in_app_iff in A. apply in_app_iff in B.
  destruct A as [A|A], B as [B|B].
  - apply footprint_writes_in in A. apply footprint_writes_in in B. eapply drawn_unique; eauto.
  - exfalso. apply footprint_writes_in in A. apply data_writes_names in B. eapply drawn_not_data; eauto.
  - exfalso. apply footprint_writes_in in B. apply data_writes_names in A. eapply drawn_not_data; eauto.
  - eapply data_writes_unique; eauto.
Qed.
Lemma calls_renamed a b m : csv_calls (maybe_renamed a b m) = csv_calls m.
Proof.
  unfold csv_calls. f_equal. unfold data_writes, maybe_renamed. cbn -[rename frame iloc take].
  destruct a, b; rewrite ?rename_twice by reflexivity; reflexivity.
Qed.

