(** Lemmas for DefaultProps.v. *)
From Verif Require Import Base BaseLemmas BuilderModel BuilderSpec BuilderProofs BuilderSim BuilderProps
     RunnerModel RunnerSpec RunnerProofs RunnerRun RunnerMore RunnerPipeline RunnerEnd DefaultModel DefaultSpec.
Set Implicit Arguments.
Open Scope list_scope.

Section Flow.
  Variable V : Type.
  Variable fields : sid -> list string.
  Variable behave : list (event V) -> sid -> dict V -> option (dict V).
  Notation compose := (compose fields behave).
  Variable outs : sid -> list string.
  Hypothesis Houts : forall h s i o, behave h s i = Some o -> forall n, given o n <> None <-> In n (outs s).

  (** the last stage of a list that outputs n *)
  Fixpoint writer (l : list sid) (n : string) : option sid :=
    match l with
    | [] => None
    | s :: t => match writer t n with
                | Some w => Some w
                | None => if in_dec string_dec n (outs s) then Some s else None
                end
    end.
  Lemma writer_snoc l s n : writer (l ++ [s]) n = if in_dec string_dec n (outs s) then Some s else writer l n.
  Proof. induction l as [|a l IH]; simpl; [destruct (in_dec _ _ _); auto|]. rewrite IH. destruct (in_dec _ _ _); auto. Qed.
  Lemma writer_in l n s : writer l n = Some s -> In s l.
  Proof. induction l as [|a l IH]; simpl; [discriminate|]. destruct (writer l n); [intro H; right; auto|]. destruct (in_dec _ _ _); [intro H; injection H as ->; auto|discriminate]. Qed.

  Lemma writer_out l n s : writer l n = Some s -> In n (outs s).
  Proof. induction l as [|a l IH]; simpl; [discriminate|]. destruct (writer l n); [auto|]. destruct (in_dec _ _ _); [intro H; injection H as <-; auto|discriminate]. Qed.

  Lemma read_fields_given (e : env V) names i : read_fields e names = Some i -> forall n, In n names -> given i n = e n.
  Proof.
    revert i. induction names as [|m t IH]; simpl; intros i H n Hn; [contradiction|].
    destruct (e m) eqn:E; [|discriminate]. destruct (read_fields e t) eqn:R; [|discriminate]. injection H as <-. simpl.
    specialize (IH _ eq_refl n). destruct (in_dec string_dec n t) as [I|I].
    - rewrite IH by auto. destruct Hn as [<-|Hn]; [rewrite E|destruct (e n) eqn:X]; auto.
      exfalso. eapply read_fields_some; eauto.
    - destruct Hn as [<-|Hn]; [|contradiction]. rewrite String.eqb_refl, E.
      destruct (given l m) eqn:X; auto. exfalso. apply given_in in X. apply I. clear - X R. revert l R X.
      induction t as [|a t IH]; simpl; intros l R X; [injection R as <-; destruct X|].
      destruct (e a); [|discriminate]. destruct (read_fields e t) eqn:R'; [|discriminate]. injection R as <-.
      destruct X as [X|X]; [injection X as <- _; auto|right; eapply IH; eauto].
  Qed.

  Variable nothing : event V.
  Definition event_of (evs : list (event V)) (s : sid) : event V :=
    match find (fun ev => Nat.eqb (ev_stage ev) s) evs with Some ev => ev | None => nothing end.
  Lemma event_of_app l1 l2 s : In s (map (@ev_stage V) l1) -> event_of (l1 ++ l2) s = event_of l1 s.
  Proof.
    unfold event_of. induction l1 as [|a l1 IH]; simpl; [tauto|]. intros [<-|H]; [rewrite Nat.eqb_refl; auto|].
    destruct (Nat.eqb_spec (ev_stage a) s); auto.
  Qed.
  Lemma event_of_last l ev : ~ In (ev_stage ev) (map (@ev_stage V) l) -> event_of (l ++ [ev]) (ev_stage ev) = ev.
  Proof.
    unfold event_of. induction l as [|a l IH]; simpl; intro H; [rewrite Nat.eqb_refl; auto|].
    destruct (Nat.eqb_spec (ev_stage a) (ev_stage ev)); [exfalso; auto|]. apply IH. auto.
  Qed.
  Lemma event_of_map evs : NoDup (map (@ev_stage V) evs) -> map (event_of evs) (map (@ev_stage V) evs) = evs.
  Proof.
    induction evs as [|a evs IH]; simpl; intro N; auto. inversion N; subst. unfold event_of at 1. simpl. rewrite Nat.eqb_refl. f_equal.
    transitivity (map (event_of evs) (map (@ev_stage V) evs)); [|auto]. apply map_ext_in. intros s Hs. unfold event_of. simpl. destruct (Nat.eqb_spec (ev_stage a) s); auto. subst. contradiction.
  Qed.

  (** every input is what the last earlier stage that outputs it returned, or was there at the start *)
  Lemma read_fields_keys (e : env V) names : forall i, read_fields e names = Some i -> forall n, given i n <> None <-> In n names.
  Proof.
    induction names as [|k l IH]; simpl; intros i H n.
    - injection H as <-. simpl. split; [congruence|intros []].
    - destruct (e k) as [v|]; [|discriminate]. destruct (read_fields e l) as [r|]; [|discriminate]. injection H as <-.
      specialize (IH r eq_refl n). simpl. destruct (given r n) eqn:G.
      + split; [intros _; right; apply IH; discriminate|discriminate].
      + destruct (String.eqb_spec k n) as [->|N]; [split; [auto|discriminate]|]. split; [congruence|]. intros [X|X]; [contradiction|]. apply IH in X. congruence.
  Qed.
  Lemma compose_flow (args : dict V) l : forall h h' e', NoDup l ->
    compose h l (given args) = (h', Ok e') ->
    exists evs, h' = h ++ evs /\ map (@ev_stage V) evs = l /\ (forall ev, In ev evs -> ev_out ev <> None /\ (forall n, returned ev n <> None <-> In n (outs (ev_stage ev))) /\
        forall n, given (ev_in ev) n <> None <-> In n (fields (ev_stage ev))) /\
      (forall n, e' n = value_from (event_of evs) args (writer l n) n) /\
      forall p s q, l = p ++ s :: q -> forall n, In n (fields s) ->
        given (ev_in (event_of evs s)) n = value_from (event_of evs) args (writer p n) n.
  Proof.
    induction l as [|s l IH] using rev_ind; intros h h' e' N H.
    - simpl in H. injection H as <- <-. exists []. rewrite app_nil_r. repeat split; auto; intros; try contradiction.
      destruct p; discriminate.
    - rewrite compose_app in H. destruct (compose h l (given args)) as [h1 [e1|x]] eqn:E; [|discriminate].
      apply NoDup_remove in N. rewrite app_nil_r in N. destruct N as [N Ns].
      destruct (IH _ _ _ N E) as (evs & -> & M & O & Ve & Vi). simpl in H.
      destruct (read_fields e1 (fields s)) as [i|] eqn:R; [|discriminate].
      destruct (behave (h ++ evs) s i) as [o|] eqn:B; [|discriminate]. injection H as <- <-.
      set (ev := {| ev_stage := s; ev_in := i; ev_out := Some o |}). exists (evs ++ [ev]).
      assert (Hold : forall n t, writer l n = Some t -> event_of (evs ++ [ev]) t = event_of evs t).
      { intros n t W. apply event_of_app. rewrite M. eapply writer_in; eauto. }
      assert (Hs : event_of (evs ++ [ev]) s = ev) by (apply (event_of_last evs ev); simpl; rewrite M; auto).
      assert (Vo : forall p n, (forall t, In t p -> In t l) -> value_from (event_of (evs ++ [ev])) args (writer p n) n = value_from (event_of evs) args (writer p n) n).
      { intros p n Hp. destruct (writer p n) as [t|] eqn:W; auto. simpl. rewrite event_of_app; auto. rewrite M. apply Hp. eapply writer_in; eauto. }
      split; [rewrite app_assoc; auto|]. split; [rewrite map_app, M; auto|].
      split. { intros x Hx. apply in_app_or in Hx. destruct Hx as [Hx|[<-|[]]]; auto. split; [discriminate|]. split; [apply (Houts B)|]. apply (@read_fields_keys _ _ _ R). }
      split.
      + intro n. rewrite writer_snoc. unfold updated. destruct (in_dec string_dec n (outs s)) as [I|I].
        * simpl. rewrite Hs. unfold returned. simpl. apply (Houts B) in I. destruct (given o n); congruence.
        * destruct (given o n) eqn:G; [exfalso; apply I; apply (Houts B); congruence|]. rewrite Ve, Vo; auto.
      + intros p t q Epq n Hn. destruct q as [|z q _] using rev_ind.
        * apply app_inj_tail in Epq. destruct Epq as [<- <-]. rewrite Hs. simpl. rewrite (@read_fields_given _ _ _ R) by auto. rewrite Ve, Vo; auto.
        * rewrite app_comm_cons, app_assoc in Epq. apply app_inj_tail in Epq. destruct Epq as [El ->].
          rewrite event_of_app by (rewrite M, El; apply in_or_app; right; left; auto).
          rewrite (Vi p t q El n Hn), Vo; auto. intros u Hu. rewrite El. apply in_or_app; auto.
  Qed.
End Flow.
