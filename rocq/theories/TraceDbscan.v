(** Correctness of dbscan: a reachability invariant over the two nested loops. *)
From Coq Require Import Lia.
From Verif Require Import TraceModel TraceSpec.
Set Implicit Arguments.
Open Scope nat_scope.

Section D.
  Variable near : nat -> nat -> bool.
  Variables m k : nat.
  Hypothesis near_refl : forall i, i < m -> near i i = true.
  Hypothesis near_sym : forall i j, near i j = near j i.
  Notation nbrs := (nbrs near m).

  Lemma nbrs_in i j : In j (nbrs i) <-> j < m /\ near i j = true.
  Proof. unfold TraceModel.nbrs. rewrite filter_In, in_seq. split; intros [A B]; split; auto; lia. Qed.
  Lemma nbrs_nodup i : NoDup (nbrs i).
  Proof. apply NoDup_filter, seq_NoDup. Qed.

  Lemma assign_in {A} l (v : A) a j : In j l -> assign l v a j = v.
  Proof.
    intros H. unfold assign. destruct (existsb (Nat.eqb j) l) eqn:E; auto.
    exfalso. assert (X : existsb (Nat.eqb j) l = true); [|congruence].
    apply existsb_exists. exists j. split; auto. apply Nat.eqb_refl.
  Qed.
  Lemma assign_out {A} l (v : A) a j : ~ In j l -> assign l v a j = a j.
  Proof.
    intros H. unfold assign. destruct (existsb (Nat.eqb j) l) eqn:E; auto.
    apply existsb_exists in E. destruct E as (x & Hx & E). apply Nat.eqb_eq in E. subst. tauto.
  Qed.
  Lemma assign_dec {A} l (v : A) a j : (In j l /\ assign l v a j = v) \/ (~ In j l /\ assign l v a j = a j).
  Proof. destruct (in_dec Nat.eq_dec j l); [left|right]; split; auto using assign_in, assign_out. Qed.

  Inductive reach (i : nat) : nat -> Prop :=
  | reach_here : reach i i
  | reach_step j l : reach i j -> l < m -> near j l = true -> reach i l.

  Lemma reach_lt i j : i < m -> reach i j -> j < m.
  Proof. intros Hi H. induction H; auto. Qed.
  Lemma reach_trans a b c : reach a b -> reach b c -> reach a c.
  Proof. intros H K. induction K; eauto using reach. Qed.
  Lemma reach_sym i j : i < m -> reach i j -> reach j i.
  Proof.
    intros Hi H. induction H; [constructor|].
    apply reach_trans with j; auto. apply (@reach_step l l j); [constructor|apply (reach_lt Hi H)|].
    rewrite near_sym. auto.
  Qed.

  (** number of rows not touched yet *)
  Definition fresh (touched : nat -> bool) : nat := length (filter (fun j => negb (touched j)) (seq 0 m)).

  Lemma filter_split_length {A} (p q : A -> bool) l :
    (forall a, q a = true -> p a = true) ->
    length (filter p l) = length (filter q l) + length (filter (fun a => p a && negb (q a)) l).
  Proof.
    intros H. induction l as [|a l IH]; simpl; auto.
    destruct (p a) eqn:P, (q a) eqn:Q; simpl; try lia.
    rewrite (H _ Q) in P. discriminate.
  Qed.

  Lemma fresh_assign new touched :
    NoDup new -> (forall j, In j new -> j < m /\ touched j = false) ->
    fresh (assign new true touched) + length new = fresh touched.
  Proof.
    intros N H. unfold fresh.
    rewrite (@filter_split_length _ (fun j => negb (touched j)) (fun j => negb (assign new true touched j)) (seq 0 m)).
    - f_equal. apply Nat.le_antisymm.
      + apply NoDup_incl_length; auto. intros j Hj. destruct (H j Hj) as [L T].
        apply filter_In. split; [apply in_seq; lia|]. rewrite T, assign_in by auto. reflexivity.
      + apply NoDup_incl_length; [apply NoDup_filter, seq_NoDup|].
        intros j Hj. apply filter_In in Hj. destruct Hj as [_ E].
        apply andb_true_iff in E. destruct E as [E1 E2]. rewrite negb_involutive in E2.
        destruct (assign_dec new true touched j) as [[I _]|[_ R]]; auto.
        rewrite R in E2. rewrite E2 in E1. discriminate.
    - intros j E. destruct (assign_dec new true touched j) as [[_ R]|[_ R]]; rewrite R in E; auto. discriminate.
  Qed.
  Lemma fresh_mono c touched : fresh (assign [c] true touched) <= fresh touched.
  Proof.
    unfold fresh. apply NoDup_incl_length; [apply NoDup_filter, seq_NoDup|].
    intros j Hj. apply filter_In in Hj. apply filter_In. destruct Hj as [A B]. split; auto.
    destruct (assign_dec [c] true touched j) as [[_ R]|[_ R]]; rewrite R in B; auto. discriminate.
  Qed.
  Lemma fresh_le touched : fresh touched <= m.
  Proof.
    unfold fresh. transitivity (length (seq 0 m)); [|rewrite seq_length; auto].
    apply NoDup_incl_length; [apply NoDup_filter, seq_NoDup|]. intros j Hj. apply filter_In in Hj. tauto.
  Qed.

  Section Expand.
    Variable i : nat.
    Hypothesis Hi : i < m.
    Variable no : Z.
    Variable classes0 : nat -> Z.
    Variable touched0 : nat -> bool.

    Record einv (queue : list nat) (classes : nat -> Z) (touched : nat -> bool) : Prop := {
      e_queue : forall j, In j queue -> reach i j;
      e_out : forall j, (touched j = touched0 j /\ classes j = classes0 j) \/ reach i j;
      e_in : forall j, reach i j -> In j queue \/ touched j = true -> classes j = no;
      e_done : forall j, reach i j -> touched j = true ->
                 In j queue \/ forall l, l < m -> near j l = true -> touched l = true;
      e_start : In i queue \/ touched i = true }.

    Lemma expand_spec : forall fuel queue classes touched,
      einv queue classes touched -> length queue + fresh touched <= fuel ->
      exists classes' touched', expand near m fuel no queue classes touched = Some (classes', touched') /\
        (forall j, reach i j -> touched' j = true /\ classes' j = no) /\
        (forall j, (touched' j = touched0 j /\ classes' j = classes0 j) \/ reach i j).
    Proof.
      induction fuel as [|fuel IH]; intros queue classes touched I L.
      - destruct queue; [|simpl in L; lia]. simpl. exists classes, touched. split; auto.
        destruct I as [_ O In_ D S]. split; [|auto].
        assert (T : forall j, reach i j -> touched j = true).
        { intros j R. induction R. destruct S as [[]|]; auto.
          destruct (D j R IHR) as [[]|X]. auto. }
        intros j R. split; auto.
      - destruct queue as [|c q].
        + simpl. exists classes, touched. split; auto.
          destruct I as [_ O In_ D S]. split; [|auto].
          assert (T : forall j, reach i j -> touched j = true).
          { intros j R. induction R. destruct S as [[]|]; auto.
            destruct (D j R IHR) as [[]|X]. auto. }
          intros j R. split; auto.
        + simpl. set (touched1 := assign [c] true touched).
          assert (Rc : reach i c) by (apply (e_queue I); left; auto).
          assert (Lc : c < m) by (eapply reach_lt; eauto).
          assert (Tc : touched1 c = true) by (apply assign_in; left; auto).
          assert (T1 : forall j, touched j = true -> touched1 j = true).
          { intros j T. unfold touched1. destruct (assign_dec [c] true touched j) as [[_ R]|[_ R]]; congruence. }
          assert (T1o : forall j, j <> c -> touched1 j = touched j).
          { intros j N. apply assign_out. simpl. intuition congruence. }
          destruct (Nat.ltb 1 (length (nbrs c))) eqn:Eb.
          * set (new := filter (fun j => negb (touched1 j)) (nbrs c)).
            assert (Nin : forall j, In j new <-> (j < m /\ near c j = true) /\ touched1 j = false).
            { intro j. unfold new. rewrite filter_In, nbrs_in, negb_true_iff. tauto. }
            assert (Rn : forall j, j < m -> near c j = true -> reach i j) by (intros; eapply reach_step; eauto).
            apply IH.
            -- constructor.
               ++ intros j Hj. apply in_app_iff in Hj. destruct Hj as [Hj|Hj].
                  ** apply (e_queue I). right; auto.
                  ** apply Nin in Hj. apply Rn; tauto.
               ++ intros j. destruct (in_dec Nat.eq_dec j (nbrs c)) as [Hj|Ni].
                  { right. apply nbrs_in in Hj. apply Rn; tauto. }
                  assert (Nj : ~ In j new) by (rewrite Nin, <- nbrs_in; tauto).
                  rewrite !assign_out by auto.
                  destruct (Nat.eq_dec j c) as [->|N]; auto. rewrite T1o by auto. apply (e_out I).
               ++ intros j R Hj.
                  destruct (assign_dec new no (assign (nbrs c) no classes) j) as [[_ E]|[N1 E]]; rewrite E; auto.
                  destruct (assign_dec (nbrs c) no classes j) as [[_ E']|[N2 E']]; rewrite E'; auto.
                  apply (e_in I R). destruct Hj as [Hj|Hj].
                  ** apply in_app_iff in Hj. destruct Hj; [left; right; auto|tauto].
                  ** rewrite assign_out in Hj by auto.
                     destruct (Nat.eq_dec j c) as [->|N]; [left; left; auto|].
                     rewrite T1o in Hj by auto. auto.
               ++ intros j R T.
                  destruct (in_dec Nat.eq_dec j new) as [Hn|Hn]; [left; apply in_app_iff; auto|].
                  rewrite assign_out in T by auto.
                  destruct (Nat.eq_dec j c) as [->|N].
                  ** right. intros l Hl E.
                     destruct (assign_dec new true touched1 l) as [[_ X]|[Nl X]]; rewrite X; auto.
                     destruct (touched1 l) eqn:Tl; auto. exfalso. apply Nl. apply Nin. auto.
                  ** rewrite T1o in T by auto. destruct (e_done I R T) as [[X|X]|X]; [congruence| |].
                     --- left. apply in_app_iff. auto.
                     --- right. intros l Hl E. specialize (X l Hl E).
                         destruct (assign_dec new true touched1 l) as [[_ Y]|[Nl Y]]; rewrite Y; auto.
               ++ destruct (e_start I) as [[X|X]|X].
                  ** right. subst. destruct (assign_dec new true touched1 i) as [[_ Y]|[Nl Y]]; rewrite Y; auto.
                  ** left. apply in_app_iff. auto.
                  ** right. destruct (assign_dec new true touched1 i) as [[_ Y]|[Nl Y]]; rewrite Y; auto.
            -- pose proof (@fresh_assign new touched1) as F. rewrite app_length.
               assert (F' : fresh (assign new true touched1) + length new = fresh touched1).
               { apply F. apply NoDup_filter, nbrs_nodup. intros j Hj. apply Nin in Hj. tauto. }
               pose proof (fresh_mono c touched). fold touched1 in H. simpl in L. lia.
          * assert (Only : forall l, l < m -> near c l = true -> l = c).
            { intros l Hl E. apply Nat.ltb_ge in Eb.
              destruct (Nat.eq_dec l c); auto. exfalso.
              assert (X : length [l; c] <= length (nbrs c)).
              { apply NoDup_incl_length.
                - constructor; [simpl; intuition congruence|]. constructor; [simpl; auto|constructor].
                - intros a [<-|[<-|[]]]; apply nbrs_in; auto. }
              simpl in X. lia. }
            apply IH.
            -- constructor.
               ++ intros j Hj. apply (e_queue I). right; auto.
               ++ intros j. destruct (Nat.eq_dec j c) as [->|N]; auto. rewrite T1o by auto. apply (e_out I).
               ++ intros j R Hj. apply (e_in I R). destruct Hj as [Hj|Hj]; [left; right; auto|].
                  destruct (Nat.eq_dec j c) as [->|N]; [left; left; auto|]. rewrite T1o in Hj by auto. auto.
               ++ intros j R T. destruct (Nat.eq_dec j c) as [->|N].
                  ** right. intros l Hl E. rewrite (Only l Hl E). auto.
                  ** rewrite T1o in T by auto. destruct (e_done I R T) as [[X|X]|X]; [congruence|auto|].
                     right. intros l Hl E. auto.
               ++ destruct (e_start I) as [[X|X]|X]; [right; subst; auto|auto|right; auto].
            -- pose proof (fresh_mono c touched). fold touched1 in H. simpl in L. lia.
    Qed.
  End Expand.

  Definition core (i : nat) : Prop := i < m /\ k + 1 <= length (nbrs i).
  Definition has_core (i : nat) : Prop := exists c, reach i c /\ core c.

  Lemma has_core_reach i j : i < m -> reach i j -> has_core i <-> has_core j.
  Proof.
    intros Hi R. split; intros (c & A & B); exists c; split; auto.
    - apply reach_trans with i; auto using reach_sym.
    - apply reach_trans with j; auto.
  Qed.

  (** invariant of the loop over the rows; rows below [n] are processed *)
  Record dinv (n : nat) (no : Z) (classes : nat -> Z) (touched : nat -> bool) : Prop := {
    d_no : (1 <= no)%Z;
    d_fresh : forall j, j < m -> touched j = false -> classes j = 0%Z;
    d_closed : forall j l, j < m -> reach j l -> touched j = touched l;
    d_touched : forall j, j < m -> touched j = true ->
      (classes j = (-1)%Z /\ ~ has_core j) \/ ((1 <= classes j < no)%Z /\ has_core j);
    d_same : forall j l, j < m -> l < m -> touched j = true -> touched l = true ->
      (1 <= classes j)%Z -> (classes j = classes l <-> reach j l);
    d_used : forall c, (1 <= c < no)%Z -> exists j, j < m /\ touched j = true /\ classes j = c;
    d_past : forall j, j < n -> j < m -> touched j = false -> ~ core j }.

  Lemma reach_isolated i j : i < m -> (forall l, l < m -> near i l = true -> l = i) -> reach i j -> j = i.
  Proof. intros Hi O R. induction R; auto. subst. auto. Qed.

  Lemma step_spec n no classes touched :
    n < m -> dinv n no classes touched ->
    exists no' classes' touched',
      dbscan_step near m k (Some (no, classes, touched)) n = Some (no', classes', touched') /\
      dinv (S n) no' classes' touched'.
  Proof.
    intros Hn I. unfold dbscan_step. destruct (touched n) eqn:Tn.
    { exists no, classes, touched. split; auto. destruct I. constructor; auto.
      intros j Hj Hm T. destruct (Nat.eq_dec j n); [congruence|]. apply d_past0; auto. lia. }
    assert (Nn : In n (nbrs n)) by (apply nbrs_in; auto).
    assert (Ln : 1 <= length (nbrs n)) by (destruct (nbrs n); [destruct Nn|simpl; lia]).
    set (classes1 := if Nat.ltb 1 (length (nbrs n)) && Nat.ltb (length (nbrs n)) (k + 1)
                     then assign [n] 0%Z classes else classes).
    assert (C1 : forall j, classes1 j = classes j).
    { intro j. unfold classes1. destruct (_ && _); auto.
      destruct (assign_dec [n] 0%Z classes j) as [[[<-|[]] E]|[_ E]]; rewrite E; auto.
      symmetry. apply (d_fresh I); auto. }
    destruct (Nat.leb (k + 1) (length (nbrs n))) eqn:Ec.
    - (* n starts a cluster *)
      apply Nat.leb_le in Ec.
      set (classes2 := if Nat.eqb (length (nbrs n)) 1 then assign [n] (-1)%Z classes1 else classes1).
      set (touched2 := if Nat.eqb (length (nbrs n)) 1 then assign [n] true touched else touched).
      assert (Core : core n) by (split; auto).
      assert (T2 : forall j, j <> n -> touched2 j = touched j).
      { intros j NR. unfold touched2. destruct (Nat.eqb _ _); auto. apply assign_out.
        simpl. intuition congruence. }
      assert (C2 : forall j, j <> n -> classes2 j = classes j).
      { intros j NR. unfold classes2. destruct (Nat.eqb _ _); auto. rewrite assign_out; auto.
        simpl. intuition congruence. }
      destruct (@expand_spec n Hn no classes touched (2 * m) (nbrs n) (assign (nbrs n) no classes2) touched2)
        as (classes' & touched' & E & Hin & Hout).
      { assert (Tq : forall j, reach n j -> touched2 j = true -> In j (nbrs n)).
        { intros j R Hj. destruct (Nat.eq_dec j n) as [->|N]; auto.
          rewrite T2 in Hj by auto. pose proof (@d_closed _ _ _ _ I n j Hn R). congruence. }
        constructor.
        - intros j Hj. apply nbrs_in in Hj. eapply reach_step; [constructor|tauto|tauto].
        - intros j. destruct (in_dec Nat.eq_dec j (nbrs n)) as [Hj|Hj].
          + right. apply nbrs_in in Hj. eapply reach_step; [constructor|tauto|tauto].
          + left. assert (j <> n) by (intro; subst; auto). rewrite assign_out by auto. auto.
        - intros j R [Hj|Hj]; apply assign_in; auto.
        - intros j R Hj. auto.
        - auto. }
      { pose proof (fresh_le touched2).
        assert (length (nbrs n) <= length (seq 0 m)).
        { apply NoDup_incl_length. apply nbrs_nodup. intros j Hj. apply nbrs_in in Hj. apply in_seq. lia. }
        rewrite seq_length in *. lia. }
      rewrite E. exists (no + 1)%Z, classes', touched'. split; auto.
      assert (HC : has_core n) by (exists n; split; [constructor|auto]).
      pose proof (d_no I) as N1.
      assert (Tf : forall j, reach n j -> touched j = false).
      { intros j R. rewrite <- (d_closed I Hn R). auto. }
      assert (Dec : forall j, (~ reach n j /\ touched' j = touched j /\ classes' j = classes j) \/
                              (reach n j /\ touched' j = true /\ classes' j = no)).
      { intros j. destruct (Hout j) as [[A B]|R].
        - left. split; auto. intro R. pose proof (Tf j R). destruct (Hin j R). congruence.
        - right. split; auto. }
      constructor.
      + lia.
      + intros j Hj T. destruct (Dec j) as [(NR & A & B)|(R & A & B)]; [|congruence].
        rewrite B. apply (d_fresh I); congruence.
      + intros j l Hj R. destruct (Dec j) as [(NR & A & B)|(R' & A & B)], (Dec l) as [(NRl & Al & Bl)|(Rl & Al & Bl)].
        * rewrite A, Al. apply (d_closed I); auto.
        * exfalso. apply NR. apply reach_trans with l; auto using reach_sym.
        * exfalso. apply NRl. apply reach_trans with j; auto.
        * congruence.
      + intros j Hj T. destruct (Dec j) as [(NR & A & B)|(R & A & B)]; rewrite B.
        * destruct (@d_touched _ _ _ _ I j Hj) as [X|[X Y]]; [congruence|auto|right; split; auto; lia].
        * right. split; [lia|]. apply (has_core_reach Hn R); auto.
      + intros j l Hj Hl T Tl P. destruct (Dec j) as [(NR & A & B)|(R & A & B)], (Dec l) as [(NRl & Al & Bl)|(Rl & Al & Bl)].
        * rewrite B, Bl. apply (d_same I); congruence.
        * split; intro X.
          -- exfalso. destruct (@d_touched _ _ _ _ I j Hj) as [[Y _]|[Y _]]; [congruence|lia|lia].
          -- exfalso. apply NR. apply reach_trans with l; auto using reach_sym.
        * split; intro X.
          -- exfalso. destruct (@d_touched _ _ _ _ I l Hl) as [[Y _]|[Y _]]; [congruence|lia|lia].
          -- exfalso. apply NRl. apply reach_trans with j; auto.
        * split; [|congruence]. intros _. apply reach_trans with n; auto using reach_sym.
      + intros c Hc. destruct (Z.eq_dec c no) as [->|Ne].
        * exists n. destruct (Dec n) as [(NR & _)|(_ & A & B)]; [exfalso; apply NR; constructor|auto].
        * destruct (@d_used _ _ _ _ I c) as (j & Hj & T & C); [lia|].
          exists j. destruct (Dec j) as [(NR & A & B)|(R & A & B)]; [rewrite A, B; auto|].
          pose proof (Tf j R). congruence.
      + intros j Hj Hm T. destruct (Dec j) as [(NR & A & B)|(R & A & B)]; [|congruence].
        destruct (Nat.eq_dec j n) as [->|Ne]; [exfalso; apply NR; constructor|].
        apply (@d_past _ _ _ _ I j); [lia|auto|congruence].
    - (* n starts no cluster *)
      apply Nat.leb_gt in Ec. assert (NC : ~ core n) by (intros [_ ?]; lia).
      destruct (Nat.eqb (length (nbrs n)) 1) eqn:E1.
      + (* isolated *)
        apply Nat.eqb_eq in E1.
        assert (Only : forall l, l < m -> near n l = true -> l = n).
        { intros l Hl E. destruct (nbrs n) as [|a [|b t]] eqn:En; simpl in E1; try lia.
          assert (In l [a]) by (rewrite <- En; apply nbrs_in; auto).
          destruct Nn as [<-|[]]. destruct H as [<-|[]]. auto. }
        assert (Rn : forall j, reach n j -> j = n) by (intros; eapply reach_isolated; eauto).
        assert (Rn' : forall j, j < m -> reach j n -> j = n) by (intros; apply Rn, reach_sym; auto).
        assert (NH : ~ has_core n) by (intros (c & R & C); apply Rn in R; subst; auto).
        exists no, (assign [n] (-1)%Z classes1), (assign [n] true touched). split; auto.
        assert (Dec : forall j, (j = n /\ assign [n] (-1)%Z classes1 j = (-1)%Z /\ assign [n] true touched j = true) \/
                                (j <> n /\ assign [n] (-1)%Z classes1 j = classes j /\ assign [n] true touched j = touched j)).
        { intro j. destruct (Nat.eq_dec j n) as [->|Ne].
          - left. rewrite !assign_in by (left; auto). auto.
          - right. rewrite !assign_out by (simpl; intuition congruence). auto. }
        constructor.
        * apply (d_no I).
        * intros j Hj T. destruct (Dec j) as [(-> & A & B)|(Ne & A & B)]; [congruence|].
          rewrite A. apply (d_fresh I); congruence.
        * intros j l Hj R. destruct (Dec j) as [(-> & A & B)|(Ne & A & B)].
          -- apply Rn in R. subst. auto.
          -- destruct (Dec l) as [(-> & A' & B')|(Ne' & A' & B')].
             ++ apply Rn' in R; auto; congruence.
             ++ rewrite B, B'. apply (d_closed I); auto.
        * intros j Hj T. destruct (Dec j) as [(-> & A & B)|(Ne & A & B)]; rewrite A; [auto|].
          apply (d_touched I); congruence.
        * intros j l Hj Hl T Tl P. destruct (Dec j) as [(-> & A & B)|(Ne & A & B)]; [lia|].
          destruct (Dec l) as [(-> & A' & B')|(Ne' & A' & B')].
          -- split; intro X; [lia|]. apply Rn' in X; auto; congruence.
          -- rewrite A, A'. apply (d_same I); congruence.
        * intros c Hc. destruct (@d_used _ _ _ _ I c Hc) as (j & Hj & T & C).
          exists j. destruct (Dec j) as [(-> & A & B)|(Ne & A & B)]; [congruence|]. rewrite A, B. auto.
        * intros j Hj Hm T. destruct (Dec j) as [(-> & A & B)|(Ne & A & B)]; [congruence|].
          apply (@d_past _ _ _ _ I j); [lia|auto|congruence].
      + exists no, classes1, touched. split; auto. destruct I. constructor; auto.
        * intros j Hj T. rewrite C1. auto.
        * intros j Hj T. rewrite C1. auto.
        * intros j l Hj Hl T Tl P. rewrite !C1 in *. auto.
        * intros c Hc. destruct (d_used0 c Hc) as (j & ? & ? & ?). exists j. rewrite C1. auto.
        * intros j Hj Hm T. destruct (Nat.eq_dec j n) as [->|Ne]; auto. apply d_past0; auto. lia.
  Qed.

  Lemma loop_spec : forall n, n <= m -> exists no classes touched,
    fold_left (dbscan_step near m k) (seq 0 n) (Some (1%Z, fun _ => 0%Z, fun _ => false)) = Some (no, classes, touched) /\
    dinv n no classes touched.
  Proof.
    induction n as [|n IH]; intros Hn.
    - exists 1%Z, (fun _ => 0%Z), (fun _ => false). split; auto. constructor; auto; try lia; try discriminate.
    - destruct IH as (no & cl & to & E & I); [lia|].
      rewrite seq_S, fold_left_app, E. simpl.
      destruct (@step_spec n no cl to) as (no' & cl' & to' & E' & I'); [lia|auto|].
      simpl in E'. rewrite E'. eauto 10.
  Qed.

  Lemma labels_spec : exists lab, dbscan_labels near m k = Some lab /\ length lab = m /\
    (forall i, i < m -> (nth i lab 0 = -1)%Z /\ ~ has_core i \/ (1 <= nth i lab 0)%Z /\ has_core i) /\
    (forall i j, i < m -> j < m -> (1 <= nth i lab 0)%Z -> (nth i lab 0%Z = nth j lab 0%Z <-> reach i j)) /\
    (forall i c, i < m -> (1 <= c <= nth i lab 0)%Z -> In c lab).
  Proof.
    destruct (@loop_spec m (Nat.le_refl m)) as (no & cl & to & E & I).
    unfold dbscan_labels. rewrite E. eexists. split; [reflexivity|].
    set (lab := map (fun i => if Z.eqb (cl i) 0 then (-1)%Z else cl i) (seq 0 m)).
    assert (Nth : forall i, i < m -> nth i lab 0%Z = if Z.eqb (cl i) 0 then (-1)%Z else cl i).
    { intros i Hi. unfold lab. set (f := fun i => if Z.eqb (cl i) 0 then (-1)%Z else cl i).
      rewrite nth_indep with (d' := f 0) by (rewrite map_length, seq_length; auto).
      rewrite map_nth. rewrite seq_nth by auto. reflexivity. }
    assert (Tc : forall i, i < m -> to i = false -> ~ has_core i).
    { intros i Hi T (c & R & C). pose proof (@d_closed _ _ _ _ I i c Hi R) as X.
      destruct C as [Hc C]. apply (@d_past _ _ _ _ I c); auto; [congruence|split; auto]. }
    assert (Pos : forall i, i < m -> (1 <= nth i lab 0)%Z -> to i = true /\ (1 <= cl i < no)%Z /\ nth i lab 0%Z = cl i).
    { intros i Hi P. rewrite Nth in * by auto. destruct (Z.eqb (cl i) 0) eqn:Ez; [lia|].
      destruct (to i) eqn:T; [|rewrite (d_fresh I Hi T) in Ez; discriminate].
      destruct (d_touched I Hi T) as [[X _]|[X _]]; [lia|]. auto. }
    split; [unfold lab; rewrite map_length, seq_length; auto|]. split; [|split].
    - intros i Hi. rewrite Nth by auto. destruct (to i) eqn:T.
      + destruct (d_touched I Hi T) as [[X Y]|[X Y]].
        * left. rewrite X. simpl. auto.
        * right. destruct (Z.eqb_spec (cl i) 0); [lia|]. split; auto. lia.
      + left. rewrite (d_fresh I Hi T). simpl. auto.
    - intros i j Hi Hj P. destruct (Pos i Hi P) as (T & C & ->). split.
      + intros Ej. assert (Pj : (1 <= nth j lab 0)%Z) by lia.
        destruct (Pos j Hj Pj) as (Tj & Cj & Ej'). apply (d_same I); auto; lia.
      + intros R. pose proof (@d_closed _ _ _ _ I i j Hi R) as X.
        assert (E' : cl i = cl j) by (apply (d_same I); auto; try lia; congruence).
        rewrite Nth by auto. destruct (Z.eqb_spec (cl j) 0); lia.
    - intros i c Hi Hc. destruct (Pos i Hi) as (T & C & X); [lia|].
      destruct (@d_used _ _ _ _ I c) as (j & Hj & Tj & Cj); [lia|].
      rewrite <- Cj. unfold lab. apply in_map_iff. exists j. split; [|apply in_seq; lia].
      destruct (Z.eqb_spec (cl j) 0); lia.
  Qed.
End D.

(* ------------------------------------------------------------------ back to the points *)
Lemma near_within x eps i j : (0 <= eps)%Z -> i < length x -> j < length x ->
  near x eps i j = true <-> within x eps i j.
Proof.
  intros He Hi Hj. unfold near, within, sqdist, dist2, pt in *.
  rewrite (proj2 (Z.leb_le 0 eps) He). simpl. rewrite Z.leb_le.
  assert (Ei : nth_error x i = Some (nth i x (0, 0)%Z)) by (apply nth_error_nth'; auto).
  assert (Ej : nth_error x j = Some (nth j x (0, 0)%Z)) by (apply nth_error_nth'; auto).
  destruct (nth i x (0, 0)%Z) as [a1 a2], (nth j x (0, 0)%Z) as [b1 b2]. simpl.
  split.
  - intros H. exists (a1, a2), (b1, b2). repeat split; auto. lia.
  - intros (a & b & A & B & H). rewrite Ei in A. rewrite Ej in B.
    injection A as <-. injection B as <-. lia.
Qed.
Lemma within_lt x eps i j : within x eps i j -> i < length x /\ j < length x.
Proof. intros (a & b & A & B & _). split; apply nth_error_Some; congruence. Qed.

Lemma reach_linked x eps i j : (0 <= eps)%Z -> i < length x ->
  reach (near x eps) (length x) i j <-> linked x eps i j.
Proof.
  intros He Hi. split; intros H.
  - induction H; [constructor|]. apply linked_step with j; auto.
    apply near_within; auto. apply (reach_lt Hi H).
  - induction H; [constructor|]. pose proof (within_lt H0). apply reach_step with j; try tauto.
    apply near_within; tauto.
Qed.
Lemma nodup_left {A} (a b : list A) : NoDup (a ++ b) -> NoDup a.
Proof.
  induction a as [|v a IH]; simpl; intros N; [constructor|].
  inversion N; subst. constructor; auto. intro H. apply H1. apply in_app_iff. auto.
Qed.
Lemma core_crowded x k eps i : (0 <= eps)%Z -> i < length x ->
  core (near x eps) (length x) k i <-> crowded x k eps i.
Proof.
  intros He Hi. unfold core, crowded. split.
  - intros [_ L]. exists (firstn (k + 1) (nbrs (near x eps) (length x) i)). split; [|split].
    + pose proof (nbrs_nodup (near x eps) (length x) i) as N.
      rewrite <- (firstn_skipn (k + 1)) in N. apply nodup_left in N. auto.
    + apply firstn_length_le. auto.
    + intros j Hj. assert (X : In j (nbrs (near x eps) (length x) i)).
      { rewrite <- (firstn_skipn (k + 1)). apply in_app_iff. auto. }
      apply nbrs_in in X. apply near_within; tauto.
  - intros (l & N & L & H). split; auto. rewrite <- L. apply NoDup_incl_length; auto.
    intros j Hj. specialize (H j Hj). pose proof (within_lt H). apply nbrs_in. split; [tauto|].
    apply near_within; tauto.
Qed.

Lemma dbscan_correct x k eps : (0 <= eps)%Z -> exists lab, dbscan x k eps = Some lab /\ clustering x k eps lab.
Proof.
  intros He. unfold dbscan.
  destruct (@labels_spec (near x eps) (length x) k) as (lab & E & L & C & S & G).
  - intros i Hi. apply near_within; auto.
    exists (nth i x (0, 0)%Z), (nth i x (0, 0)%Z). repeat split; try (apply nth_error_nth'; auto).
    unfold sqdist. destruct (nth i x (0, 0)%Z). nia.
  - intros i j. unfold near, dist2. f_equal. f_equal. lia.
  - exists lab. split; auto.
    assert (HC : forall i, i < length x ->
      has_core (near x eps) (length x) k i <-> exists j, linked x eps i j /\ crowded x k eps j).
    { intros i Hi. unfold has_core. split; intros (c & A & B); exists c.
      - assert (c < length x) by (destruct B; auto). split; [apply reach_linked|apply core_crowded]; auto.
      - assert (Hc : c < length x).
        { destruct B as (l & N & Ll & H). destruct l as [|j l]; [simpl in Ll; lia|].
          specialize (H j (or_introl eq_refl)). apply within_lt in H. tauto. }
        split; [apply reach_linked|apply core_crowded]; auto. }
    constructor; auto.
    + intros i Hi. rewrite <- HC by auto. destruct (C i Hi) as [[A B]|[A B]]; split; intros X; auto; try lia; contradiction.
    + intros i Hi. destruct (C i Hi) as [[A B]|[A B]]; auto.
    + intros i j Hi Hj P. rewrite (S i j Hi Hj P). apply reach_linked; auto.
Qed.
