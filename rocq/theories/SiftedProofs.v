(** Lemmas for SiftedProps.v. *)
From Coq Require Import Lqa Qabs.
From Verif Require Import Base BaseLemmas Num FilterModel FilterProofs PreprocModel PreprocSpec PreprocProofs
  SiftedModel SiftedSpec.
Set Implicit Arguments.

Lemma where_true_in mask i : In i (where_true mask) <-> i < length mask /\ nth i mask false = true.
Proof. apply positions_in. Qed.
Lemma where_true_increasing mask : increasing (where_true mask).
Proof. apply positions_increasing. Qed.

Lemma nth_repeat_false n i : nth i (repeat false n) false = false.
Proof. revert i. induction n; intros [|i]; simpl; auto. Qed.

(** setting a list of positions *)
Definition sets (l : list nat) (m : list bool) : list bool := fold_left (fun m f => upd f (fun _ => true) m) l m.
Lemma sets_length l m : length (sets l m) = length m.
Proof. revert m. induction l as [|f l IH]; intro m; simpl; auto. unfold sets in *. simpl. rewrite IH, upd_length. auto. Qed.
Lemma sets_nth l : forall m i, i < length m -> (nth i (sets l m) false = true <-> nth i m false = true \/ In i l).
Proof.
  induction l as [|f l IH]; intros m i H; unfold sets in *; simpl; [tauto|].
  rewrite IH by (rewrite upd_length; auto). destruct (Nat.eq_dec f i) as [->|N].
  - rewrite upd_same by auto. tauto.
  - rewrite upd_other by auto. intuition congruence.
Qed.

Lemma perf_mask_sets rho order thr nf na :
  exists l, perf_mask rho order thr nf na = sets l (repeat false nf) /\
    forall f, In f l <-> (exists j, j < na /\ nth 0 (order j) 0 = f) \/
      (exists i j, i < nf /\ j < na /\ (thr <= corr rho i j)%Q /\ nth i (order j) 0 = f).
Proof.
  set (inner := fun i => flat_map (fun j => if Qle_bool thr (corr rho i j) then [nth i (order j) 0] else []) (seq 0 na)).
  exists (map (fun j => nth 0 (order j) 0) (seq 0 na) ++ flat_map inner (seq 0 nf)). split.
  - unfold perf_mask, sets. rewrite fold_left_app.
    assert (E1 : forall l m, fold_left (fun m j => upd (nth 0 (order j) 0) (fun _ : bool => true) m) l m =
       fold_left (fun m f => upd f (fun _ : bool => true) m) (map (fun j => nth 0 (order j) 0) l) m).
    { induction l; intro m; simpl; auto. }
    rewrite E1. generalize (fold_left (fun m f => upd f (fun _ : bool => true) m) (map (fun j => nth 0 (order j) 0) (seq 0 na)) (repeat false nf)).
    assert (E2 : forall i l m, fold_left (fun m j => if Qle_bool thr (nth j (nth i rho []) 0%Q) then upd (nth i (order j) 0) (fun _ : bool => true) m else m) l m =
       fold_left (fun m f => upd f (fun _ : bool => true) m) (flat_map (fun j => if Qle_bool thr (corr rho i j) then [nth i (order j) 0] else []) l) m).
    { intros i l. induction l as [|j l IH]; intro m; simpl; auto. rewrite fold_left_app.
      change (nth j (nth i rho []) 0%Q) with (corr rho i j). rewrite IH.
      destruct (Qle_bool thr (corr rho i j)); simpl; auto. }
    generalize (seq 0 nf). intro l. induction l as [|i l IH]; intro m; simpl; auto.
    rewrite fold_left_app, E2. apply IH.
  - intro f. rewrite in_app_iff, in_map_iff, in_flat_map. split.
    + intros [(j & E & H)|(i & Hi & H)].
      * left. exists j. apply in_seq in H. split; [lia|auto].
      * right. unfold inner in H. apply in_flat_map in H. destruct H as (j & Hj & H).
        destruct (Qle_bool thr (corr rho i j)) eqn:E; [|destruct H]. destruct H as [H|[]].
        apply Qle_bool_iff in E. apply in_seq in Hi. apply in_seq in Hj. exists i, j. repeat split; auto; lia.
    + intros [(j & Hj & E)|(i & j & Hi & Hj & E & H)].
      * left. exists j. split; auto. apply in_seq. lia.
      * right. exists i. split; [apply in_seq; lia|]. unfold inner. apply in_flat_map. exists j.
        split; [apply in_seq; lia|]. apply Qle_bool_iff in E. rewrite E. left. auto.
Qed.
Lemma perf_mask_length rho order thr nf na : length (perf_mask rho order thr nf na) = nf.
Proof. destruct (perf_mask_sets rho order thr nf na) as (l & -> & _). rewrite sets_length, repeat_length. auto. Qed.

Lemma perf_selected rho order thr nf na f :
  In f (where_true (perf_mask rho order thr nf na)) <->
  f < nf /\ ((exists j, j < na /\ nth 0 (order j) 0 = f) \/
      (exists i j, i < nf /\ j < na /\ (thr <= corr rho i j)%Q /\ nth i (order j) 0 = f)).
Proof.
  rewrite where_true_in, perf_mask_length. destruct (perf_mask_sets rho order thr nf na) as (l & -> & I).
  split; intros [H1 H2]; split; auto.
  - apply sets_nth in H2; [|rewrite repeat_length; auto]. rewrite nth_repeat_false in H2.
    destruct H2 as [H2|H2]; [discriminate|]. apply I. auto.
  - apply sets_nth; [rewrite repeat_length; auto|]. right. apply I. auto.
Qed.

(* ------------------------------------------------------------------ decoding *)
Lemma cluster_members labels c p : In p (where_true (cluster_col labels c)) <-> nth_error labels p = Some c.
Proof.
  rewrite where_true_in. unfold cluster_col. rewrite map_length. split.
  - intros [L H]. rewrite nth_indep with (d' := Nat.eqb c (S c)) in H by (rewrite map_length; auto).
    rewrite map_nth in H. apply Nat.eqb_eq in H. rewrite (nth_error_nth' labels (S c)) by auto. congruence.
  - intro H. assert (L : p < length labels) by (apply nth_error_Some; congruence). split; auto.
    rewrite nth_indep with (d' := Nat.eqb c (S c)) by (rewrite map_length; auto). rewrite map_nth.
    apply Nat.eqb_eq. rewrite (nth_error_nth' labels (S c)) in H by auto. congruence.
Qed.
Lemma pick_some labels c g p : pick labels c g = Some p -> nth_error labels p = Some c.
Proof.
  unfold pick. destruct (where_true (cluster_col labels c)) as [|a t] eqn:E; [discriminate|].
  intro H. injection H as <-. apply cluster_members. rewrite E.
  apply (@nth_In nat (Z.to_nat (g mod Z.of_nat (length (a :: t)))) (a :: t) 0).
  pose proof (Z.mod_pos_bound g (Z.of_nat (length (a :: t)))) as B. simpl length in *. lia.
Qed.
Lemma pick_none labels c g : pick labels c g = None <-> ~ In c labels.
Proof.
  unfold pick. destruct (where_true (cluster_col labels c)) as [|a t] eqn:E.
  - split; auto. intros _ H. apply In_nth_error in H. destruct H as [p H]. apply cluster_members in H.
    rewrite E in H. destruct H.
  - split; [discriminate|]. intro H. exfalso. apply H. apply (@nth_error_In _ _ a).
    apply cluster_members. rewrite E. left. auto.
Qed.
Lemma pick_onto labels c p : nth_error labels p = Some c -> exists g, pick labels c g = Some p.
Proof.
  intro H. apply cluster_members in H. unfold pick. destruct (where_true (cluster_col labels c)) as [|a t] eqn:E; [destruct H|].
  apply In_nth with (d := 0) in H. destruct H as (k & L & H). exists (Z.of_nat k). f_equal.
  rewrite Z.mod_small by lia. rewrite Nat2Z.id. exact H.
Qed.

Lemma decode_spec labels genes : forall mask m, decode labels genes mask = Some m ->
  length m = length mask /\
  forall p, p < length mask -> (nth p m false = true <-> nth p mask false = true \/
    exists c g, In (c, g) genes /\ pick labels c g = Some p).
Proof.
  induction genes as [|[c g] t IH]; intros mask m H; simpl in H.
  - injection H as <-. split; auto. intros p Hp. split; auto. intros [X|(c & g & [] & _)]. auto.
  - destruct (pick labels c g) as [f|] eqn:E; [|discriminate]. destruct (IH _ _ H) as [L S].
    rewrite upd_length in *. split; auto. intros p Hp. rewrite S by auto. destruct (Nat.eq_dec f p) as [->|N].
    + rewrite upd_same by auto. split; auto. intros _. right. exists c, g. split; auto. left. auto.
    + rewrite upd_other by auto. split.
      * intros [X|(c' & g' & I & X)]; auto. right. exists c', g'. split; auto. right. auto.
      * intros [X|(c' & g' & [I|I] & X)]; auto.
        -- injection I as <- <-. congruence.
        -- right. exists c', g'. auto.
Qed.
Lemma decode_none labels genes : forall mask, decode labels genes mask = None <-> exists c g, In (c, g) genes /\ ~ In c labels.
Proof.
  induction genes as [|[c g] t IH]; intro mask; simpl.
  - split; [discriminate|]. intros (c & g & [] & _).
  - destruct (pick labels c g) as [f|] eqn:E.
    + rewrite IH. split; intros (c' & g' & I & H); exists c', g'.
      * split; auto.
      * split; auto. destruct I as [I|I]; auto. injection I as <- <-. apply (pick_none labels c g) in H. congruence.
    + split; auto. intros _. exists c, g. split; auto. apply (pick_none labels c g). auto.
Qed.

Lemma genes_in k best c g : length best = k -> (In (c, g) (genes_of k best) <-> nth_error best c = Some g).
Proof.
  intros <-. unfold genes_of. assert (X : forall l s, In (c, g) (combine (seq s (length l)) l) <-> s <= c /\ nth_error l (c - s) = Some g).
  { clear best. induction l as [|a l IH]; intro s; simpl.
    - split; [tauto|]. intros [_ H]. destruct (c - s); discriminate.
    - rewrite IH. split.
      + intros [H|[H1 H2]]; [injection H as <- <-; rewrite Nat.sub_diag; auto|].
        split; [lia|]. replace (c - s) with (S (c - S s)) by lia. auto.
      + intros [H1 H2]. destruct (c - s) as [|d] eqn:E; simpl in H2.
        * injection H2 as <-. left. f_equal. lia.
        * right. split; [lia|]. replace (c - S s) with d by lia. auto. }
  rewrite X, Nat.sub_0_r. split; [tauto|]. intro H. split; [lia|auto].
Qed.

Lemma select_in A (mask : list bool) (l : list A) a : In a (select mask l) <-> exists p, nth p mask false = true /\ nth_error l p = Some a.
Proof.
  revert l. induction mask as [|b m IH]; intros [|x l]; simpl.
  - split; [tauto|]. intros ([|p] & H & _); discriminate.
  - split; [tauto|]. intros ([|p] & H & _); discriminate.
  - split; [tauto|]. intros ([|p] & _ & H); discriminate.
  - destruct b; simpl; rewrite IH; split.
    + intros [->|(p & H1 & H2)]; [exists 0; auto|exists (S p); auto].
    + intros ([|p] & H1 & H2); simpl in *; [injection H2 as ->; auto|eauto].
    + intros (p & H1 & H2). exists (S p). auto.
    + intros ([|p] & H1 & H2); simpl in *; [discriminate|eauto].
Qed.
Lemma select_increasing mask l : increasing l -> increasing (select mask l).
Proof.
  intro H. revert mask. induction H as [|x l S IH F]; intros [|b m]; simpl; try constructor.
  destruct b; [|apply IH]. constructor; [apply IH|]. apply select_Forall. auto.
Qed.
Lemma increasing_nodup l : increasing l -> NoDup l.
Proof.
  induction 1 as [|x l S IH F]; constructor; auto. intro H. rewrite Forall_forall in F. apply F in H. lia.
Qed.

Section Decode.
  Variables labels selvars : list nat.
  Variable k : nat.
  Hypothesis Len : length labels = length selvars.
  Hypothesis Inc : increasing selvars.
  Hypothesis Full : no_empty_cluster k labels.

  Lemma decode_runs best : length best = k -> exists m, decode labels (genes_of k best) (repeat false (length selvars)) = Some m.
  Proof.
    intro Lb. destruct (decode labels (genes_of k best) (repeat false (length selvars))) eqn:E; eauto.
    apply decode_none in E. destruct E as (c & g & I & N). exfalso. apply N, Full.
    apply genes_in in I; auto. rewrite <- Lb. apply nth_error_Some. congruence.
  Qed.

  Lemma decode_one_each best : length best = k ->
    exists sel, decode_selvars labels k best selvars = Ok sel /\ increasing sel /\
      (forall f, In f sel -> exists c, c < k /\ in_cluster selvars labels c f) /\
      (forall c, c < k -> exists f, In f sel /\ in_cluster selvars labels c f /\
         forall f', In f' sel -> in_cluster selvars labels c f' -> f' = f).
  Proof.
    intro Lb. destruct (@decode_runs best Lb) as [m E]. unfold decode_selvars. rewrite E. exists (select m selvars).
    destruct (@decode_spec _ _ _ _ E) as [Lm S]. rewrite repeat_length in *.
    split; auto. split; [apply select_increasing; auto|].
    assert (P : forall p, p < length selvars -> (nth p m false = true <->
        exists c g, nth_error best c = Some g /\ pick labels c g = Some p)).
    { intros p Hp. rewrite S by auto. rewrite nth_repeat_false. split.
      - intros [X|(c & g & I & X)]; [discriminate|]. apply genes_in in I; auto. eauto.
      - intros (c & g & I & X). right. exists c, g. split; auto. apply genes_in; auto. }
    split.
    - intros f Hf. apply select_in in Hf. destruct Hf as (p & Hp & Hf).
      assert (L : p < length selvars) by (apply nth_error_Some; congruence).
      apply P in Hp; auto. destruct Hp as (c & g & Hc & Hpick). exists c.
      split; [rewrite <- Lb; apply nth_error_Some; congruence|]. exists p. split; auto. eapply pick_some; eauto.
    - intros c Hc. destruct (nth_error best c) as [g|] eqn:Eg; [|apply nth_error_None in Eg; lia].
      destruct (pick labels c g) as [p|] eqn:Ep; [|apply pick_none in Ep; exfalso; apply Ep, Full; auto].
      pose proof (pick_some _ _ _ Ep) as Lp.
      assert (L : p < length selvars) by (rewrite <- Len; apply nth_error_Some; congruence).
      destruct (nth_error selvars p) as [f|] eqn:Ef; [|apply nth_error_None in Ef; lia].
      exists f. split; [apply select_in; exists p; split; auto; apply P; eauto|].
      split; [exists p; auto|]. intros f' Hf' (p' & Ef' & Lp').
      apply select_in in Hf'. destruct Hf' as (q & Hq & Eq).
      assert (q = p').
      { pose proof (increasing_nodup Inc) as ND. rewrite NoDup_nth_error in ND. apply ND; [apply nth_error_Some; congruence|congruence]. }
      subst q. apply P in Hq; [|apply nth_error_Some; congruence].
      destruct Hq as (c' & g' & Hc' & Hp'). pose proof (pick_some _ _ _ Hp') as X.
      assert (c' = c) by congruence. subst c'. assert (g' = g) by congruence. subst g'.
      assert (p' = p) by congruence. subst p'. congruence.
  Qed.

  Lemma decode_reachable (choice : nat -> nat) :
    (forall c, c < k -> in_cluster selvars labels c (choice c)) ->
    exists best sel, length best = k /\ decode_selvars labels k best selvars = Ok sel /\
      forall f, In f sel <-> exists c, c < k /\ f = choice c.
  Proof.
    intro H.
    assert (B : forall n, n <= k -> exists best, length best = n /\
      forall c, c < n -> exists g p, nth_error best c = Some g /\ pick labels c g = Some p /\ nth_error selvars p = Some (choice c)).
    { induction n as [|n IH]; intro Hn; [exists []; split; auto; intros; lia|].
      destruct IH as (best & Lb & Hb); [lia|]. destruct (H n ltac:(lia)) as (p & Hp & Hl).
      destruct (pick_onto _ _ Hl) as [g Hg]. exists (best ++ [g]). split; [rewrite app_length; simpl; lia|].
      intros c Hc. destruct (Nat.eq_dec c n) as [->|N].
      - exists g, p. rewrite nth_error_app2 by lia. rewrite Lb, Nat.sub_diag. auto.
      - destruct (Hb c ltac:(lia)) as (g' & p' & X & Y & Z). exists g', p'. rewrite nth_error_app1 by lia. auto. }
    destruct (B k (le_n _)) as (best & Lb & Hb). exists best.
    destruct (@decode_runs best Lb) as [m E]. exists (select m selvars). split; auto. split; [unfold decode_selvars; rewrite E; auto|].
    destruct (@decode_spec _ _ _ _ E) as [Lm S]. rewrite repeat_length in *.
    intro f. rewrite select_in. split.
    - intros (p & Hp & Hf). assert (L : p < length selvars) by (apply nth_error_Some; congruence).
      apply S in Hp; auto. rewrite nth_repeat_false in Hp. destruct Hp as [Hp|(c & g & I & X)]; [discriminate|].
      apply genes_in in I; auto. assert (Hc : c < k) by (rewrite <- Lb; apply nth_error_Some; congruence).
      exists c. split; auto. destruct (Hb c Hc) as (g' & p' & X1 & X2 & X3). congruence.
    - intros (c & Hc & ->). destruct (Hb c Hc) as (g & p & X1 & X2 & X3). exists p. split; auto.
      apply S; [apply nth_error_Some; congruence|]. right. exists c, g. split; auto. apply genes_in; auto.
  Qed.
End Decode.

Lemma decode_fails labels selvars k best : length best = k ->
  ((exists e, decode_selvars labels k best selvars = Err e) <-> exists c, c < k /\ ~ In c labels) /\
  forall e, decode_selvars labels k best selvars = Err e -> e = EZeroDivide.
Proof.
  intro Lb. unfold decode_selvars. split.
  - destruct (decode labels (genes_of k best) (repeat false (length selvars))) eqn:E.
    + split; [intros [e H]; discriminate|]. intros (c & Hc & N).
      destruct (nth_error best c) as [g|] eqn:Eg; [|apply nth_error_None in Eg; lia].
      assert (X : decode labels (genes_of k best) (repeat false (length selvars)) = None).
      { apply decode_none. exists c, g. split; auto. apply genes_in; auto. }
      congruence.
    + split; [|eauto]. intros _. apply decode_none in E. destruct E as (c & g & I & N).
      apply genes_in in I; auto. exists c. split; auto. rewrite <- Lb. apply nth_error_Some. congruence.
  - intros e. destruct (decode _ _ _); [discriminate|]. intro H. injection H as <-. auto.
Qed.

(** the same positions in the scoring and in the decoding *)
Lemma decode_positions labels genes n1 n2 m1 m2 :
  length labels <= n1 -> length labels <= n2 ->
  decode labels genes (repeat false n1) = Some m1 -> decode labels genes (repeat false n2) = Some m2 ->
  where_true m1 = where_true m2.
Proof.
  intros L1 L2 E1 E2. destruct (@decode_spec _ _ _ _ E1) as [A1 S1]. destruct (@decode_spec _ _ _ _ E2) as [A2 S2].
  rewrite repeat_length in *.
  assert (I : forall p, In p (where_true m1) <-> In p (where_true m2)).
  { assert (G : forall m n p, length m = n -> length labels <= n ->
        (forall p, p < n -> (nth p m false = true <-> nth p (repeat false n) false = true \/ exists c g, In (c, g) genes /\ pick labels c g = Some p)) ->
        (In p (where_true m) <-> exists c g, In (c, g) genes /\ pick labels c g = Some p)).
    { intros m n p Lm Ln S. rewrite where_true_in, Lm. split.
      - intros [L H]. apply S in H; auto. rewrite nth_repeat_false in H. destruct H; [discriminate|auto].
      - intros (c & g & Hi & Hp). assert (p < length labels) by (apply nth_error_Some; rewrite (pick_some _ _ _ Hp); discriminate).
        split; [lia|]. apply S; [lia|]. right. eauto. }
    intro p. rewrite (G m1 n1 p), (G m2 n2 p); auto. reflexivity. }
  pose proof (where_true_increasing m1) as W1. pose proof (where_true_increasing m2) as W2.
  revert I W1 W2. generalize (where_true m1) (where_true m2). clear.
  induction l as [|a l IH]; intros [|b l'] I W1 W2; auto.
  - exfalso. apply (I b). left. auto.
  - exfalso. apply (I a). left. auto.
  - inversion W1 as [|? ? S1 F1]; subst. inversion W2 as [|? ? S2 F2]; subst. rewrite Forall_forall in F1, F2.
    assert (a = b).
    { destruct (proj1 (I a) (or_introl eq_refl)) as [<-|H1]; auto.
      destruct (proj2 (I b) (or_introl eq_refl)) as [->|H2]; auto.
      apply F1 in H2. apply F2 in H1. lia. }
    subst b. f_equal. apply IH; auto. intro p. split; intro H.
    + destruct (proj1 (I p) (or_intror H)) as [->|]; auto. apply F1 in H. lia.
    + destruct (proj2 (I p) (or_intror H)) as [->|]; auto. apply F2 in H. lia.
Qed.

Lemma select_where m (l : list nat) : length m = length l -> select m l = map (fun p => nth p l 0) (where_true m).
Proof. intro E. apply select_positions. auto. Qed.

(* ------------------------------------------------------------------ fitness *)
Lemma fitness_from (e : nat -> Q) l : forall q0, exists q,
  fold_left (fun y i => match y with
                        | None => Some (e i)
                        | Some q => Some (if Qle_bool q (e i) then e i else q)
                        end) l (Some q0) = Some q /\
  (q0 <= q)%Q /\ (forall i, In i l -> (e i <= q)%Q) /\ (q = q0 \/ exists i, In i l /\ q = e i).
Proof.
  induction l as [|a l IH]; intro q0; simpl.
  - exists q0. split; auto. split; [lra|]. split; [tauto|auto].
  - destruct (Qle_bool q0 (e a)) eqn:E.
    + apply Qle_bool_iff in E. destruct (IH (e a)) as (q & E1 & H1 & H2 & H3). exists q. split; auto.
      split; [lra|]. split; [intros i [<-|Hi]; auto|]. right. destruct H3 as [->|(i & Hi & ->)]; eauto.
    + assert (H : (e a < q0)%Q). { apply Qnot_le_lt. intro H. apply Qle_bool_iff in H. congruence. }
      destruct (IH q0) as (q & E1 & H1 & H2 & H3). exists q. split; auto. split; auto.
      split; [intros i [<-|Hi]; auto; lra|]. destruct H3 as [->|(i & Hi & ->)]; eauto.
Qed.
Lemma fitness_is_max (e : nat -> Q) n : n <> 0 -> exists q, fitness e n = Some q /\
  (forall i, i < n -> (e i <= q)%Q) /\ exists i, i < n /\ q = e i.
Proof.
  intro N. destruct n as [|n]; [congruence|]. unfold fitness. simpl.
  destruct (fitness_from e (seq 1 n) (e 0)) as (q & E & H1 & H2 & H3). exists q. split; auto. split.
  - intros [|i] Hi; auto. apply H2, in_seq. lia.
  - destruct H3 as [->|(i & Hi & ->)]; [exists 0; split; auto; lia|]. exists i. apply in_seq in Hi. split; auto. lia.
Qed.

(* ------------------------------------------------------------------ silhouettes *)
Lemma argmax_from_lt l : forall i bi bv, bi < i -> argmax_from l i bi bv < i + length l.
Proof.
  induction l as [|v l IH]; intros i bi bv H; simpl; [lia|].
  destruct (Qle_bool v bv).
  - specialize (IH (S i) bi bv). lia.
  - specialize (IH (S i) i v). lia.
Qed.
Lemma argmax_lt l : l <> [] -> argmax l < length l.
Proof. destruct l as [|v l]; [congruence|]. intros _. simpl. apply (@argmax_from_lt l 1 0 v). lia. Qed.
Lemma argmax_from_max l : forall pre bi bv, nth_error pre bi = Some bv ->
  (forall v, In v pre -> (v <= bv)%Q) ->
  exists m, nth_error (pre ++ l) (argmax_from l (length pre) bi bv) = Some m /\ forall v, In v (pre ++ l) -> (v <= m)%Q.
Proof.
  induction l as [|x l IH]; intros pre bi bv H M; simpl.
  - exists bv. rewrite app_nil_r. auto.
  - replace (pre ++ x :: l) with ((pre ++ [x]) ++ l) by (rewrite <- app_assoc; auto).
    replace (S (length pre)) with (length (pre ++ [x])) by (rewrite app_length; simpl; lia).
    destruct (Qle_bool x bv) eqn:E.
    + apply Qle_bool_iff in E. apply IH.
      * rewrite nth_error_app1; auto. apply nth_error_Some. congruence.
      * intros v Hv. apply in_app_iff in Hv. destruct Hv as [Hv|[<-|[]]]; auto.
    + apply IH.
      * rewrite nth_error_app2, Nat.sub_diag by auto. auto.
      * assert (L : (bv < x)%Q). { apply Qnot_le_lt. intro Y. apply Qle_bool_iff in Y. congruence. }
        intros v Hv. apply in_app_iff in Hv. destruct Hv as [Hv|[<-|[]]]; [|lra]. pose proof (M v Hv). lra.
Qed.
Lemma argmax_spec l : l <> [] -> exists m, nth_error l (argmax l) = Some m /\ forall v, In v l -> (v <= m)%Q.
Proof.
  destruct l as [|v l]; [congruence|]. intros _. simpl argmax.
  apply (@argmax_from_max l [v] 0 v eq_refl). intros w [<-|[]]. lra.
Qed.

(* ------------------------------------------------------------------ correlation *)
Lemma all_ok_err E A (l : list (res E A)) : (exists e, all_ok l = Err e) <-> exists e, In (Err e) l.
Proof.
  induction l as [|[a|e] t IH]; simpl.
  - split; [intros [e H]; discriminate|]. intros [e []].
  - destruct (all_ok t) as [r|e].
    + split; [intros [e H]; discriminate|]. intros [e [H|H]]; [discriminate|]. destruct (proj2 IH (ex_intro _ e H)). discriminate.
    + split; [|eauto]. intros _. destruct (proj1 IH (ex_intro _ e eq_refl)) as [e' H]. eauto.
  - split; [|eauto]. intros _. eauto.
Qed.
Lemma all_ok_nth E A (l : list (res E A)) r : all_ok l = Ok r ->
  length r = length l /\ forall i a, nth_error r i = Some a <-> nth_error l i = Some (Ok a).
Proof.
  revert r. induction l as [|[a|e] t IH]; intros r H; simpl in H; [|destruct (all_ok t) as [r'|e]; [|discriminate]|discriminate].
  - injection H as <-. split; auto. intros [|i] a; split; discriminate.
  - injection H as <-. destruct (IH r' eq_refl) as [L N]. split; [simpl; auto|].
    intros [|i] b; simpl; auto. split; intro X; injection X as <-; auto.
Qed.

Lemma valid_pairs_rows (x y : list (list num)) i j : length x = length y ->
  length (valid_pairs (column None x i) (column None y j)) =
  length (filter (fun r => negb (isnan (cell x r i)) && negb (isnan (cell y r j))) (seq 0 (length x))).
Proof.
  unfold valid_pairs, column, cell, num in *. revert y. induction x as [|rx x IH]; intros [|ry y] E; try discriminate; auto.
  injection E as E. cbn [map combine flat_map length seq filter nth].
  rewrite app_length, (IH y E). rewrite <- seq_shift.
  assert (F : forall l, length (filter (fun r => negb (isnan (nth i (nth r (rx :: x) []) None)) && negb (isnan (nth j (nth r (ry :: y) []) None))) (map S l))
    = length (filter (fun r => negb (isnan (nth i (nth r x []) None)) && negb (isnan (nth j (nth r y []) None))) l)).
  { induction l as [|a l IHl]; auto. cbn [map filter nth]. destruct (negb _ && negb _); cbn [length]; [f_equal|]; exact IHl. }
  specialize (F (seq 0 (length x))). rewrite <- F.
  destruct (nth i rx None), (nth j ry None); cbn [isnan negb andb length plus]; reflexivity.
Qed.
