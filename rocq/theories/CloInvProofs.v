(** Lemmas for CloInvProps.v. *)
From Coq Require Import Permutation Lqa.
From Verif Require Import Base BaseLemmas Num Mat CloisterModel CloisterSpec PilotProofs CloisterProofs InstOrderSpec InvarSpec CloInvSpec.
Import CloInvSpec.
Set Implicit Arguments.
Open Scope nat_scope.
Open Scope list_scope.

Lemma number_refl a : same_number a a.
Proof. destruct a; simpl; auto. reflexivity. Qed.
Lemma number_sym a b : same_number a b -> same_number b a.
Proof. destruct a, b; simpl; auto. intro; symmetry; auto. Qed.
Lemma point_refl p : equal_point p p.
Proof. induction p; constructor; auto. apply number_refl. Qed.
Lemma point_sym p q : equal_point p q -> equal_point q p.
Proof. induction 1; constructor; auto. apply number_sym; auto. Qed.
Lemma equal_some q v : equal_point (map Some q) v -> exists q', v = map Some q' /\ same_point q q'.
Proof.
  revert v. induction q as [|a q IH]; intros v H; inversion H as [|? b ? l Hb Hl E1 E2]; subst.
  - exists []. split; [auto|constructor].
  - destruct b as [b|]; [|contradiction]. destruct (IH _ Hl) as (q' & -> & S'). exists (b :: q'). split; [auto|]. constructor; auto.
Qed.

Lemma hull_sub (hull : list (list num) -> option (list nat)) pts pts' p : hull_correct hull -> hull pts' <> None ->
  (forall v, In v pts -> exists v', In v' pts' /\ equal_point v v') ->
  in_hull (compute_convex_hull hull pts) p -> in_hull (compute_convex_hull hull pts') p.
Proof.
  intros HC N F. apply in_hull_sub. intros q Hq. apply (@hull_points _ _ _ HC) in Hq.
  destruct (F _ Hq) as (v' & Hv & E). destruct (equal_some _ E) as (q' & -> & S').
  eapply conv_same; [|apply same_sym; exact S']. apply hull_contains; auto.
Qed.
Lemma hull_nil (hull : list (list num) -> option (list nat)) pts : hull_correct hull -> (forall v, In v pts -> ~ In None v) ->
  (compute_convex_hull hull pts = [] <-> hull pts = None \/ pts = []).
Proof.
  intros HC F. unfold compute_convex_hull. destruct (hull pts) as [vs|] eqn:E; [|tauto]. destruct (HC _ _ E) as [B H]. split.
  - intro M. right. destruct vs; [|discriminate]. destruct pts as [|v pts]; auto. exfalso.
    destruct (no_none v (F v (or_introl eq_refl))) as [q ->]. specialize (H q (or_introl eq_refl)). simpl in H.
    clear - H. unfold in_hull in H. induction H; auto.
  - intros [X| ->]; [discriminate|]. destruct vs as [|i vs]; auto. specialize (B i (or_introl eq_refl)). simpl in B. lia.
Qed.
Lemma hulls_same (hull : list (list num) -> option (list nat)) pts pts' : hull_correct hull -> set_determined hull ->
  (forall v, In v pts -> ~ In None v) -> (forall v, In v pts' -> ~ In None v) ->
  (forall v, In v pts -> exists v', In v' pts' /\ equal_point v v') ->
  (forall v', In v' pts' -> exists v, In v pts /\ equal_point v v') ->
  same_region (compute_convex_hull hull pts) (compute_convex_hull hull pts') /\
  (compute_convex_hull hull pts = [] <-> compute_convex_hull hull pts' = []).
Proof.
  intros HC SD F F' A B. assert (D := SD _ _ A B). split.
  - intro p. destruct (hull pts) as [vs|] eqn:E1.
    + split; apply hull_sub; auto.
      * intro X. apply D in X. discriminate.
      * congruence.
      * intros v Hv. destruct (B v Hv) as (w & Hw & Ew). exists w. split; [auto|apply point_sym; auto].
    + assert (E2 : hull pts' = None) by (apply D; auto). unfold compute_convex_hull. rewrite E1, E2. tauto.
  - rewrite !hull_nil by auto. rewrite D. split; (intros [X|X]; [tauto|right]).
    + subst pts. destruct pts' as [|v t]; auto. destruct (B v (or_introl eq_refl)) as (w & [] & _).
    + subst pts'. destruct pts as [|v t]; auto. destruct (A v (or_introl eq_refl)) as (w & [] & _).
Qed.

(** The correlations can be computed iff every pair of features has one. *)
Lemma correlation_total pearson x n p_val :
  (exists rho, compute_correlation pearson x n p_val = Ok rho) <->
  (forall j k, j < n -> k < n -> j <> k -> exists rp, pearson (column None x j) (column None x k) = Ok rp).
Proof.
  assert (Q : forall (E A : Type) (l : list (res E A)), (exists r, sequence l = Ok r) <-> forall v, In v l -> exists a, v = Ok a).
  { intros E A l. induction l as [|[a|e] t IH]; simpl.
    - split; [intros _ v []|eauto].
    - destruct (sequence t) as [r|e].
      + split; eauto. intros _ v [<-|Hv]; eauto. apply IH; eauto.
      + split; [intros (r & X); discriminate|]. intro H. destruct IH as [_ IH]. destruct IH as (r & X); [|discriminate]. intros v Hv. apply H; auto.
    - split; [intros (r & X); discriminate|]. intro H. destruct (H (Err e) (or_introl eq_refl)) as (a & X). discriminate. }
  unfold compute_correlation. rewrite Q. split.
  - intros H j k Hj Hk N. destruct (H (sequence (map (rho_entry pearson x p_val j) (seq 0 n)))) as (r & E).
    { apply in_map_iff. exists j. split; auto. apply in_seq. lia. }
    assert (G : exists r, sequence (map (rho_entry pearson x p_val j) (seq 0 n)) = Ok r) by eauto. rewrite Q in G.
    destruct (G (rho_entry pearson x p_val j k)) as (v & Ev). { apply in_map_iff. exists k. split; auto. apply in_seq. lia. }
    unfold rho_entry in Ev. destruct (Nat.eqb_spec j k); [congruence|]. destruct (pearson _ _) as [rp|]; [eauto|discriminate].
  - intros H v Hv. apply in_map_iff in Hv. destruct Hv as (j & <- & Hj). apply in_seq in Hj. apply Q.
    intros w Hw. apply in_map_iff in Hw. destruct Hw as (k & <- & Hk). apply in_seq in Hk. unfold rho_entry.
    destruct (Nat.eqb_spec j k); [eauto|]. destruct (H j k ltac:(lia) ltac:(lia) n0) as ([r p] & ->). eauto.
Qed.
Lemma cloister_total pearson hull x a n p_val c : x <> [] ->
  ((exists z, cloister pearson hull x a n p_val c = Ok z) <->
   forall j k, j < n -> k < n -> j <> k -> exists rp, pearson (column None x j) (column None x k) = Ok rp).
Proof.
  intro N. rewrite <- (@correlation_total pearson x n p_val). unfold cloister. destruct (compute_correlation pearson x n p_val) as [rho|e].
  - destruct x; [congruence|]. split; eauto.
  - split; intros (z & X); discriminate.
Qed.

Section Core.
  Variable pearson : list num -> list num -> res clerr (num * num).
  Variable hull : list (list num) -> option (list nat).
  Variables x a x' a' : list (list num).
  Variables (n : nat) (p_val c : Q).
  Hypothesis HC : hull_correct hull.
  Hypothesis SD : set_determined hull.
  Hypothesis Hc : (0 <= c)%Q.
  Hypothesis F : forall b, ~ In None (mulv a (corner x n b)).
  Hypothesis F' : forall b, ~ In None (mulv a' (corner x' n b)).
  Definition matches (b b' : nat -> bool) : Prop :=
    equal_point (mulv a (corner x n b)) (mulv a' (corner x' n b')) /\
    (contradicts pearson x n p_val c (corner x n b) <-> contradicts pearson x' n p_val c (corner x' n b')).
  Hypothesis A : forall b, exists b', matches b b'.
  Hypothesis B : forall b', exists b, matches b b'.

  Lemma kept_iff y rho : compute_correlation pearson y n p_val = Ok rho ->
    forall v, In v (select (map negb (map (removed rho c n) (x_edge y n))) (x_edge y n)) <->
      exists b, v = corner y n b /\ ~ contradicts pearson y n p_val c (corner y n b).
  Proof.
    intros R v. rewrite kept_in, edge_in. split.
    - intros ((b & ->) & G). exists b. split; auto. intro X. apply (@removed_iff _ _ _ _ _ _ _ R Hc) in X. congruence.
    - intros (b & -> & X). split; [eauto|]. destruct (removed rho c n (corner y n b)) eqn:G; auto.
      apply (@removed_iff _ _ _ _ _ _ _ R Hc) in G. contradiction.
  Qed.

  Lemma core ze zc ze' zc' : cloister pearson hull x a n p_val c = Ok (ze, zc) -> cloister pearson hull x' a' n p_val c = Ok (ze', zc') ->
    same_region ze ze' /\ same_region zc zc'.
  Proof.
    intros H H'. destruct (@cloister_inv _ _ _ _ _ _ _ _ _ H) as (_ & rho & R & Ez & Ec). cbv zeta in Ec.
    destruct (@cloister_inv _ _ _ _ _ _ _ _ _ H') as (_ & rho' & R' & Ez' & Ec'). cbv zeta in Ec'.
    assert (K := @kept_iff _ _ R). assert (K' := @kept_iff _ _ R').
    set (kept := select _ (x_edge x n)) in *. set (kept' := select _ (x_edge x' n)) in *.
    assert (P1 : same_region ze ze' /\ (ze = [] <-> ze' = [])).
    { rewrite Ez, Ez'. apply hulls_same; auto.
      - intros v Hv. apply in_map_iff in Hv. destruct Hv as (w & <- & Hw). apply edge_in in Hw. destruct Hw as (b & ->). auto.
      - intros v Hv. apply in_map_iff in Hv. destruct Hv as (w & <- & Hw). apply edge_in in Hw. destruct Hw as (b & ->). auto.
      - intros v Hv. apply in_map_iff in Hv. destruct Hv as (w & <- & Hw). apply edge_in in Hw. destruct Hw as (b & ->).
        destruct (A b) as (b' & E & _). exists (mulv a' (corner x' n b')). split; auto. apply in_map, corner_in.
      - intros v Hv. apply in_map_iff in Hv. destruct Hv as (w & <- & Hw). apply edge_in in Hw. destruct Hw as (b & ->).
        destruct (B b) as (b' & E & _). exists (mulv a (corner x n b')). split; auto. apply in_map, corner_in. }
    assert (P2 : same_region (compute_convex_hull hull (map (mulv a) kept)) (compute_convex_hull hull (map (mulv a') kept')) /\
      (compute_convex_hull hull (map (mulv a) kept) = [] <-> compute_convex_hull hull (map (mulv a') kept') = [])).
    { apply hulls_same; auto.
      - intros v Hv. apply in_map_iff in Hv. destruct Hv as (w & <- & Hw). apply K in Hw. destruct Hw as (b & -> & _). auto.
      - intros v Hv. apply in_map_iff in Hv. destruct Hv as (w & <- & Hw). apply K' in Hw. destruct Hw as (b & -> & _). auto.
      - intros v Hv. apply in_map_iff in Hv. destruct Hv as (w & <- & Hw). apply K in Hw. destruct Hw as (b & -> & N).
        destruct (A b) as (b' & E & C). exists (mulv a' (corner x' n b')). split; auto. apply in_map, K'. exists b'. tauto.
      - intros v Hv. apply in_map_iff in Hv. destruct Hv as (w & <- & Hw). apply K' in Hw. destruct Hw as (b & -> & N).
        destruct (B b) as (b' & E & C). exists (mulv a (corner x n b')). split; auto. apply in_map, K. exists b'. tauto. }
    split; [tauto|]. destruct P2 as [R2 N2].
    destruct (compute_convex_hull hull (map (mulv a) kept)) as [|k0 kt]; destruct (compute_convex_hull hull (map (mulv a') kept')) as [|k0' kt']; subst zc zc'.
    - tauto.
    - exfalso. destruct N2 as [N2 _]. specialize (N2 eq_refl). discriminate.
    - exfalso. destruct N2 as [_ N2]. specialize (N2 eq_refl). discriminate.
    - auto.
  Qed.
End Core.

(* ------------------------------------------------------------------ projections of equal points *)
Lemma dot_equal r v v' : equal_point v v' -> same_number (dot r v) (dot r v').
Proof.
  intro H. revert r. induction H as [|a b l l' Hab _ IH]; intros [|c r]; simpl; try reflexivity.
  specialize (IH r). destruct c as [c|], a as [a|], b as [b|]; simpl in *; try contradiction; auto.
  destruct (dot r l), (dot r l'); simpl in *; try contradiction; auto. rewrite Hab, IH. reflexivity.
Qed.
Lemma mulv_equal a v v' : equal_point v v' -> equal_point (mulv a v) (mulv a v').
Proof. intro H. unfold mulv, equal_point. induction a; simpl; constructor; auto. apply dot_equal; auto. Qed.
Lemma sign_equal u v u' v' : same_number u u' -> same_number v v' -> (same_sign u v <-> same_sign u' v').
Proof.
  assert (G : forall u v u' v', same_number u u' -> same_number v v' -> same_sign u v -> same_sign u' v').
  { clear. intros u v u' v' E1 E2 (p & q & -> & -> & D). destruct u' as [p'|]; [|contradiction]. destruct v' as [q'|]; [|contradiction].
    simpl in *. exists p', q'. split; auto. split; auto. rewrite <- E1, <- E2. auto. }
  intros E1 E2. split; apply G; auto using number_sym.
Qed.
Lemma project_finite x n a b : complete x n -> (forall r, In r a -> ~ In None r) -> ~ In None (mulv a (corner x n b)).
Proof.
  intros C Ha. destruct (@corner_finite x n b C) as (q & E). rewrite E.
  destruct (@mulv_finite a (map Some q) Ha) as (aq & pq & _ & _ & ->).
  - intro X. apply in_map_iff in X. destruct X as (? & ? & _). discriminate.
  - intro X. apply in_map_iff in X. destruct X as (? & ? & _). discriminate.
Qed.

Lemma contradicts_same pearson x x' n p_val c v v' :
  (forall j k, j < k < n -> pearson (column None x j) (column None x k) = pearson (column None x' j) (column None x' k)) ->
  (forall j k, j < k < n -> (same_sign (nth j v None) (nth k v None) <-> same_sign (nth j v' None) (nth k v' None))) ->
  (contradicts (E := clerr) pearson x n p_val c v <-> contradicts pearson x' n p_val c v').
Proof.
  intros P Sg. unfold contradicts, significant. split; intros (j & k & r & Hjk & (p & Ep & Np) & D); exists j, k, r; (split; [auto|]);
    specialize (P j k Hjk); specialize (Sg j k Hjk); (split; [exists p; split; [congruence|auto]|tauto]).
Qed.
Lemma equal_nth v v' j : equal_point v v' -> same_number (nth j v None) (nth j v' None).
Proof. intro H. revert j. induction H; intros [|j]; simpl; auto. Qed.
Lemma equal_from_nth v v' : length v = length v' -> (forall j, j < length v -> same_number (nth j v None) (nth j v' None)) -> equal_point v v'.
Proof.
  revert v'. induction v as [|a v IH]; intros [|b v'] L H; simpl in L; try lia; [constructor|]. constructor; [exact (H 0 ltac:(simpl; lia))|].
  apply IH; [lia|]. intros j Hj. exact (H (S j) ltac:(simpl; lia)).
Qed.
Lemma combine_columns (x : list (list num)) j k : combine (column None x j) (column None x k) = map (fun r => (nth j r None, nth k r None)) x.
Proof. unfold column. induction x; simpl; auto. f_equal. auto. Qed.

(* ------------------------------------------------------------------ other instances *)
Lemma min_unique l l' m m' : (forall v, In v l <-> In v l') -> is_min l m -> is_min l' m' -> same_number m m'.
Proof.
  intros E (q & -> & I & H) (q' & -> & I' & H'). destruct (H (Some q')) as (w & E1 & L1); [apply E; auto|].
  destruct (H' (Some q)) as (w' & E2 & L2); [apply E; auto|]. injection E1 as <-. injection E2 as <-. simpl. lra.
Qed.
Lemma max_unique l l' m m' : (forall v, In v l <-> In v l') -> is_max l m -> is_max l' m' -> same_number m m'.
Proof.
  intros E (q & -> & I & H) (q' & -> & I' & H'). destruct (H (Some q')) as (w & E1 & L1); [apply E; auto|].
  destruct (H' (Some q)) as (w' & E2 & L2); [apply E; auto|]. injection E1 as <-. injection E2 as <-. simpl. lra.
Qed.
Lemma corner_same_instances x x' n b : complete x n -> complete x' n -> (forall r, In r x <-> In r x') ->
  equal_point (corner x n b) (corner x' n b).
Proof.
  intros C C' E. apply equal_from_nth; [rewrite !corner_length; auto|]. intros j Hj. rewrite corner_length in Hj.
  rewrite !corner_nth by auto. destruct (complete_column C Hj) as [N1 N2]. destruct (complete_column C' Hj) as [N1' N2'].
  assert (G : forall v, In v (column None x j) <-> In v (column None x' j)).
  { intro v. unfold column. rewrite !in_map_iff. split; intros (r & X & Hr); exists r; (split; [auto|apply E; auto]). }
  destruct (b j).
  - eapply max_unique; [exact G| |]; apply col_max_spec; auto.
  - eapply min_unique; [exact G| |]; apply col_min_spec; auto.
Qed.
(** a point whose coordinates lie between the extremes is in the box *)
Lemma point_in_box x n p : complete x n -> length p = n ->
  (forall j, j < n -> exists lo hi, col_min (column None x j) = Some lo /\ col_max (column None x j) = Some hi /\ (lo <= nth j p 0)%Q /\ (nth j p 0 <= hi)%Q) ->
  conv (fun q => exists b, map Some q = corner x n b) p.
Proof.
  intros C L H.
  assert (X : forall f : nat -> num, (forall j, j < n -> f j <> None) -> exists l, length l = n /\ forall j, j < n -> f j = Some (nth j l 0%Q)).
  { intros f Hf. exists (map (fun j => match f j with Some q => q | None => 0%Q end) (seq 0 n)). split; [rewrite map_length, seq_length; auto|].
    intros j Hj. set (g := fun j => match f j with Some q => q | None => 0%Q end).
    rewrite (nth_indep _ 0%Q (g 0)) by (rewrite map_length, seq_length; auto). rewrite (map_nth g), seq_nth by auto. unfold g; cbn [plus].
    specialize (Hf j Hj). destruct (f j); congruence. }
  destruct (X (fun j => col_min (column None x j))) as (lo & Llo & Elo).
  { intros j Hj. destruct (H j Hj) as (l & h & E1 & E2 & _). congruence. }
  destruct (X (fun j => col_max (column None x j))) as (hi & Lhi & Ehi).
  { intros j Hj. destruct (H j Hj) as (l & h & E1 & E2 & _). congruence. }
  assert (B := @box_conv lo hi p ltac:(lia) ltac:(lia)).
  eapply conv_trans; [apply B|].
  - intros j Hj. destruct (H j ltac:(lia)) as (l & h & E1 & E2 & G).
    rewrite Elo in E1 by lia. rewrite Ehi in E2 by lia. injection E1 as <-. injection E2 as <-. auto.
  - intros q (bs & Lb & ->). apply conv_point with (choose bs lo hi); [|apply same_refl]. exists (fun j => nth j bs false).
    apply choose_corner; auto; lia.
Qed.
Lemma corner_in_larger_box x x' n b : complete x n -> complete x' n -> (forall r, In r x -> In r x') ->
  exists p, corner x n b = map Some p /\ conv (fun q => exists b, map Some q = corner x' n b) p.
Proof.
  intros C C' I. destruct (@corner_finite x n b C) as (p & E). exists p. split; auto.
  assert (L : length p = n) by (rewrite <- (corner_length x n b), E, map_length; auto). apply point_in_box; auto.
  intros j Hj. destruct (extremes C' Hj) as (lo & hi & E1 & E2 & _ & A). exists lo, hi. split; auto. split; auto.
  assert (M : In (Some (nth j p 0%Q)) (column None x j)).
  { assert (N : nth j (corner x n b) None = Some (nth j p 0%Q)).
    { rewrite E. rewrite (nth_indep _ None (Some 0%Q)) by (rewrite map_length; lia). apply (map_nth Some). }
    rewrite <- N, corner_nth by auto. destruct (complete_column C Hj) as [N1 N2].
    destruct (b j); [destruct (col_max_spec N1 N2) as (q & _ & G & _)|destruct (col_min_spec N1 N2) as (q & _ & G & _)]; auto. }
  unfold column in M. apply in_map_iff in M. destruct M as (r & Er & Hr). apply (A r); auto.
Qed.

(* ------------------------------------------------------------------ other order of the features *)
Lemma order_nth s row j : j < length s -> nth j (in_order s row) None = nth (nth j s 0) row None.
Proof.
  intro H. unfold in_order. rewrite (nth_indep _ None ((fun j => nth j row None) 0)) by (rewrite map_length; auto).
  rewrite (map_nth (fun j => nth j row None)). auto.
Qed.
Lemma order_column s x j : j < length s -> column None (map (in_order s) x) j = column None x (nth j s 0).
Proof. intro H. unfold column. rewrite map_map. apply map_ext. intro row. apply order_nth; auto. Qed.
Lemma order_complete s x n : Permutation s (seq 0 n) -> complete x n -> complete (map (in_order s) x) n.
Proof.
  intros P [N H]. split; [destruct x; [congruence|discriminate]|]. intros row Hr. apply in_map_iff in Hr. destruct Hr as (r & <- & Hr).
  destruct (H r Hr) as [L F]. split; [unfold in_order; rewrite map_length, (Permutation_length P), seq_length; auto|].
  intro X. unfold in_order in X. apply in_map_iff in X. destruct X as (j & E & Hj). apply (Permutation_in _ P), in_seq in Hj.
  apply F. rewrite <- E. apply nth_In. unfold num in *. lia.
Qed.
Lemma order_corner s x n b : Permutation s (seq 0 n) -> corner (map (in_order s) x) n (fun j => b (nth j s 0)) = in_order s (corner x n b).
Proof.
  intro P. assert (L : length s = n) by (rewrite (Permutation_length P), seq_length; auto).
  apply (@list_eq_nth _ None); [unfold in_order; rewrite corner_length, map_length; auto|]. rewrite corner_length. intros j Hj.
  assert (Hs : nth j s 0 < n). { assert (I : In (nth j s 0) s) by (apply nth_In; lia). apply (Permutation_in _ P), in_seq in I. lia. }
  rewrite order_nth by lia. rewrite !corner_nth by auto. rewrite order_column by lia. auto.
Qed.
Definition nprod (p : num * num) : num := nmul (fst p) (snd p).
Lemma dot_combine u v : dot u v = nsum (map nprod (combine u v)).
Proof. revert v. induction u as [|a u IH]; intros [|b v]; simpl; auto. rewrite IH. auto. Qed.
Lemma nadd_same a b a' b' : same_number a a' -> same_number b b' -> same_number (nadd a b) (nadd a' b').
Proof. destruct a, b, a', b'; simpl; intros E1 E2; try contradiction; auto. rewrite E1, E2. reflexivity. Qed.
Lemma number_trans a b c : same_number a b -> same_number b c -> same_number a c.
Proof. destruct a, b, c; simpl; intros E1 E2; try contradiction; auto. rewrite E1; auto. Qed.
Lemma nsum_perm l l' : Permutation l l' -> same_number (nsum l) (nsum l').
Proof.
  unfold nsum. induction 1 as [|a l l' _ IH|a b l|l1 l2 l3 _ IH1 _ IH2]; simpl.
  - reflexivity.
  - apply nadd_same; [apply number_refl|auto].
  - destruct a, b, (fold_right nadd (Some 0%Q) l); simpl; auto. ring.
  - eapply number_trans; eauto.
Qed.
Lemma combine_nth_map (u v : list num) n : length u = n -> length v = n -> combine u v = map (fun j => (nth j u None, nth j v None)) (seq 0 n).
Proof.
  revert v n. induction u as [|a u IH]; intros [|b v] [|n] L1 L2; simpl in *; try lia; auto. f_equal. rewrite <- seq_shift, map_map. apply IH; lia.
Qed.
Lemma order_dot s u v n : Permutation s (seq 0 n) -> length u = n -> length v = n -> same_number (dot (in_order s u) (in_order s v)) (dot u v).
Proof.
  intros P L1 L2. rewrite !dot_combine. apply nsum_perm. apply Permutation_map. rewrite (combine_nth_map u v L1 L2).
  replace (combine (in_order s u) (in_order s v)) with (map (fun j => (nth j u None, nth j v None)) s).
  - apply Permutation_map; auto.
  - unfold in_order. clear. induction s; simpl; auto. f_equal. auto.
Qed.
Lemma order_mulv s a v n : Permutation s (seq 0 n) -> (forall r, In r a -> length r = n) -> length v = n ->
  equal_point (mulv (map (in_order s) a) (in_order s v)) (mulv a v).
Proof.
  intros P Ha L. unfold mulv, equal_point. rewrite map_map. induction a as [|r a IH]; simpl; constructor.
  - apply order_dot with n; auto. apply Ha; left; auto.
  - apply IH. intros; apply Ha; right; auto.
Qed.
(** where a column went *)
Fixpoint place (s : list nat) (j : nat) : nat := match s with [] => 0 | i :: t => if Nat.eqb i j then 0 else S (place t j) end.
Lemma place_nth s j : In j s -> place s j < length s /\ nth (place s j) s 0 = j.
Proof.
  induction s as [|i s IH]; simpl; [tauto|]. intro H. destruct (Nat.eqb_spec i j); [split; [lia|auto]|]. destruct H as [|H]; [congruence|].
  destruct (IH H). split; [lia|auto].
Qed.
Lemma nth_place s i : NoDup s -> i < length s -> place s (nth i s 0) = i.
Proof.
  intros D L. destruct (place_nth s (nth i s 0) (nth_In s 0 L)) as [B E]. apply (proj1 (NoDup_nth s 0) D); auto.
Qed.
Lemma same_sign_sym u v : same_sign u v <-> same_sign v u.
Proof. unfold same_sign. split; intros (p & q & E1 & E2 & D); exists q, p; tauto. Qed.
Lemma contradicts_unordered pearson x n p_val c v : symmetric pearson ->
  (contradicts (E := clerr) pearson x n p_val c v <->
   exists j k r, j < n /\ k < n /\ j <> k /\ significant pearson x p_val j k r /\
    (((c < r)%Q /\ ~ same_sign (nth j v None) (nth k v None)) \/ ((r < - c)%Q /\ same_sign (nth j v None) (nth k v None)))).
Proof.
  intro Sy. unfold contradicts. split.
  - intros (j & k & r & H & G). exists j, k, r. repeat (split; [lia|]). auto.
  - intros (j & k & r & Hj & Hk & N & G & D). destruct (Nat.lt_ge_cases j k).
    + exists j, k, r. split; [lia|]. auto.
    + exists k, j, r. split; [lia|]. split.
      * destruct G as (p & Ep & Np). exists p. rewrite Sy. auto.
      * rewrite same_sign_sym. auto.
Qed.
Lemma order_contradicts pearson s x n p_val c v : Permutation s (seq 0 n) -> symmetric pearson -> length v = n ->
  (contradicts (E := clerr) pearson (map (in_order s) x) n p_val c (in_order s v) <-> contradicts pearson x n p_val c v).
Proof.
  intros P Sy L. rewrite !contradicts_unordered by auto.
  assert (Ls : length s = n) by (rewrite (Permutation_length P), seq_length; auto).
  assert (Ds : NoDup s) by (eapply Permutation_NoDup; [apply Permutation_sym; exact P|apply seq_NoDup]).
  assert (Hs : forall j, j < n -> nth j s 0 < n). { intros j Hj. assert (I : In (nth j s 0) s) by (apply nth_In; lia). apply (Permutation_in _ P), in_seq in I. lia. }
  split; intros (j & k & r & Hj & Hk & N & (p & Ep & Np) & D).
  - exists (nth j s 0), (nth k s 0), r. split; auto. split; auto. split; [|split].
    + intro X. apply N. apply (proj1 (NoDup_nth s 0) Ds); auto; lia.
    + exists p. rewrite !order_column in Ep by lia. auto.
    + rewrite !order_nth in D by lia. auto.
  - assert (Ij : In j s) by (apply (Permutation_in _ (Permutation_sym P)), in_seq; lia).
    assert (Ik : In k s) by (apply (Permutation_in _ (Permutation_sym P)), in_seq; lia).
    destruct (place_nth s j Ij) as [Bj Ej]. destruct (place_nth s k Ik) as [Bk Ek].
    exists (place s j), (place s k), r. split; [lia|]. split; [lia|]. split; [congruence|]. split.
    + exists p. rewrite !order_column by lia. rewrite Ej, Ek. auto.
    + rewrite !order_nth by lia. rewrite Ej, Ek. auto.
Qed.

(* ------------------------------------------------------------------ other units *)
Lemma units_length c row : length c = length row -> length (in_units c row) = length row.
Proof. intro L. unfold in_units. rewrite map_length, combine_length. unfold num in *. lia. Qed.
Lemma units_nth c row j : length c = length row -> nth j (in_units c row) None = option_map (Qmult (nth j c 0%Q)) (nth j row None).
Proof.
  unfold in_units. revert c j. induction row as [|v row IH]; intros [|k c] j L; simpl in L; try lia; destruct j as [|j]; auto.
  simpl. apply IH. lia.
Qed.
Lemma units_column c x n j : complete x n -> length c = n ->
  column None (map (in_units c) x) j = map (option_map (Qmult (nth j c 0%Q))) (column None x j).
Proof.
  intros [_ H] L. unfold column. rewrite !map_map. apply map_ext_in. intros row Hr. apply units_nth. destruct (H row Hr). unfold num in *. lia.
Qed.
Lemma units_complete c x n : complete x n -> length c = n -> complete (map (in_units c) x) n.
Proof.
  intros [N H] L. split; [destruct x; [congruence|discriminate]|]. intros row Hr. apply in_map_iff in Hr. destruct Hr as (r & <- & Hr).
  destruct (H r Hr) as [Lr F]. unfold num in *. split; [rewrite units_length; unfold num in *; lia|].
  intro X. unfold in_units in X. apply in_map_iff in X. destruct X as ([v k] & E & I). destruct v; [discriminate|].
  apply in_combine_l in I. auto.
Qed.
Lemma scale_min k l : (0 < k)%Q -> ~ In None l -> l <> [] -> same_number (col_min (map (option_map (Qmult k)) l)) (option_map (Qmult k) (col_min l)).
Proof.
  intros Hk F N. assert (M := col_min_spec N F). assert (M' : is_min (map (option_map (Qmult k)) l) (col_min (map (option_map (Qmult k)) l))).
  { apply col_min_spec; [destruct l; [congruence|discriminate]|]. intro X. apply in_map_iff in X. destruct X as ([v|] & E & I); [discriminate|auto]. }
  destruct M as (q & Eq & I & H). destruct M' as (q' & Eq' & I' & H'). rewrite Eq, Eq'. simpl.
  apply in_map_iff in I'. destruct I' as (v & Ev & Iv). destruct (H v Iv) as (w & -> & Lw). simpl in Ev.
  assert (Z : q' = (k * w)%Q) by congruence. destruct (H' (Some (k * q)%Q)) as (w' & Ew' & Lw').
  { apply in_map_iff. exists (col_min l). rewrite Eq. split; auto. rewrite <- Eq. auto. }
  injection Ew' as <-. rewrite Z in *. assert (w <= q)%Q by (apply Qmult_le_l with k; auto). assert (w == q)%Q by lra. rewrite H1. reflexivity.
Qed.
Lemma scale_max k l : (0 < k)%Q -> ~ In None l -> l <> [] -> same_number (col_max (map (option_map (Qmult k)) l)) (option_map (Qmult k) (col_max l)).
Proof.
  intros Hk F N. assert (M := col_max_spec N F). assert (M' : is_max (map (option_map (Qmult k)) l) (col_max (map (option_map (Qmult k)) l))).
  { apply col_max_spec; [destruct l; [congruence|discriminate]|]. intro X. apply in_map_iff in X. destruct X as ([v|] & E & I); [discriminate|auto]. }
  destruct M as (q & Eq & I & H). destruct M' as (q' & Eq' & I' & H'). rewrite Eq, Eq'. simpl.
  apply in_map_iff in I'. destruct I' as (v & Ev & Iv). destruct (H v Iv) as (w & -> & Lw). simpl in Ev.
  assert (Z : q' = (k * w)%Q) by congruence. destruct (H' (Some (k * q)%Q)) as (w' & Ew' & Lw').
  { apply in_map_iff. exists (col_max l). rewrite Eq. split; auto. rewrite <- Eq. auto. }
  injection Ew' as <-. rewrite Z in *. assert (q <= w)%Q by (apply Qmult_le_l with k; auto). assert (w == q)%Q by lra. rewrite H1. reflexivity.
Qed.
Lemma units_corner c x n b : complete x n -> length c = n -> (forall k, In k c -> (0 < k)%Q) ->
  equal_point (corner (map (in_units c) x) n b) (in_units c (corner x n b)).
Proof.
  intros C L P. assert (Lc : length c = length (corner x n b)) by (rewrite corner_length; auto).
  apply equal_from_nth; [rewrite units_length, !corner_length; auto|]. rewrite corner_length. intros j Hj.
  rewrite units_nth, !corner_nth by auto. rewrite (@units_column c x n) by auto. destruct (complete_column C Hj) as [N F].
  assert (0 < nth j c 0)%Q by (apply P, nth_In; lia).
  destruct (b j); [apply scale_max|apply scale_min]; auto.
Qed.
Lemma units_dot c r r' v : length c = length v -> equal_point (in_units c r') r -> same_number (dot r' (in_units c v)) (dot r v).
Proof.
  unfold in_units. revert r r' c. induction v as [|w v IH]; intros r r' [|k c] L E; simpl in L; try lia.
  - simpl. destruct r' as [|a' r'], r as [|a r]; simpl; reflexivity.
  - destruct r' as [|a' r']; simpl in E; inversion E as [|? a ? l E1 E2 E3 E4]; subst; simpl; [reflexivity|].
    apply nadd_same; [|apply IH; auto; lia]. destruct a' as [a'|], a as [a|], w as [w|]; simpl in *; try contradiction; auto. rewrite <- E1. ring.
Qed.
Lemma units_mulv c a a' v : length c = length v -> Forall2 (fun r r' => equal_point (in_units c r') r) a a' ->
  equal_point (mulv a' (in_units c v)) (mulv a v).
Proof. intros L H. unfold mulv. induction H as [|r r' a a' E _ IH]; simpl; constructor; auto. apply units_dot; auto. Qed.
Lemma units_sign k l u v : (0 < k)%Q -> (0 < l)%Q -> (same_sign (option_map (Qmult k) u) (option_map (Qmult l) v) <-> same_sign u v).
Proof.
  intros Hk Hl. destruct u as [p|]; [|split; intros (? & ? & E & _); discriminate]. destruct v as [q|]; [|split; intros (? & ? & _ & E & _); discriminate].
  assert (Pos : forall k p : Q, (0 < k)%Q -> (0 < k * p <-> 0 < p)%Q).
  { clear. intros k p Hk. split; intro H; [|apply Qmult_lt_0_compat; auto]. apply Qmult_lt_l with k; auto. lra. }
  assert (Neg : forall k p : Q, (0 < k)%Q -> (k * p < 0 <-> p < 0)%Q).
  { clear. intros k p Hk. split; intro H; [apply Qmult_lt_l with k; auto; lra|]. setoid_replace 0%Q with (k * 0)%Q by ring. apply Qmult_lt_l; auto. }
  assert (Zer : forall k p : Q, (0 < k)%Q -> (k * p == 0 <-> p == 0)%Q).
  { clear. intros k p Hk. split; intro H; [|rewrite H; ring]. apply Qmult_integral in H. destruct H; auto. lra. }
  split; intros (p' & q' & E1 & E2 & D); injection E1 as <-; injection E2 as <-.
  - exists p, q. rewrite !Pos, !Neg, !Zer in D by auto. auto.
  - exists (k * p)%Q, (l * q)%Q. rewrite !Pos, !Neg, !Zer by auto. auto.
Qed.

(* ------------------------------------------------------------------ other zero points *)
Lemma shifted_length d row : length d = length row -> length (shifted d row) = length row.
Proof. intro L. unfold shifted. rewrite map_length, combine_length. unfold num in *. lia. Qed.
Lemma shifted_nth d row j : length d = length row -> nth j (shifted d row) None = option_map (Qplus (nth j d 0%Q)) (nth j row None).
Proof.
  unfold shifted. revert d j. induction row as [|v row IH]; intros [|k d] j L; simpl in L; try lia; destruct j as [|j]; auto.
  simpl. apply IH. lia.
Qed.
Lemma shifted_column d x n j : complete x n -> length d = n ->
  column None (map (shifted d) x) j = map (option_map (Qplus (nth j d 0%Q))) (column None x j).
Proof.
  intros [_ H] L. unfold column. rewrite !map_map. apply map_ext_in. intros row Hr. apply shifted_nth. destruct (H row Hr). unfold num in *. lia.
Qed.
Lemma shifted_complete d x n : complete x n -> length d = n -> complete (map (shifted d) x) n.
Proof.
  intros [N H] L. split; [destruct x; [congruence|discriminate]|]. intros row Hr. apply in_map_iff in Hr. destruct Hr as (r & <- & Hr).
  destruct (H r Hr) as [Lr F]. unfold num in *. split; [rewrite shifted_length; unfold num in *; lia|].
  intro X. unfold shifted in X. apply in_map_iff in X. destruct X as ([v k] & E & I). destruct v; [discriminate|].
  apply in_combine_l in I. auto.
Qed.
Lemma shift_min k l : ~ In None l -> l <> [] -> same_number (col_min (map (option_map (Qplus k)) l)) (option_map (Qplus k) (col_min l)).
Proof.
  intros F N. assert (M := col_min_spec N F). assert (M' : is_min (map (option_map (Qplus k)) l) (col_min (map (option_map (Qplus k)) l))).
  { apply col_min_spec; [destruct l; [congruence|discriminate]|]. intro X. apply in_map_iff in X. destruct X as ([v|] & E & I); [discriminate|auto]. }
  destruct M as (q & Eq & I & H). destruct M' as (q' & Eq' & I' & H'). rewrite Eq, Eq'. simpl.
  apply in_map_iff in I'. destruct I' as (v & Ev & Iv). destruct (H v Iv) as (w & -> & Lw). simpl in Ev.
  assert (Z : q' = (k + w)%Q) by congruence. destruct (H' (Some (k + q)%Q)) as (w' & Ew' & Lw').
  { apply in_map_iff. exists (col_min l). rewrite Eq. split; auto. rewrite <- Eq. auto. }
  injection Ew' as <-. rewrite Z in *. lra.
Qed.
Lemma shift_max k l : ~ In None l -> l <> [] -> same_number (col_max (map (option_map (Qplus k)) l)) (option_map (Qplus k) (col_max l)).
Proof.
  intros F N. assert (M := col_max_spec N F). assert (M' : is_max (map (option_map (Qplus k)) l) (col_max (map (option_map (Qplus k)) l))).
  { apply col_max_spec; [destruct l; [congruence|discriminate]|]. intro X. apply in_map_iff in X. destruct X as ([v|] & E & I); [discriminate|auto]. }
  destruct M as (q & Eq & I & H). destruct M' as (q' & Eq' & I' & H'). rewrite Eq, Eq'. simpl.
  apply in_map_iff in I'. destruct I' as (v & Ev & Iv). destruct (H v Iv) as (w & -> & Lw). simpl in Ev.
  assert (Z : q' = (k + w)%Q) by congruence. destruct (H' (Some (k + q)%Q)) as (w' & Ew' & Lw').
  { apply in_map_iff. exists (col_max l). rewrite Eq. split; auto. rewrite <- Eq. auto. }
  injection Ew' as <-. rewrite Z in *. lra.
Qed.
Lemma shifted_corner d x n b : complete x n -> length d = n ->
  equal_point (corner (map (shifted d) x) n b) (shifted d (corner x n b)).
Proof.
  intros C L. assert (Lc : length d = length (corner x n b)) by (rewrite corner_length; auto).
  apply equal_from_nth; [rewrite shifted_length, !corner_length; auto|]. rewrite corner_length. intros j Hj.
  rewrite shifted_nth, !corner_nth by auto. rewrite (@shifted_column d x n) by auto. destruct (complete_column C Hj) as [N F].
  destruct (b j); [apply shift_max|apply shift_min]; auto.
Qed.
Lemma shifted_some d p : length d = length p -> shifted d (map Some p) = map Some (moved d p).
Proof. unfold shifted. revert d. induction p as [|v p IH]; intros [|k d] L; simpl in *; try lia; auto. f_equal. apply IH. lia. Qed.
Lemma qdot_moved r d p : length d = length p -> (qdot r (moved d p) == qdot r d + qdot r p)%Q.
Proof. revert r d. induction p as [|v p IH]; intros [|a r] [|k d] L; simpl in *; try lia; try reflexivity. rewrite IH by lia. ring. Qed.
Lemma qproj_moved a d p : length d = length p -> same_point (qproj a (moved d p)) (moved (qproj a d) (qproj a p)).
Proof. intro L. unfold qproj, same_point. induction a; simpl; constructor; auto. apply qdot_moved; auto. Qed.
Lemma moved_same w p q : same_point p q -> same_point (moved w p) (moved w q).
Proof. intro H. revert w. induction H; intros [|a w]; simpl; constructor; auto; [rewrite H; reflexivity|apply IHForall2]. Qed.
Lemma moved_mix w t a b : length a = length b -> same_point (moved w (mix t a b)) (mix t (moved w a) (moved w b)).
Proof. revert w b. induction a as [|u a IH]; intros [|k w] [|v b] L; simpl in *; try lia; constructor; [ring|apply IH; lia]. Qed.
Lemma moved_length w p : length (moved w p) = Nat.min (length w) (length p).
Proof. revert p. induction w; intros [|b p]; simpl; auto. Qed.
