(** Lemmas for the uniformity. *)
From Coq Require Import Reals Qreals Lra Lia List Bool Arith.
From Verif Require Import Base BaseLemmas Num FilterModel FilterSpec FilterProofs PythiaZModel UniModel UniSpec.
Import ListNotations.
Set Implicit Arguments.
Open Scope R_scope.
Open Scope list_scope.

Lemma all_present_some u : all_present (map Some u) = Some u.
Proof. induction u; simpl; auto. rewrite IHu. auto. Qed.
Lemma all_present_none l : all_present l = None <-> In None l.
Proof.
  induction l as [|[v|] l IH]; simpl; [split; [discriminate|tauto]| |tauto].
  destruct (all_present l); simpl.
  - split; [discriminate|]. intros [H|H]; [discriminate|]. apply IH in H. discriminate.
  - split; auto. intros _. right. apply IH. auto.
Qed.
Lemma all_present_inv l ds : all_present l = Some ds -> l = map Some ds.
Proof.
  revert ds. induction l as [|[v|] l IH]; simpl; intros ds H; try discriminate.
  - injection H as <-. auto.
  - destruct (all_present l) as [r|]; simpl in H; [|discriminate]. injection H as <-. simpl.
    rewrite (IH r) by auto. auto.
Qed.
Lemma sum_sq_combine u v :
  rsum (map (fun p => (fst p - snd p) * (fst p - snd p)) (combine u v)) = sum_sq u v.
Proof. revert v. induction u as [|a u IH]; intros [|b v]; simpl; auto. rewrite IH. auto. Qed.
Lemma sum_sq_sym u v : sum_sq u v = sum_sq v u.
Proof. revert v. induction u as [|a u IH]; intros [|b v]; simpl; auto. rewrite IH. ring. Qed.
Lemma sum_sq_nonneg u v : 0 <= sum_sq u v.
Proof.
  revert v. induction u as [|a u IH]; intros [|b v]; simpl; try lra.
  specialize (IH v). pose proof (Rle_0_sqr (a - b)) as H. unfold Rsqr in H. lra.
Qed.
Lemma euclid_sym u v : euclid u v = euclid v u.
Proof. unfold euclid. rewrite sum_sq_sym. auto. Qed.
Lemma euclid_nonneg u v : 0 <= euclid u v.
Proof. apply sqrt_pos. Qed.
Lemma dist_some u v : dist (map Some u) (map Some v) = Some (euclid u v).
Proof. unfold dist. rewrite !all_present_some. unfold euclid. rewrite sum_sq_combine. auto. Qed.
Lemma dist_nan u v : In None u \/ In None v -> dist u v = None.
Proof.
  unfold dist. intros [H|H]; apply all_present_none in H; rewrite H; auto. destruct (all_present u); auto.
Qed.

Lemma nanmin_none l : nanmin l = None <-> forall v, In v l -> v = None.
Proof.
  induction l as [|[a|] l IH]; simpl.
  - split; auto. intros _ v [].
  - destruct (nanmin l); (split; [discriminate|]); intros H; specialize (H (Some a) (or_introl eq_refl)); discriminate.
  - rewrite IH. split; intros H v; [intros [<-|I]; auto|auto].
Qed.
Lemma nanmin_some l d : nanmin l = Some d -> In (Some d) l /\ forall e, In (Some e) l -> d <= e.
Proof.
  revert d. induction l as [|[a|] l IH]; simpl; intros d H; [discriminate| |].
  - destruct (nanmin l) as [w|] eqn:E.
    + injection H as <-. destruct (IH w eq_refl) as [I L]. split.
      * destruct (Rle_dec a w); [rewrite Rmin_left by auto; auto|rewrite Rmin_right by lra; auto].
      * intros e [He|He]; [injection He as ->; apply Rmin_l|].
        eapply Rle_trans; [apply Rmin_r|]. auto.
    + injection H as <-. split; auto. intros e [He|He]; [injection He as ->; lra|].
      apply nanmin_none with (v := Some e) in E; auto. discriminate.
  - destruct (IH d H) as [I L]. split; auto. intros e [He|He]; [discriminate|auto].
Qed.

Definition pts_of (ps : list (list R)) : list (list rnum) := map (map Some) ps.
Lemma nth_pts ps j : (j < length ps)%nat -> nth j (pts_of ps) [] = map Some (nth j ps []).
Proof. intros H. unfold pts_of. rewrite (nth_indep _ [] (map Some [])) by (rewrite map_length; auto). apply map_nth. Qed.
Lemma nearest_entry ps i v : (i < length ps)%nat ->
  In v (map (fun j => if Nat.eqb j i then None else dist (nth j (pts_of ps) []) (nth i (pts_of ps) []))
            (seq 0 (length (pts_of ps)))) ->
  exists j, (j < length ps)%nat /\
    ((j = i /\ v = None) \/ (j <> i /\ v = Some (euclid (nth i ps []) (nth j ps [])))).
Proof.
  intros Hi H. apply in_map_iff in H. destruct H as (j & E & I). apply in_seq in I.
  unfold pts_of in I. rewrite map_length in I. exists j. split; [lia|].
  destruct (Nat.eqb_spec j i); [left; auto|right]. split; auto.
  rewrite <- E, !nth_pts by lia. rewrite dist_some, euclid_sym. auto.
Qed.
Lemma nearest_in ps i j : (i < length ps)%nat -> (j < length ps)%nat -> j <> i ->
  In (Some (euclid (nth i ps []) (nth j ps [])))
     (map (fun j => if Nat.eqb j i then None else dist (nth j (pts_of ps) []) (nth i (pts_of ps) []))
            (seq 0 (length (pts_of ps)))).
Proof.
  intros Hi Hj N. apply in_map_iff. exists j. split.
  - destruct (Nat.eqb_spec j i); [contradiction|]. rewrite !nth_pts, dist_some, euclid_sym by auto. auto.
  - apply in_seq. unfold pts_of. rewrite map_length. lia.
Qed.
Lemma nearest_spec ps i : (2 <= length ps)%nat -> (i < length ps)%nat ->
  exists d, nearest (pts_of ps) i = Some d /\ nearest_other ps i d.
Proof.
  intros Hn Hi. unfold nearest.
  destruct (nanmin _) as [d|] eqn:E.
  - exists d. split; auto. apply nanmin_some in E. destruct E as [I L].
    split.
    + destruct (nearest_entry _ _ Hi I) as (j & Hj & [[_ X]|[N X]]); [discriminate|].
      exists j. injection X as X. auto.
    + intros j Hj N. apply L. apply nearest_in; auto.
  - exfalso. assert (exists j, (j < length ps)%nat /\ j <> i) as (j & Hj & N).
    { destruct (Nat.eq_dec i 0); [exists 1%nat|exists 0%nat]; lia. }
    pose proof (proj1 (nanmin_none _) E _ (nearest_in _ Hi Hj N)). discriminate.
Qed.
Lemma nearest_other_unique ps i d d' : nearest_other ps i d -> nearest_other ps i d' -> d = d'.
Proof.
  intros [(j & Hj & N & <-) L] [(j' & Hj' & N' & <-) L'].
  apply Rle_antisym; [apply L|apply L']; auto.
Qed.
Lemma nearest_list ps : (2 <= length ps)%nat ->
  exists ds, length ds = length ps /\
    all_present (map (nearest (pts_of ps)) (seq 0 (length (pts_of ps)))) = Some ds /\
    forall i, (i < length ps)%nat -> nearest_other ps i (nth i ds 0).
Proof.
  intros Hn.
  destruct (all_present (map (nearest (pts_of ps)) (seq 0 (length (pts_of ps))))) as [ds|] eqn:E.
  - exists ds. assert (E2 := all_present_inv _ E). assert (length ds = length ps) as Hl.
    { apply (f_equal (@length _)) in E2. rewrite !map_length, seq_length in E2. unfold pts_of in E2. rewrite map_length in E2. auto. }
    split; auto. split; auto. intros i Hi.
    destruct (nearest_spec ps Hn Hi) as (d & Ed & Sd).
    assert (Some (nth i ds 0) = Some d) as X.
    { rewrite <- Ed. rewrite <- (map_nth Some), <- E2.
      rewrite (nth_indep _ _ (nearest (pts_of ps) 0)) by (rewrite map_length, seq_length; unfold pts_of; rewrite map_length; auto).
      rewrite map_nth, seq_nth by (unfold pts_of; rewrite map_length; auto). auto. }
    injection X as ->. auto.
  - exfalso. apply all_present_none in E. apply in_map_iff in E. destruct E as (i & E & I).
    apply in_seq in I. unfold pts_of in I. rewrite map_length in I.
    destruct (@nearest_spec ps i) as (d & Ed & _); [auto|lia|]. congruence.
Qed.

(** sums *)
Lemma rsum_nonneg l : (forall v, In v l -> 0 <= v) -> 0 <= rsum l.
Proof. induction l; simpl; intros H; [lra|]. assert (0 <= a) by auto. assert (0 <= rsum l) by auto. lra. Qed.
Lemma rsum_zero l : (forall v, In v l -> 0 <= v) -> rsum l = 0 -> forall v, In v l -> v = 0.
Proof.
  induction l as [|a l IH]; simpl; intros H E v []; subst.
  - assert (0 <= v) by auto. assert (0 <= rsum l) by (apply rsum_nonneg; auto). lra.
  - apply IH; auto. assert (0 <= a) by auto. assert (0 <= rsum l) by (apply rsum_nonneg; auto). lra.
Qed.
Lemma rsum_const l c : (forall v, In v l -> v = c) -> rsum l = INR (length l) * c.
Proof.
  induction l as [|a l IH]; intros H; [simpl; ring|].
  change (rsum (a :: l)) with (a + rsum l). change (length (a :: l)) with (S (length l)).
  rewrite S_INR, IH by (intros; apply H; simpl; auto). rewrite (H a) by (simpl; auto). ring.
Qed.
Lemma rsum_dev l m : rsum (map (fun v => (v - m) * (v - m)) l) =
  rsum (map (fun v => v * v) l) - 2 * m * rsum l + INR (length l) * (m * m).
Proof.
  induction l as [|a l IH]; [simpl; ring|].
  change (length (a :: l)) with (S (length l)). rewrite S_INR.
  cbn [map]. change (rsum (?a :: ?l)) with (a + rsum l). simpl rsum. rewrite IH. ring.
Qed.
Lemma rsum_sq_le l : (forall v, In v l -> 0 <= v) -> rsum (map (fun v => v * v) l) <= rsum l * rsum l.
Proof.
  induction l as [|a l IH]; simpl; intros H; [lra|].
  assert (0 <= a) by auto. assert (0 <= rsum l) by (apply rsum_nonneg; auto).
  assert (0 <= a * rsum l) by (apply Rmult_le_pos; auto).
  assert (I := IH (fun v X => H v (or_intror X))).
  change (fold_right Rplus 0 l) with (rsum l).
  change (fold_right Rplus 0 (map (fun v => v * v) l)) with (rsum (map (fun v => v * v) l)).
  replace ((a + rsum l) * (a + rsum l)) with (a * a + 2 * (a * rsum l) + rsum l * rsum l) by ring. lra.
Qed.

Section Dev.
  Variable ds : list R.
  Hypothesis Hn : (2 <= length ds)%nat.
  Hypothesis Hp : forall v, In v ds -> 0 <= v.
  Let n := INR (length ds).
  Lemma n_ge : 2 <= n.
  Proof. unfold n. apply (le_INR 2). auto. Qed.
  Lemma rsum_mean : rsum ds = n * mean ds.
  Proof. pose proof n_ge. unfold mean. fold n. field. lra. Qed.
  Lemma mean_nonneg : 0 <= mean ds.
  Proof.
    pose proof n_ge. pose proof rsum_mean as E. pose proof (rsum_nonneg _ Hp) as P. rewrite E in P.
    destruct (Rle_or_lt 0 (mean ds)); auto. exfalso.
    assert (n * mean ds < n * 0) by (apply Rmult_lt_compat_l; lra). lra.
  Qed.
  Lemma mean_zero : mean ds = 0 <-> forall v, In v ds -> v = 0.
  Proof.
    split; intros H.
    - apply rsum_zero; auto. rewrite rsum_mean, H. ring.
    - pose proof n_ge. unfold mean. rewrite (rsum_const ds H). fold n. field. lra.
  Qed.
  Lemma dev_nonneg : 0 <= rsum (map (fun v => (v - mean ds) * (v - mean ds)) ds).
  Proof. apply rsum_nonneg. intros v I. apply in_map_iff in I. destruct I as (w & <- & _). apply (Rle_0_sqr (w - mean ds)). Qed.
  Lemma std1_zero : std1 ds = 0 <-> forall v, In v ds -> v = mean ds.
  Proof.
    pose proof n_ge. unfold std1. fold n. split; intros H0.
    - apply sqrt_eq_0 in H0.
      + assert (E : rsum (map (fun v => (v - mean ds) * (v - mean ds)) ds) = 0).
        { apply (Rmult_eq_compat_r (n - 1)) in H0. unfold Rdiv in H0. rewrite Rmult_assoc, Rinv_l in H0; lra. }
        intros v I. assert (Z : (v - mean ds) * (v - mean ds) = 0).
        { apply (@rsum_zero (map (fun v => (v - mean ds) * (v - mean ds)) ds)).
          - intros w J. apply in_map_iff in J. destruct J as (z & <- & _). apply (Rle_0_sqr (z - mean ds)).
          - auto.
          - apply in_map_iff. eauto. }
        apply Rsqr_0_uniq in Z. lra.
      + apply Rmult_le_pos; [apply dev_nonneg|]. apply Rlt_le, Rinv_0_lt_compat. lra.
    - rewrite (rsum_const _ (c := 0)).
      + replace (INR (length (map (fun v => (v - mean ds) * (v - mean ds)) ds)) * 0 / (n - 1)) with 0 by (field; lra).
        apply sqrt_0.
      + intros v I. apply in_map_iff in I. destruct I as (w & <- & J). rewrite (H0 w J). ring.
  Qed.
  Lemma std1_le : std1 ds <= sqrt n * mean ds.
  Proof.
    pose proof n_ge. pose proof mean_nonneg as M.
    replace (sqrt n * mean ds) with (sqrt (n * (mean ds * mean ds))).
    2:{ rewrite sqrt_mult by (try lra; apply Rmult_le_pos; auto). rewrite sqrt_square by auto. auto. }
    unfold std1. apply sqrt_le_1_alt. fold n.
    apply Rmult_le_reg_r with (n - 1); [lra|]. unfold Rdiv. rewrite Rmult_assoc, Rinv_l by lra.
    rewrite rsum_dev, rsum_mean. fold n. pose proof (rsum_sq_le ds Hp) as S. rewrite rsum_mean in S.
    replace (n * (mean ds * mean ds) * (n - 1)) with (n * mean ds * (n * mean ds) - n * (mean ds * mean ds)) by ring.
    replace (2 * mean ds * (n * mean ds)) with (2 * (n * (mean ds * mean ds))) by ring. lra.
  Qed.
End Dev.

Lemma average_mean l : average l = mean l.
Proof. reflexivity. Qed.
Lemma deviation_std1 l : deviation l = std1 l.
Proof.
  unfold deviation, std1. f_equal. f_equal. change average with mean. change total with rsum. f_equal.
  apply map_ext. intros v. ring.
Qed.

Lemma moved_sum_sq c t : forall u v, length u = length t -> length v = length t ->
  sum_sq (moved c t u) (moved c t v) = c * c * sum_sq u v.
Proof.
  unfold moved. induction t as [|s t IH]; intros [|a u] [|b v] Hu Hv; simpl in *; try discriminate; try ring.
  rewrite IH by lia. ring.
Qed.
Lemma moved_euclid c t u v : length u = length t -> length v = length t ->
  euclid (moved c t u) (moved c t v) = Rabs c * euclid u v.
Proof.
  intros Hu Hv. unfold euclid. rewrite moved_sum_sq by auto.
  rewrite sqrt_mult by (try apply sum_sq_nonneg; apply (Rle_0_sqr c)). f_equal. apply sqrt_Rsqr_abs.
Qed.
Lemma moved_nearest c t ps i d : Forall (fun p => length p = length t) ps -> (i < length ps)%nat ->
  nearest_other ps i d -> nearest_other (map (moved c t) ps) i (Rabs c * d).
Proof.
  intros W Hi [(j & Hj & N & E) L].
  assert (X : forall j, (j < length ps)%nat ->
     euclid (nth i (map (moved c t) ps) []) (nth j (map (moved c t) ps) []) = Rabs c * euclid (nth i ps []) (nth j ps [])).
  { assert (Y : forall k, (k < length ps)%nat -> nth k (map (moved c t) ps) [] = moved c t (nth k ps [])).
    { intros k Hk. rewrite (nth_indep _ [] (moved c t [])) by (rewrite map_length; auto). apply map_nth. }
    intros k Hk. rewrite !Y by auto. rewrite Forall_forall in W. apply moved_euclid; apply W; apply nth_In; auto. }
  unfold nearest_other. rewrite map_length. split.
  - exists j. rewrite X, E by auto. auto.
  - intros k Hk Nk. rewrite X by auto. apply Rmult_le_compat_l; [apply Rabs_pos|auto].
Qed.
Lemma mean_scale c l : mean (map (Rmult c) l) = c * mean l.
Proof.
  unfold mean. rewrite map_length. unfold Rdiv. rewrite <- Rmult_assoc. f_equal.
  induction l as [|a l IH]; simpl; [ring|]. unfold rsum in *. rewrite IH. ring.
Qed.
Lemma std1_scale c l : 0 <= c -> std1 (map (Rmult c) l) = c * std1 l.
Proof.
  intros Hc. unfold std1. rewrite mean_scale, map_length, map_map.
  replace (rsum (map (fun x => (c * x - c * mean l) * (c * x - c * mean l)) l))
    with (c * c * rsum (map (fun v => (v - mean l) * (v - mean l)) l)).
  2:{ generalize (mean l). intros m. unfold rsum. induction l as [|a l IH]; simpl; [ring|]. rewrite <- IH. ring. }
  unfold Rdiv. rewrite Rmult_assoc.
  rewrite sqrt_mult_alt by (apply Rmult_le_pos; auto).
  rewrite sqrt_square by auto. auto.
Qed.
