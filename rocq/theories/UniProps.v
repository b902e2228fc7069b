(** C113: the uniformity of the retained instances. *)
From Coq Require Import Reals Qreals Lra Lia List Bool Arith QArith.
From Verif Require Import Base BaseLemmas Num FilterModel FilterSpec FilterProofs FilterProps PythiaZModel UniModel UniSpec UniProofs.
Import ListNotations.
Set Implicit Arguments.
Open Scope R_scope.
Open Scope list_scope.

(** points without missing coordinates, as data *)
Definition as_data (ps : list (list R)) : list (list (option R)) := map (map Some) ps.

(** Two instances at least, and some instance that does not coincide with another: the value. *)
Theorem C113_value_and_range :
  forall ps, (2 <= length ps)%nat ->
    (exists i, (i < length ps)%nat /\
       forall j, (j < length ps)%nat -> j <> i -> 0 < euclid (nth i ps []) (nth j ps [])) ->
    exists ds u, length ds = length ps /\
      (forall i, (i < length ps)%nat -> nearest_other ps i (nth i ds 0)) /\
      compute_uniformity (as_data ps) = Some u /\
      u = 1 - deviation ds / average ds /\
      1 - sqrt (INR (length ps)) <= u <= 1 /\
      (u = 1 <-> forall d e, In d ds -> In e ds -> d = e).
Proof.
  intros ps Hn (i & Hi & A).
  destruct (nearest_list ps Hn) as (ds & Hl & E & Sp). fold (pts_of ps).
  assert (Pos : forall v, In v ds -> 0 <= v).
  { intros v I. destruct (In_nth _ _ 0 I) as (k & Hk & <-). rewrite Hl in Hk.
    destruct (Sp k Hk) as [(j & _ & _ & <-) _]. apply euclid_nonneg. }
  assert (Hd : (2 <= length ds)%nat) by lia.
  assert (M : mean ds <> 0).
  { intros M. apply (mean_zero ds Hd Pos) with (v := nth i ds 0) in M; [|apply nth_In; lia].
    destruct (Sp i Hi) as [(j & Hj & N & Ej) _]. specialize (A j Hj N). lra. }
  assert (M0 : 0 < mean ds) by (pose proof (mean_nonneg ds Hd Pos); lra).
  exists ds, (1 - std1 ds / mean ds). split; auto. split; auto. split.
  { unfold as_data, compute_uniformity. fold (pts_of ps). rewrite E.
    destruct ds as [|a ds]; [simpl in Hd; lia|]. destruct (Req_EM_T (mean (a :: ds)) 0); [contradiction|auto]. }
  split. { rewrite deviation_std1. reflexivity. }
  assert (S0 : 0 <= std1 ds) by apply sqrt_pos.
  split.
  - pose proof (std1_le ds Hd Pos) as L. rewrite Hl in L.
    assert (std1 ds / mean ds <= sqrt (INR (length ps))).
    { apply Rmult_le_reg_r with (mean ds); auto. unfold Rdiv. rewrite Rmult_assoc, Rinv_l by auto. lra. }
    assert (0 <= std1 ds / mean ds) by (apply Rmult_le_pos; [auto|apply Rlt_le, Rinv_0_lt_compat; auto]).
    lra.
  - split.
    + intros U. assert (Z : std1 ds = 0).
      { assert (Q0 : std1 ds / mean ds = 0) by lra. apply (Rmult_eq_compat_r (mean ds)) in Q0.
        unfold Rdiv in Q0. rewrite Rmult_assoc, Rinv_l in Q0 by auto. lra. }
      rewrite (std1_zero ds Hd) in Z. intros d e Id Ie. rewrite (Z d Id), (Z e Ie). auto.
    + intros Al. assert (Z : std1 ds = 0).
      { apply (std1_zero ds Hd). intros v I. pose proof (rsum_mean ds Hd) as R.
        rewrite (rsum_const ds (c := v)) in R by (intros; apply Al; auto).
        apply Rmult_eq_reg_l in R; auto. pose proof (n_ge ds Hd). lra. }
      rewrite Z. field. auto.
Qed.

(** When it is undefined (NaN). *)
Theorem C113_when_undefined :
  forall ps, compute_uniformity (as_data ps) = None <->
    (length ps < 2)%nat \/
    forall i, (i < length ps)%nat -> exists j, (j < length ps)%nat /\ j <> i /\
      euclid (nth i ps []) (nth j ps []) = 0.
Proof.
  intros ps. destruct (le_lt_dec 2 (length ps)) as [Hn|Hn].
  - destruct (nearest_list ps Hn) as (ds & Hl & E & Sp).
    assert (Pos : forall v, In v ds -> 0 <= v).
    { intros v I. destruct (In_nth _ _ 0 I) as (k & Hk & <-). rewrite Hl in Hk.
      destruct (Sp k Hk) as [(j & _ & _ & <-) _]. apply euclid_nonneg. }
    assert (Hd : (2 <= length ds)%nat) by lia.
    unfold as_data, compute_uniformity. fold (pts_of ps). rewrite E.
    assert (X : mean ds = 0 <-> forall i, (i < length ps)%nat -> exists j, (j < length ps)%nat /\ j <> i /\
      euclid (nth i ps []) (nth j ps []) = 0).
    { rewrite (mean_zero ds Hd Pos). split; intros H.
      - intros i Hi. destruct (Sp i Hi) as [(j & Hj & N & Ej) _]. exists j. rewrite Ej.
        split; auto. split; auto. apply H. apply nth_In. lia.
      - intros v I. destruct (In_nth _ _ 0 I) as (k & Hk & <-). rewrite Hl in Hk.
        destruct (H k Hk) as (j & Hj & N & Z). destruct (Sp k Hk) as [(j' & _ & _ & E') L].
        specialize (L j Hj N). assert (0 <= nth k ds 0) by (apply Pos; apply nth_In; lia). lra. }
    rewrite <- X. destruct ds as [|a ds]; [simpl in Hd; lia|].
    destruct (Req_EM_T (mean (a :: ds)) 0); split; auto; try discriminate.
    intros [H|H]; [lia|contradiction].
  - split; auto. intros _. unfold compute_uniformity, as_data.
    destruct ps as [|p [|q ps]]; auto. simpl in Hn. lia.
Qed.

(** One missing value among the retained instances makes it undefined. *)
Theorem C113_missing_value :
  forall pts row, In row pts -> In None row -> compute_uniformity pts = None.
Proof.
  intros pts row I N. unfold compute_uniformity.
  destruct (In_nth _ _ [] I) as (i & Hi & Ei).
  replace (all_present (map (nearest pts) (seq 0 (length pts)))) with (@None (list R)); auto.
  symmetry. apply all_present_none. apply in_map_iff. exists i. split; [|apply in_seq; lia].
  apply nanmin_none. intros v J. apply in_map_iff in J. destruct J as (j & <- & _).
  destruct (Nat.eqb j i); auto. apply dist_nan. right. rewrite Ei. auto.
Qed.

(** Units and origin of the features do not matter, if all features are scaled alike. *)
Theorem C113_scale_free :
  forall c t ps, c <> 0 -> Forall (fun p => length p = length t) ps ->
    compute_uniformity (as_data (map (moved c t) ps)) = compute_uniformity (as_data ps).
Proof.
  intros c t ps Hc W. destruct (le_lt_dec 2 (length ps)) as [Hn|Hn].
  2:{ rewrite (proj2 (C113_when_undefined ps)) by auto. apply C113_when_undefined. rewrite map_length. auto. }
  destruct (nearest_list ps Hn) as (ds & Hl & E & Sp).
  destruct (nearest_list (map (moved c t) ps)) as (ds' & Hl' & E' & Sp'); [rewrite map_length; auto|].
  rewrite map_length in Hl', Sp'.
  assert (D : ds' = map (Rmult (Rabs c)) ds).
  { apply nth_ext with (d := 0) (d' := Rabs c * 0); [rewrite map_length; lia|]. intros k Hk. rewrite map_nth.
    rewrite Hl' in Hk. apply (@nearest_other_unique (map (moved c t) ps) k); auto.
    apply moved_nearest; auto. }
  assert (C0 : 0 < Rabs c) by (apply Rabs_pos_lt; auto).
  unfold as_data, compute_uniformity. fold (pts_of ps) (pts_of (map (moved c t) ps)). rewrite E, E', D.
  destruct ds as [|a ds]; [simpl in Hl; lia|]. cbn [map].
  change (Rabs c * a :: map (Rmult (Rabs c)) ds) with (map (Rmult (Rabs c)) (a :: ds)).
  rewrite mean_scale, std1_scale by lra.
  destruct (Req_EM_T (mean (a :: ds)) 0) as [Z|Z], (Req_EM_T (Rabs c * mean (a :: ds)) 0) as [Z'|Z']; auto.
  - rewrite Z, Rmult_0_r in Z'. contradiction.
  - apply Rmult_integral in Z'. lra.
  - replace (Rabs c * std1 (a :: ds) / (Rabs c * mean (a :: ds))) with (std1 (a :: ds) / mean (a :: ds)); auto.
    field. split; auto. lra.
Qed.

(** do_filter returns the flags of the purifier unchanged; its uniformity is that of the retained
    instances. After purifying by features alone it is defined as soon as two instances are left. *)
Theorem C113_after_purifying :
  forall (xq : list (list Q)) y y_bin n_feats n_algos r,
    let x := map (map (@Some Q)) xq in
    matrices x y y_bin n_feats n_algos -> (0 <= r)%Q -> n_feats <> 0%nat ->
    exists ex di vi u,
      do_filter x y y_bin n_feats n_algos "Ftr" r = Ok (ex, di, vi, u) /\
      filter_instance x y y_bin n_feats n_algos r "Ftr" = Ok (ex, di, vi) /\
      u = compute_uniformity (as_data (map (map Q2R) (keep_rows ex xq))) /\
      ((2 <= length (keep_rows ex xq))%nat -> exists v, u = Some v).
Proof.
  intros xq y y_bin n_feats n_algos r x M Hr Hf.
  destruct (proj2 (C32_filter_runs x y y_bin n_feats n_algos r "Ftr")) as [[[ex di] vi] H].
  { split; simpl; auto. }
  exists ex, di, vi, (compute_uniformity (as_data (map (map Q2R) (keep_rows ex xq)))).
  split.
  { unfold do_filter. rewrite H. do 2 f_equal. unfold as_data, keep_rows. f_equal. f_equal.
    unfold x. rewrite select_map, !map_map. apply map_ext. intros row. unfold as_reals. rewrite !map_map. reflexivity. }
  split; auto. split; auto. intros L.
  destruct (compute_uniformity (as_data (map (map Q2R) (keep_rows ex xq)))) as [v|] eqn:E; [eauto|exfalso].
  apply C113_when_undefined in E. rewrite map_length in E. destruct E as [E|E]; [lia|].
  destruct (E 0%nat) as (j & Hj & N & Z); [lia|].
  destruct (C33_separated_cover r M H) as [S _].
  destruct (C32_who_is_excluded r "Ftr" M eq_refl H) as (Le & _ & _).
  destruct M as (Lx & _ & Wx & _). unfold x in Lx. rewrite map_length in Lx.
  unfold keep_rows in *. set (mask := map negb ex) in *.
  assert (Lm : length xq = length mask) by (unfold mask; rewrite map_length; lia).
  rewrite (select_length mask xq Lm) in *.
  assert (K : forall k, (k < length (positions mask))%nat -> (nth k (positions mask) 0 < length y)%nat /\ ~ is_set ex (nth k (positions mask) 0%nat)).
  { intros k Hk. destruct (positions_spec mask Hk) as [P1 P2]. split; [lia|]. unfold is_set. intros C.
    rewrite (nth_indep _ false (negb false)) in P2 by lia.
    unfold mask in P2 at 2. rewrite map_nth, C in P2. discriminate. }
  assert (Sep : forall a b, (a < b < length (positions mask))%nat ->
     euclid (nth a (map (map Q2R) (select mask xq)) []) (nth b (map (map Q2R) (select mask xq)) []) <> 0).
  { intros a b Hab Z0.
    assert (Ka : (a < length (positions mask))%nat) by lia. assert (Kb : (b < length (positions mask))%nat) by lia.
    destruct (K a Ka) as [A1 A2]. destruct (K b Kb) as [B1 B2].
    apply (S (nth a (positions mask) 0%nat) (nth b (positions mask) 0%nat)); auto.
    { split; auto. apply positions_mono. lia. }
    assert (R : forall k, (k < length (positions mask))%nat ->
        nth k (map (map Q2R) (select mask xq)) [] = map Q2R (nth (nth k (positions mask) 0%nat) xq [])).
    { intros k Hk. rewrite (nth_indep _ [] (map Q2R [])) by (rewrite map_length, select_length; auto).
      rewrite map_nth. f_equal. apply select_nth; auto. }
    rewrite !R in Z0 by lia.
    exists (nth (nth a (positions mask) 0%nat) xq []), (nth (nth b (positions mask) 0%nat) xq []).
    assert (Y : forall k, (k < length y)%nat -> nth k x [] = map Some (nth k xq [])).
    { intros k Hk. unfold x. rewrite (nth_indep _ [] (map Some [])) by (rewrite map_length; lia). apply map_nth. }
    rewrite !Y by auto. split; auto. split; auto. split; auto.
    assert (Eq : forall u v, sum_sq (map Q2R u) (map Q2R v) = Q2R (sq_euclid u v)).
    { induction u as [|p u IH]; intros [|q v]; simpl; try (symmetry; apply RMicromega.Q2R_0).
      rewrite IH, Q2R_plus, Q2R_mult, Q2R_minus. auto. }
    unfold euclid in Z0. apply sqrt_eq_0 in Z0; [|apply sum_sq_nonneg]. rewrite Eq in Z0.
    apply Rle_Qle. rewrite Z0, !Q2R_mult.
    replace (Q2R 1) with 1 by (symmetry; apply RMicromega.Q2R_1). rewrite Rmult_1_l. apply (Rle_0_sqr (Q2R r)). }
  apply (Sep 0%nat j); [lia|auto].
Qed.

(** Four points 0, 1, 3, 6 on a line: nearest distances 1, 1, 2, 3; the hypotheses are met. *)
Definition ex_ps : list (list R) := [[0]; [1]; [3]; [6]].
Lemma ex_euclid a b : euclid [a] [b] = Rabs (a - b).
Proof. unfold euclid. simpl. rewrite Rplus_0_r. apply sqrt_Rsqr_abs. Qed.
Example C113_met : (2 <= length ex_ps)%nat /\
  exists i, (i < length ex_ps)%nat /\
    forall j, (j < length ex_ps)%nat -> j <> i -> 0 < euclid (nth i ex_ps []) (nth j ex_ps []).
Proof.
  split; [simpl; lia|]. exists 0%nat. split; [simpl; lia|].
  intros [|[|[|[|j]]]] H N; [contradiction| | | |simpl in H; lia];
    simpl nth; rewrite ex_euclid; apply Rabs_pos_lt; lra.
Qed.
Example C113_met_filter : matrices (map (map (@Some Q)) [[0%Q]; [1%Q]; [2%Q]; [3%Q]; [11%Q]]) ex_y ex_b 1 2 /\
  filter_instance (map (map (@Some Q)) [[0%Q]; [1%Q]; [2%Q]; [3%Q]; [11%Q]]) ex_y ex_b 1 2 1 "Ftr" =
  Ok ([false; true; false; true; false], [true; false; true; false; true], [false; false; false; false; false]).
Proof. split; [exact ex_matrices|vm_compute; reflexivity]. Qed.

Print Assumptions C113_value_and_range.
Print Assumptions C113_when_undefined.
Print Assumptions C113_missing_value.
Print Assumptions C113_scale_free.
Print Assumptions C113_after_purifying.
