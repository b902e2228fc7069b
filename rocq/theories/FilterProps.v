(** C32-C34: the purifier properties. *)
From Coq Require Import Reals Lra Qreals.
From Verif Require Import Base BaseLemmas Num FilterModel FilterSpec FilterProofs.
Set Implicit Arguments.
Open Scope nat_scope.
Open Scope list_scope.

(** Five instances on a line, spacing 1, 1, 1, 8; two algorithms. *)
Definition ex_x : list (list num) := [[Some 0%Q]; [Some 1%Q]; [Some 2%Q]; [Some 3%Q]; [Some 11%Q]].
Definition ex_y : list (list num) := [[Some 1%Q; Some 1%Q]; [Some 1%Q; Some 1%Q]; [Some 1%Q; Some 9%Q]; [Some 1%Q; Some 9%Q]; [None; Some 1%Q]].
Definition ex_b : list (list bool) := [[true; true]; [true; true]; [true; false]; [true; true]; [true; true]].
Example ex_matrices : matrices ex_x ex_y ex_b 1 2.
Proof. repeat split; repeat constructor. Qed.
Example ex_ftr : filter_instance ex_x ex_y ex_b 1 2 1 "Ftr" =
  Ok ([false; true; false; true; false], [true; false; true; false; true],
      [false; false; false; false; false]).
Proof. vm_compute. reflexivity. Qed.
Example ex_good : filter_instance ex_x ex_y ex_b 1 2 1 "Ftr&Good" =
  Ok ([false; true; false; false; false], [true; false; true; false; true],
      [false; false; false; true; false]).
Proof. vm_compute. reflexivity. Qed.

(** C32 *)
Theorem C32_who_is_excluded :
  forall x y y_bin n_feats n_algos r s t ex di vi,
    matrices x y y_bin n_feats n_algos -> parse_type s = Some t ->
    filter_instance x y y_bin n_feats n_algos r s = Ok (ex, di, vi) ->
    length ex = length y /\ ~ is_set ex 0 /\
    forall j, j < length y ->
      (is_set ex j <-> exists i, i < j /\ ~ is_set ex i /\ near x r i j /\
                                 alike y y_bin n_feats n_algos r t i j).
Proof.
  intros x y y_bin n_feats n_algos r s t ex di vi M Ht H.
  destruct (filter_ok _ _ _ _ _ _ _ H) as (t' & Et & Nf & -> & _ & _).
  assert (t' = t) by congruence. subst t'.
  assert (G : forall j, j < length y -> (is_set (map excl (final x y y_bin n_feats n_algos r t)) j <->
            excl (get (final x y y_bin n_feats n_algos r t) j) = true)).
  { intros j Hj. unfold is_set. rewrite nth_flag by auto. reflexivity. }
  split; [rewrite map_length; apply final_length|]. split.
  - intro H0. destruct (Nat.eq_dec (length y) 0) as [E|E].
    + unfold is_set in H0. rewrite nth_overflow in H0; [discriminate|].
      rewrite map_length, final_length. rewrite E. auto.
    + apply G in H0; [|Lia.lia]. apply (excl_final r t M) in H0; [|Lia.lia].
      destruct H0 as (i & Hi & _). Lia.lia.
  - intros j Hj. rewrite G by auto. rewrite (excl_final r t M) by auto.
    split; intros (i & Hi & E & R); exists i; (split; [auto|]); (split; [|auto]).
    + rewrite G by Lia.lia. congruence.
    + rewrite G in E by Lia.lia. destruct (excl _); congruence.
Qed.
(** The filter runs for the four documented types, whenever there is a feature. *)
Theorem C32_filter_runs :
  forall x y y_bin n_feats n_algos r s,
    (exists o, filter_instance x y y_bin n_feats n_algos r s = Ok o) <->
    n_feats <> 0 /\ In s ["Ftr"; "Ftr&AP"; "Ftr&Good"; "Ftr&AP&Good"]%string.
Proof.
  intros. unfold filter_instance, parse_type. destruct (Nat.eqb_spec n_feats 0) as [E|E].
  - split; [intros [o H]; discriminate|tauto].
  - simpl.
    destruct (String.eqb_spec s "Ftr") as [->|]; [split; eauto|].
    destruct (String.eqb_spec s "Ftr&AP") as [->|]; [split; eauto|].
    destruct (String.eqb_spec s "Ftr&Good") as [->|]; [split; eauto 10|].
    destruct (String.eqb_spec s "Ftr&AP&Good") as [->|]; [split; eauto 10|].
    split; [intros [o H]; discriminate|]. intros [_ H]. intuition congruence.
Qed.
(** The comparison of squares is the comparison of distances the code makes:
    [sqrt q <= sqrt s * r] for the real square root. *)
Theorem C32_squares_are_distances :
  forall q s r : Q, (0 <= q)%Q -> (0 < s)%Q ->
    ((0 <= r)%Q /\ (q <= s * (r * r))%Q <-> (sqrt (Q2R q) <= sqrt (Q2R s) * Q2R r)%R).
Proof.
  intros q s r Hq Hs. apply Qle_Rle in Hq. apply Qlt_Rlt in Hs.
  rewrite RMicromega.Q2R_0 in Hq, Hs.
  assert (S0 : (0 < sqrt (Q2R s))%R) by (apply sqrt_lt_R0; auto).
  assert (SS : (sqrt (Q2R s) * sqrt (Q2R s) = Q2R s)%R) by (apply sqrt_sqrt; lra).
  assert (QQ : (sqrt (Q2R q) * sqrt (Q2R q) = Q2R q)%R) by (apply sqrt_sqrt; lra).
  pose proof (sqrt_pos (Q2R q)) as Q0.
  split.
  - intros [H1 H2]. apply Qle_Rle in H1. apply Qle_Rle in H2.
    rewrite RMicromega.Q2R_0 in H1. rewrite !Q2R_mult in H2.
    apply Rsqr_incr_0_var; [|apply Rmult_le_pos; lra].
    unfold Rsqr. rewrite QQ. replace (sqrt (Q2R s) * Q2R r * (sqrt (Q2R s) * Q2R r))%R
      with (sqrt (Q2R s) * sqrt (Q2R s) * (Q2R r * Q2R r))%R by ring. rewrite SS. exact H2.
  - intro H.
    assert (R0 : (0 <= Q2R r)%R).
    { destruct (Rle_or_lt 0 (Q2R r)) as [|N]; auto. exfalso.
      assert (sqrt (Q2R s) * Q2R r < 0)%R.
      { replace 0%R with (sqrt (Q2R s) * 0)%R by ring. apply Rmult_lt_compat_l; auto. }
      lra. }
    split; apply Rle_Qle; [rewrite RMicromega.Q2R_0; auto|]. rewrite !Q2R_mult.
    rewrite <- QQ, <- SS.
    replace (sqrt (Q2R s) * sqrt (Q2R s) * (Q2R r * Q2R r))%R
      with ((sqrt (Q2R s) * Q2R r) * (sqrt (Q2R s) * Q2R r))%R by ring.
    apply Rmult_le_compat; auto.
Qed.

(** C33 *)
Theorem C33_separated_cover :
  forall x y y_bin n_feats n_algos r ex di vi,
    matrices x y y_bin n_feats n_algos ->
    filter_instance x y y_bin n_feats n_algos r "Ftr" = Ok (ex, di, vi) ->
    (forall i j, i < j < length y -> ~ is_set ex i -> ~ is_set ex j -> ~ near x r i j) /\
    (forall j, j < length y -> is_set ex j -> exists i, i < j /\ ~ is_set ex i /\ near x r i j).
Proof.
  intros x y y_bin n_feats n_algos r ex di vi M H.
  destruct (@C32_who_is_excluded x y y_bin n_feats n_algos r "Ftr" Ftr ex di vi M eq_refl H) as (_ & _ & W).
  split.
  - intros i j Hij Ei Ej Hn. apply Ej. apply W; [Lia.lia|]. exists i. simpl. split; [Lia.lia|auto].
  - intros j Hj Ej. apply W in Ej; auto. destruct Ej as (i & H1 & H2 & H3 & _). eauto.
Qed.
(** Filtering what is left excludes nothing, for every type. *)
Theorem C33_filtering_again_excludes_nothing :
  forall x y y_bin n_feats n_algos r s ex di vi,
    matrices x y y_bin n_feats n_algos ->
    filter_instance x y y_bin n_feats n_algos r s = Ok (ex, di, vi) ->
    exists ex' di' vi',
      filter_instance (keep_rows ex x) (keep_rows ex y) (keep_rows ex y_bin) n_feats n_algos r s
        = Ok (ex', di', vi') /\
      length ex' = length (keep_rows ex y) /\ forall j, ~ is_set ex' j.
Proof.
  intros x y y_bin n_feats n_algos r s ex di vi M H.
  exact (@refilter x y y_bin n_feats n_algos r s M ex di vi H).
Qed.

(** C34 *)
Theorem C34_flags :
  forall x y y_bin n_feats n_algos r s ex di vi,
    matrices x y y_bin n_feats n_algos ->
    filter_instance x y y_bin n_feats n_algos r s = Ok (ex, di, vi) ->
    length di = length y /\ length vi = length y /\
    forall j, j < length y ->
      (~ is_set di j <-> exists i, i < j /\ ~ is_set ex i /\ near x r i j) /\
      (is_set vi j <-> ~ is_set ex j /\ exists i, i < j /\ ~ is_set ex i /\ near x r i j).
Proof.
  intros x y y_bin n_feats n_algos r s ex di vi M H.
  destruct (filter_ok _ _ _ _ _ _ _ H) as (t & Et & Nf & -> & -> & ->).
  split; [rewrite map_length; apply final_length|].
  split; [rewrite map_length; apply final_length|].
  intros j Hj.
  assert (G : forall g k, k < length y -> (is_set (map g (final x y y_bin n_feats n_algos r t)) k <->
            g (get (final x y y_bin n_feats n_algos r t) k) = true)).
  { intros g k Hk. unfold is_set. rewrite nth_flag by auto. reflexivity. }
  rewrite !G by auto. rewrite !not_true_iff_false, (dis_final r t M), (visa_final r t M) by auto.
  assert (X : (exists i, i < j /\ excl (get (final x y y_bin n_feats n_algos r t) i) = false /\ near x r i j) <->
              (exists i, i < j /\ ~ is_set (map excl (final x y y_bin n_feats n_algos r t)) i /\ near x r i j)).
  { split; intros (i & Hi & E & R); exists i; rewrite G in * by Lia.lia; rewrite not_true_iff_false in *; auto. }
  rewrite X. tauto.
Qed.
Theorem C34_no_visa_for_Ftr :
  forall x y y_bin n_feats n_algos r ex di vi,
    matrices x y y_bin n_feats n_algos ->
    filter_instance x y y_bin n_feats n_algos r "Ftr" = Ok (ex, di, vi) ->
    forall j, j < length y -> ~ is_set vi j.
Proof.
  intros x y y_bin n_feats n_algos r ex di vi M H j Hj V.
  destruct (C34_flags r "Ftr" M H) as (_ & _ & F). destruct (F j Hj) as [_ F2].
  apply F2 in V. destruct V as (Ej & i & Hi & Ei & N).
  destruct (C33_separated_cover r M H) as [S _]. exact (S i j (conj Hi Hj) Ei Ej N).
Qed.

Print Assumptions C34_no_visa_for_Ftr.
Print Assumptions C32_who_is_excluded.
Print Assumptions C32_filter_runs.
Print Assumptions C32_squares_are_distances.
Print Assumptions C33_separated_cover.
Print Assumptions C33_filtering_again_excludes_nothing.
Print Assumptions C34_flags.
