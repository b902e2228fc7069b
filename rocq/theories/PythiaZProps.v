(** Properties C76 and C83 (PYTHIA, real-valued parts). *)
From Coq Require Import Lra Lia.
From Verif Require Import PythiaZModel.
Import ListNotations.
Open Scope R_scope.

Lemma rsum_map_lin (a b : R) l : rsum (map (fun v => a * v + b) l) = a * rsum l + b * INR (length l).
Proof.
  induction l as [|v l IH]; [simpl; ring|].
  change (rsum (map (fun v => a * v + b) (v :: l))) with ((a * v + b) + rsum (map (fun v => a * v + b) l)). rewrite IH.
  change (rsum (v :: l)) with (v + rsum l). change (length (v :: l)) with (S (length l)). rewrite S_INR. ring.
Qed.
Lemma rsum_scale (a : R) (f : R -> R) l : rsum (map (fun v => a * f v) l) = a * rsum (map f l).
Proof. induction l as [|v l IH]; simpl; [ring|]. unfold rsum in *. simpl. rewrite IH. ring. Qed.
Lemma rsum_nonneg l : (forall v, In v l -> 0 <= v) -> 0 <= rsum l.
Proof. induction l as [|v l IH]; intro H; simpl; [lra|]. assert (0 <= v) by (apply H; left; auto). assert (0 <= rsum l) by (apply IH; intros; apply H; right; auto). unfold rsum in *. simpl. lra. Qed.
Lemma rsum_pos l v : (forall v, In v l -> 0 <= v) -> In v l -> 0 < v -> 0 < rsum l.
Proof.
  induction l as [|a l IH]; intros H I P; [contradiction|]. simpl.
  assert (0 <= a) by (apply H; left; auto). assert (0 <= rsum l) by (apply rsum_nonneg; intros; apply H; right; auto).
  destruct I as [->|I]; unfold rsum in *; simpl; [lra|]. assert (0 < fold_right Rplus 0 l) by (apply IH; auto; intros; apply H; right; auto). lra.
Qed.
Definition sqdev (l : list R) : R := rsum (map (fun v => (v - mean l) * (v - mean l)) l).
Lemma distinct_length (l : list R) u v : In u l -> In v l -> u <> v -> (2 <= length l)%nat.
Proof.
  destruct l as [|a [|b l]]; simpl; intros; [contradiction| |lia]. destruct H as [->|[]], H0 as [->|[]]. congruence.
Qed.
Lemma sqdev_pos l u v : In u l -> In v l -> u <> v -> 0 < sqdev l.
Proof.
  intros Hu Hv N. unfold sqdev.
  assert (NN : forall w, In w (map (fun v => (v - mean l) * (v - mean l)) l) -> 0 <= w).
  { intros w H. apply in_map_iff in H. destruct H as (x & <- & _). apply Rle_0_sqr. }
  destruct (Req_dec u (mean l)) as [E|E].
  - apply (rsum_pos _ ((v - mean l) * (v - mean l))); auto; [apply (in_map (fun v => (v - mean l) * (v - mean l))); auto|].
    apply Rsqr_pos_lt. lra.
  - apply (rsum_pos _ ((u - mean l) * (u - mean l))); auto; [apply (in_map (fun v => (v - mean l) * (v - mean l))); auto|].
    apply Rsqr_pos_lt. lra.
Qed.

(** The reported mu and sigma are those of the normalised coordinates: 0 and 1 for every column
    with two different values, whatever the data. *)
Theorem C76_mu_and_sigma_are_0_and_1 :
  forall l u v, In u l -> In v l -> u <> v ->
    forall mu sigma z, compute_znorm l = (mu, sigma, z) ->
      mu = 0 /\ sigma = 1 /\ length z = length l /\
      forall i d, (i < length l)%nat -> nth i z d * std1 l = nth i l d - mean l.
Proof.
  intros l u v Hu Hv N mu sigma z E. unfold compute_znorm in E. injection E as <- <- <-.
  pose proof (distinct_length l u v Hu Hv N) as L2. pose proof (sqdev_pos l u v Hu Hv N) as P.
  assert (Ln : 2 <= INR (length l)) by (apply (le_INR 2); auto).
  assert (S1 : std1 l = sqrt (sqdev l / (INR (length l) - 1))) by reflexivity.
  assert (Q : 0 < sqdev l / (INR (length l) - 1)) by (apply Rdiv_lt_0_compat; lra).
  assert (Sp : 0 < std1 l) by (rewrite S1; apply sqrt_lt_R0; auto).
  assert (SS : std1 l * std1 l = sqdev l / (INR (length l) - 1)) by (rewrite S1; apply sqrt_sqrt; lra).
  assert (Lz : length (zscore l) = length l) by (unfold zscore; apply map_length).
  assert (Mz : mean (zscore l) = 0).
  { unfold mean at 1. rewrite Lz. unfold zscore.
    rewrite (map_ext _ (fun v => / std1 l * v + - (mean l / std1 l))) by (intro; field; lra).
    rewrite rsum_map_lin. unfold mean. field. split; lra. }
  split; auto. split; [|split; auto].
  - unfold std1 at 1. rewrite Mz, Lz.
    assert (E : rsum (map (fun v => (v - 0) * (v - 0)) (zscore l)) = INR (length l) - 1).
    { unfold zscore. rewrite map_map.
      rewrite (map_ext _ (fun v => / (std1 l * std1 l) * ((v - mean l) * (v - mean l)))) by (intro; field; lra).
      rewrite rsum_scale. fold (sqdev l). rewrite SS. field. split; lra. }
    rewrite E. replace ((INR (length l) - 1) / (INR (length l) - 1)) with 1 by (field; lra). apply sqrt_1.
  - intros i d Hi. unfold zscore. rewrite (nth_indep _ d ((d - mean l) / std1 l)) by (rewrite map_length; auto).
    rewrite (map_nth (fun v => (v - mean l) / std1 l)). field. lra.
Qed.
(** So two columns with different location and scale report the same mu and sigma: the original
    coordinates cannot be recovered from them. *)
Theorem C76_original_scale_is_reported_refuted :
  exists l l', mean l <> mean l' /\ std1 l <> std1 l' /\
    fst (compute_znorm l) = fst (compute_znorm l') /\ compute_znorm l = compute_znorm l'.
Proof.
  exists [0; 2], [0; 4].
  assert (M1 : mean [0; 2] = 1) by (unfold mean; simpl; lra). assert (M2 : mean [0; 4] = 2) by (unfold mean; simpl; lra).
  assert (S1 : std1 [0; 2] = sqrt 2) by (unfold std1; rewrite M1; simpl; f_equal; field).
  assert (S2 : std1 [0; 4] = 2 * sqrt 2).
  { unfold std1. rewrite M2. simpl. replace (((0 - 2) * (0 - 2) + ((4 - 2) * (4 - 2) + 0)) / (1 + 1 - 1)) with (2 * 2 * 2) by field.
    rewrite sqrt_mult by lra. rewrite sqrt_square by lra. auto. }
  assert (P : 0 < sqrt 2) by (apply sqrt_lt_R0; lra).
  split; [rewrite M1, M2; lra|]. split; [rewrite S1, S2; lra|].
  assert (Z : zscore [0; 2] = zscore [0; 4]).
  { unfold zscore. rewrite M1, M2, S1, S2. simpl.
    assert (A : (0 - 1) / sqrt 2 = (0 - 2) / (2 * sqrt 2)) by (field; lra). assert (B : (2 - 1) / sqrt 2 = (4 - 2) / (2 * sqrt 2)) by (field; lra).
    rewrite A, B. reflexivity. }
  unfold compute_znorm. rewrite Z. auto.
Qed.
Example C76_met : In 0 [0; 2] /\ In 2 [0; 2] /\ 0 <> 2.
Proof. simpl. repeat split; auto; lra. Qed.

(** Generated hyper-parameters lie between 2^-10 and 2^4 (exclusive), one pair per sample. *)
Theorem C83_generated_parameters_range :
  forall samples cs gs, (forall s, In s samples -> 0 <= fst s < 1 /\ 0 <= snd s < 1) ->
    generate_params samples = (cs, gs) ->
    length cs = length samples /\ length gs = length samples /\
    forall v, In v cs \/ In v gs -> / 1024 <= v < 16.
Proof.
  intros samples cs gs H E. unfold generate_params in E. injection E as <- <-.
  split; [apply map_length|]. split; [apply map_length|].
  assert (G : forall s, 0 <= s < 1 -> / 1024 <= grid_value s < 16).
  { intros s Hs. unfold grid_value, maxgrid, mingrid.
    assert (E1 : Rpower 2 (-10) = / 1024).
    { replace (-10) with (- (10)) by lra. rewrite Rpower_Ropp. f_equal. replace 10 with (INR 10) by (simpl; lra). rewrite Rpower_pow by lra. simpl. lra. }
    assert (E2 : Rpower 2 4 = 16) by (replace 4 with (INR 4) by (simpl; lra); rewrite Rpower_pow by lra; simpl; lra).
    split.
    - rewrite <- E1. apply Rle_Rpower; lra.
    - rewrite <- E2. apply Rpower_lt; lra. }
  intros v [I|I]; apply in_map_iff in I; destruct I as (s & <- & Hs); apply G; apply (H s Hs).
Qed.
(** They are spread evenly on a logarithmic scale: the i-th C is 2^(14 x - 10) and the i-th gamma
    2^(14 y - 10) for the i-th sample (x, y); so every value in the range can occur as either. *)
Lemma ln_grid_value s : ln (grid_value s) = (14 * s - 10) * ln 2.
Proof. unfold grid_value, maxgrid, mingrid, Rpower. rewrite ln_exp. f_equal. lra. Qed.
Theorem C83_generated_parameters_are_log_uniform :
  (forall samples cs gs, generate_params samples = (cs, gs) ->
    forall i d, (i < length samples)%nat ->
      ln (nth i cs 0) = (14 * fst (nth i samples d) - 10) * ln 2 /\
      ln (nth i gs 0) = (14 * snd (nth i samples d) - 10) * ln 2) /\
  (forall c g, / 1024 <= c < 16 -> / 1024 <= g < 16 ->
     exists s, 0 <= fst s < 1 /\ 0 <= snd s < 1 /\ generate_params [s] = ([c], [g])).
Proof.
  split.
  - intros samples cs gs E i d Hi. unfold generate_params in E. injection E as <- <-.
    rewrite !(nth_indep _ 0 (grid_value (fst d))) by (rewrite map_length; auto).
    rewrite (map_nth (fun s => grid_value (fst s))).
    rewrite (nth_indep _ (grid_value (fst d)) (grid_value (snd d))) by (rewrite map_length; auto).
    rewrite (map_nth (fun s => grid_value (snd s))). split; apply ln_grid_value.
  - assert (P2 : 0 < ln 2) by (rewrite <- ln_1; apply ln_increasing; lra).
    assert (L1 : ln (/ 1024) = - (10) * ln 2).
    { rewrite ln_Rinv by lra. replace 1024 with (2 ^ 10) by (simpl; lra). rewrite <- Rpower_pow by lra.
      unfold Rpower. rewrite ln_exp. simpl. lra. }
    assert (L2 : ln 16 = 4 * ln 2).
    { replace 16 with (2 ^ 4) by (simpl; lra). rewrite <- Rpower_pow by lra. unfold Rpower. rewrite ln_exp. simpl. lra. }
    assert (G : forall c, / 1024 <= c < 16 -> exists x, 0 <= x < 1 /\ grid_value x = c).
    { intros c [A B]. assert (C0 : 0 < c) by lra. exists ((ln c / ln 2 + 10) / 14).
      assert (- (10) * ln 2 <= ln c).
      { rewrite <- L1. destruct A as [A|<-]; [left; apply ln_increasing; lra|right; auto]. }
      assert (ln c < 4 * ln 2) by (rewrite <- L2; apply ln_increasing; lra).
      assert (E : ln c = (ln c / ln 2) * ln 2) by (field; lra). set (t := ln c / ln 2) in *.
      assert (- (10) <= t) by (apply Rmult_le_reg_r with (ln 2); lra).
      assert (t < 4) by (apply Rmult_lt_reg_r with (ln 2); lra).
      split; [lra|]. apply ln_inv; [unfold grid_value, Rpower; apply exp_pos|auto|]. rewrite ln_grid_value, E. f_equal. lra. }
    intros c g Hc Hg. destruct (G c Hc) as (x & Hx & Ex), (G g Hg) as (y & Hy & Ey).
    exists (x, y). simpl. repeat split; try lra. unfold generate_params. simpl. rewrite Ex, Ey. auto.
Qed.
Example C83_met : forall s, In s [(0, / 2)] -> 0 <= fst s < 1 /\ 0 <= snd s < 1.
Proof. intros s [<-|[]]. simpl. lra. Qed.

Print Assumptions C76_mu_and_sigma_are_0_and_1.
Print Assumptions C76_original_scale_is_reported_refuted.
Print Assumptions C83_generated_parameters_range.
Print Assumptions C83_generated_parameters_are_log_uniform.
