(** Property C111 (PRELIM's normalisation, over the reals). *)
From Coq Require Import Lra Lia.
From Verif Require Import PythiaZModel PythiaZProps PrelimZModel.
Import ListNotations.
Open Scope R_scope.

(** value i of a list *)
Notation "l .[ i ]" := (nth i l 0) (at level 2, i at level 200, format "l .[ i ]").

(** The Box-Cox transform of a positive number, with the logarithm for powers below 10^-19 in modulus. *)
Definition box_cox_transform (power v : R) : R :=
  if Rlt_dec (Rabs power) (/ 10 ^ 19) then ln v else (exp (power * ln v) - 1) / power.

Lemma boxcox_increasing lam a b : 0 < a -> a < b -> boxcox lam a < boxcox lam b.
Proof.
  intros Ha Hab. unfold boxcox. destruct (Rlt_dec (Rabs lam) (/ 10 ^ 19)) as [L|L]; [apply ln_increasing; auto|].
  assert (P : 0 < / 10 ^ 19) by (apply Rinv_0_lt_compat, pow_lt; lra).
  assert (LN : ln a < ln b) by (apply ln_increasing; auto). unfold Rdiv, Rpower.
  destruct (Rtotal_order lam 0) as [N|[Z|N]].
  - assert (E : exp (lam * ln b) < exp (lam * ln a)) by (apply exp_increasing; apply Rmult_lt_gt_compat_neg_l; auto).
    assert (I : / lam < 0) by (apply Rinv_lt_0_compat; auto).
    apply (Rmult_lt_gt_compat_neg_l (/ lam) (exp (lam * ln b) - 1) (exp (lam * ln a) - 1)) in I; [|lra]. lra.
  - subst. rewrite Rabs_R0 in L. contradiction.
  - apply Rmult_lt_compat_r; [apply Rinv_0_lt_compat; auto|].
    assert (E : exp (lam * ln a) < exp (lam * ln b)) by (apply exp_increasing, Rmult_lt_compat_l; auto). lra.
Qed.
Lemma fold_min_spec l a : (forall v, In v (a :: l) -> fold_left Rmin l a <= v) /\ In (fold_left Rmin l a) (a :: l).
Proof.
  revert a. induction l as [|b l IH]; intro a; simpl; [split; [intros v [->|[]]; lra|auto]|].
  destruct (IH (Rmin a b)) as [L I]. split.
  - intros v [->|[->|H]].
    + apply Rle_trans with (Rmin v b); [apply L; left; auto|apply Rmin_l].
    + apply Rle_trans with (Rmin a v); [apply L; left; auto|apply Rmin_r].
    + apply L. right. auto.
  - destruct I as [I|I]; [|auto]. rewrite <- I. unfold Rmin. destruct (Rle_dec a b); auto.
Qed.
Lemma lmin_spec l : l <> [] -> In (lmin l) l /\ forall v, In v l -> lmin l <= v.
Proof. destruct l as [|a l]; [congruence|]. intros _. destruct (fold_min_spec l a). auto. Qed.
Lemma nth_map f (l : list R) i : (i < length l)%nat -> (map f l).[i] = f l.[i].
Proof. intro H. rewrite (nth_indep _ 0 (f 0)) by (rewrite map_length; auto). apply map_nth. Qed.
Lemma std_pos l u v : In u l -> In v l -> u <> v -> 0 < std1 l.
Proof.
  intros Hu Hv N. pose proof (distinct_length l u v Hu Hv N) as L2. assert (2 <= INR (length l)) by (apply (le_INR 2); auto).
  apply sqrt_lt_R0. apply Rdiv_lt_0_compat; [exact (sqdev_pos l u v Hu Hv N)|lra].
Qed.
Lemma std_const l c : (forall v, In v l -> v = c) -> std1 l = 0.
Proof.
  intro H. unfold std1. replace (rsum _) with 0; [unfold Rdiv; rewrite Rmult_0_l; apply sqrt_0|].
  symmetry. assert (M : l <> [] -> mean l = c).
  { intro N. unfold mean. assert (E : rsum l = c * INR (length l)).
    { clear N. induction l as [|a l IH]; [simpl; ring|]. change (rsum (a :: l)) with (a + rsum l). rewrite IH by (intros; apply H; right; auto).
      rewrite (H a) by (left; auto). cbn [length]. rewrite S_INR. ring. }
    rewrite E. field. apply not_0_INR. destruct l; [congruence|discriminate]. }
  assert (Z : forall l', (forall v, In v l' -> In v l) -> rsum (map (fun v => (v - mean l) * (v - mean l)) l') = 0).
  { induction l' as [|a l' IH]; intro I; [reflexivity|]. change (rsum (map (fun v => (v - mean l) * (v - mean l)) (a :: l'))) with
      ((a - mean l) * (a - mean l) + rsum (map (fun v => (v - mean l) * (v - mean l)) l')).
    rewrite IH by (intros; apply I; right; auto). assert (Ia : In a l) by (apply I; left; auto).
    rewrite M by (intros ->; destruct Ia). rewrite (H a Ia). ring. }
  apply Z. auto.
Qed.

Section Normalise.
  Variable fit : list R -> R.

  (** what normalisation does to a column whose values shifted by s are positive *)
  Lemma normalise_spec s col u v : (forall w, In w col -> 0 < w + s) -> In u col -> In v col -> u <> v ->
    let r := normalise_shifted fit (map (fun w => w + s) col) in
    exists z, n_values r = Some z /\ length z = length col /\ mean z = 0 /\ std1 z = 1 /\ 0 < n_sigma r /\
      (forall i j, (i < length col)%nat -> (j < length col)%nat -> (col.[i] < col.[j] <-> z.[i] < z.[j])) /\
      (forall i x, (i < length col)%nat -> 0 < x + s -> (boxcox (n_lambda r) (x + s) = z.[i] * n_sigma r + n_mu r <-> x = col.[i])).
  Proof.
    intros P Hu Hv N. cbv zeta. set (data := map (fun w => w + s) col). set (lam := fit data). set (aux := map (boxcox lam) data).
    assert (D : boxcox lam (u + s) <> boxcox lam (v + s)).
    { destruct (Rtotal_order u v) as [L|[L|L]]; [|contradiction|].
      - assert (X := boxcox_increasing lam (u + s) (v + s) (P u Hu) ltac:(lra)). lra.
      - assert (X := boxcox_increasing lam (v + s) (u + s) (P v Hv) ltac:(lra)). lra. }
    assert (Iu : In (boxcox lam (u + s)) aux) by (apply in_map; apply (in_map (fun w => w + s)); auto).
    assert (Iv : In (boxcox lam (v + s)) aux) by (apply in_map; apply (in_map (fun w => w + s)); auto).
    assert (SP := std_pos aux _ _ Iu Iv D).
    assert (La : length aux = length col) by (unfold aux, data; rewrite !map_length; auto).
    destruct (C76_mu_and_sigma_are_0_and_1 aux _ _ Iu Iv D _ _ _ eq_refl) as (M & S & L & Z).
    exists (zscore aux). unfold normalise_shifted. cbn [n_values n_sigma n_mu n_lambda]. fold lam. fold aux.
    assert (V : zscore_or_nan aux = Some (zscore aux)) by (unfold zscore_or_nan; destruct (Req_EM_T (std1 aux) 0); [lra|auto]).
    split; auto. split; [congruence|]. split; auto. split; auto. split; auto.
    assert (A : forall i, (i < length col)%nat -> aux.[i] = boxcox lam (col.[i] + s)).
    { intros i Hi. unfold aux, data. rewrite map_map. apply (nth_map (fun x => boxcox lam (x + s))). auto. }
    assert (Zi : forall i, (i < length col)%nat -> (zscore aux).[i] * std1 aux = aux.[i] - mean aux) by (intros i Hi; apply Z; lia).
    split.
    - intros i j Hi Hj. assert (Pi : 0 < col.[i] + s) by (apply P, nth_In; auto). assert (Pj : 0 < col.[j] + s) by (apply P, nth_In; auto).
      assert (E : (zscore aux).[i] < (zscore aux).[j] <-> aux.[i] < aux.[j]).
      { assert (Xi := Zi i Hi). assert (Xj := Zi j Hj). split; intro H.
        - apply (Rmult_lt_compat_r (std1 aux)) in H; [lra|auto].
        - apply (Rmult_lt_reg_r (std1 aux)); [auto|lra]. }
      rewrite E, (A i Hi), (A j Hj). split; intro H.
      + apply boxcox_increasing; [auto|lra].
      + destruct (Rlt_dec col.[i] col.[j]) as [|G]; auto. exfalso. apply Rnot_lt_le in G. destruct G as [G|G].
        * assert (X := boxcox_increasing lam _ _ Pj (Rplus_lt_compat_r s _ _ G)). lra.
        * rewrite G in H. lra.
    - intros i x Hi Hx. assert (Pi : 0 < col.[i] + s) by (apply P, nth_In; auto).
      replace ((zscore aux).[i] * std1 aux + mean aux) with (boxcox lam (col.[i] + s)) by (rewrite (Zi i Hi), (A i Hi); ring).
      split; [|intros ->; auto]. intro H0. destruct (Rtotal_order x col.[i]) as [G|[G|G]]; auto; exfalso.
      + assert (X := boxcox_increasing lam _ _ Hx (Rplus_lt_compat_r s _ _ G)). lra.
      + assert (X := boxcox_increasing lam _ _ Pi (Rplus_lt_compat_r s _ _ G)). lra.
  Qed.
  Lemma normalise_constant s col c : (forall w, In w col -> w = c) -> n_values (normalise_shifted fit (map (fun w => w + s) col)) = None.
  Proof.
    intro H. unfold normalise_shifted, zscore_or_nan. cbn [n_values]. rewrite (std_const _ (boxcox (fit (map (fun w => w + s) col)) (c + s))).
    - destruct (Req_EM_T 0 0); [auto|contradiction].
    - intros v Hv. apply in_map_iff in Hv. destruct Hv as (x & <- & Hx). apply in_map_iff in Hx. destruct Hx as (w & <- & Hw). rewrite (H w Hw). auto.
  Qed.

  (** A feature with two different values: mean 0, standard deviation 1, the order of the instances is kept,
      and the reported numbers determine the original values. *)
  Theorem C111_features :
    forall col u v, In u col -> In v col -> u <> v ->
      let m := fst (normalise_x fit col) in let r := snd (normalise_x fit col) in
      (In m col /\ forall w, In w col -> m <= w) /\
      exists z, n_values r = Some z /\ length z = length col /\ mean z = 0 /\ std1 z = 1 /\
        (forall i j, (i < length col)%nat -> (j < length col)%nat -> (col.[i] < col.[j] <-> z.[i] < z.[j])) /\
        (forall i x, (i < length col)%nat -> m <= x -> (box_cox_transform (n_lambda r) (x - m + 1) = z.[i] * n_sigma r + n_mu r <-> x = col.[i])).
  Proof.
    intros col u v Hu Hv N m r. assert (NE : col <> []) by (intros ->; destruct Hu). destruct (lmin_spec col NE) as [I L].
    split; [split; auto|]. change (lmin col) with m in *.
    assert (E : r = normalise_shifted fit (map (fun w => w + (1 - m)) col)).
    { unfold r, normalise_x. cbn [snd]. change (lmin col) with m. f_equal. apply map_ext. intro; ring. }
    destruct (normalise_spec (1 - m) col u v) as (z & V & Lz & M & S & Sp & O & B); auto.
    { intros w Hw. specialize (L w Hw). lra. }
    rewrite <- E in *. exists z. split; auto. split; auto. split; auto. split; auto. split; auto.
    intros i x Hi Hx. replace (x - m + 1) with (x + (1 - m)) by ring. apply B; [auto|lra].
  Qed.
  (** A constant feature becomes NaN throughout. *)
  Theorem C111_constant_feature :
    forall col c, (forall w, In w col -> w = c) -> n_values (snd (normalise_x fit col)) = None.
  Proof.
    intros col c H. unfold normalise_x. cbn [snd].
    replace (map (fun v => v - lmin col + 1) col) with (map (fun w => w + (1 - lmin col)) col) by (apply map_ext; intro; ring).
    eapply normalise_constant; eauto.
  Qed.
  (** The same for the performances of an algorithm. *)
  Theorem C111_performances :
    forall cols k col u v, nth_error cols k = Some col -> In u col -> In v col -> u <> v ->
      exists r z, nth_error (snd (normalise_y fit cols)) k = Some r /\ n_values r = Some z /\
        length z = length col /\ mean z = 0 /\ std1 z = 1 /\
        (forall i j, (i < length col)%nat -> (j < length col)%nat -> (col.[i] < col.[j] <-> z.[i] < z.[j])) /\
        let m := fst (normalise_y fit cols) in
        (In m (concat cols) /\ forall w, In w (concat cols) -> m <= w) /\
        (forall i x, (i < length col)%nat -> m <= x ->
           (box_cox_transform (n_lambda r) (x - m + / 2 ^ 52) = z.[i] * n_sigma r + n_mu r <-> x = col.[i])).
  Proof.
    change (/ 2 ^ 52) with machine_eps.
    intros cols k col u v Hk Hu Hv N. unfold normalise_y. cbn [snd]. rewrite nth_error_map, Hk. cbn [option_map].
    set (m := lmin (concat cols)). assert (IC : forall w, In w col -> In w (concat cols)).
    { intros w Hw. apply in_concat. exists col. split; auto. eapply nth_error_In; eauto. }
    assert (NE : concat cols <> []) by (intro E; apply IC in Hu; rewrite E in Hu; destruct Hu). destruct (lmin_spec _ NE) as [Im L].
    assert (EP : 0 < machine_eps) by (unfold machine_eps; apply Rinv_0_lt_compat, pow_lt; lra).
    destruct (normalise_spec (machine_eps - m) col u v) as (z & V & Lz & M & S & _ & O & B); auto.
    { intros w Hw. specialize (L w (IC w Hw)). fold m in L. lra. }
    replace (map (fun w => w + (machine_eps - m)) col) with (map (fun w => w - m + machine_eps) col) in * by (apply map_ext; intro; ring).
    eexists. exists z. split; [reflexivity|]. split; auto. split; auto. split; auto. split; auto. split; auto. cbv zeta.
    cbn [fst] in *. split; [split; auto|]. intros i x Hi Hx.
    replace (x - m + machine_eps) with (x + (machine_eps - m)) by ring. apply B; [auto|lra].
  Qed.
  (** So normalised performances of different algorithms cannot be compared: none is better than
      another on all instances, even if it was before. *)
  Theorem C111_no_algorithm_dominates :
    forall cols k k' col col' u v u' v', nth_error cols k = Some col -> nth_error cols k' = Some col' -> length col = length col' ->
      In u col -> In v col -> u <> v -> In u' col' -> In v' col' -> u' <> v' ->
      exists r r' z z', nth_error (snd (normalise_y fit cols)) k = Some r /\ nth_error (snd (normalise_y fit cols)) k' = Some r' /\
        n_values r = Some z /\ n_values r' = Some z' /\
        exists i, (i < length col)%nat /\ z'.[i] <= z.[i].
  Proof.
    intros cols k k' col col' u v u' v' Hk Hk' L Hu Hv N Hu' Hv' N'.
    destruct (C111_performances cols k col u v Hk Hu Hv N) as (r & z & R & Z & Lz & M & _).
    destruct (C111_performances cols k' col' u' v' Hk' Hu' Hv' N') as (r' & z' & R' & Z' & Lz' & M' & _).
    exists r, r', z, z'. repeat (split; [auto|]). rewrite <- Lz. assert (E : length z = length z') by congruence.
    assert (NE : z <> []). { intros ->. destruct col; [destruct Hu|discriminate]. }
    assert (P : 0 < INR (length z)) by (apply lt_0_INR; destruct z; [congruence|simpl; lia]).
    assert (Sz : forall l, 0 < INR (length l) -> mean l = 0 -> rsum l = 0).
    { intros l Pl Ml. unfold mean in Ml. apply (Rmult_eq_compat_r (INR (length l))) in Ml. unfold Rdiv in Ml. rewrite Rmult_assoc, Rinv_l in Ml by lra. lra. }
    assert (S1 := Sz z P M). assert (S2 := Sz z' ltac:(rewrite <- E; auto) M'). clear - E NE S1 S2.
    assert (G : forall l l', length l = length l' -> l <> [] -> (forall i, (i < length l)%nat -> l.[i] < l'.[i]) -> rsum l < rsum l').
    { induction l as [|a l IH]; intros [|b l'] El Nl H; try discriminate; [congruence|].
      change (rsum (a :: l)) with (a + rsum l). change (rsum (b :: l')) with (b + rsum l'). assert (A := H 0%nat ltac:(simpl; lia)). simpl in A.
      destruct l as [|c l]; [destruct l'; [simpl; lra|discriminate]|].
      injection El as El. assert (X : rsum (c :: l) < rsum l').
      { apply IH; [exact El|discriminate|]. intros i Hi. apply (H (S i)). cbn [length] in *. lia. }
      lra. }
    assert (D : forall n, (n <= length z)%nat -> (exists i, (i < n)%nat /\ z'.[i] <= z.[i]) \/ forall i, (i < n)%nat -> z.[i] < z'.[i]).
    { induction n as [|n IH]; intro Hn; [right; intros; lia|]. destruct IH as [(i & Hi & X)|X]; [lia|left; exists i; split; [lia|auto]|].
      destruct (Rlt_dec z.[n] z'.[n]) as [Y|Y]; [right|left; exists n; split; [lia|lra]]. intros i Hi. destruct (Nat.eq_dec i n); [subst; auto|apply X; lia]. }
    destruct (D (length z) ltac:(lia)) as [X|X]; auto. assert (Y := G z z' E NE X). lra.
  Qed.
End Normalise.
(** Two algorithms, the second always better than the first. *)
Example C111_met :
  nth_error [[1; 2]; [5; 7]] 0 = Some [1; 2] /\ nth_error [[1; 2]; [5; 7]] 1 = Some [5; 7] /\
  In 1 [1; 2] /\ In 2 [1; 2] /\ 1 <> 2 /\ In 5 [5; 7] /\ In 7 [5; 7] /\ 5 <> 7.
Proof. simpl. repeat split; auto; intro; lra. Qed.

Print Assumptions C111_features.
Print Assumptions C111_constant_feature.
Print Assumptions C111_performances.
Print Assumptions C111_no_algorithm_dominates.
