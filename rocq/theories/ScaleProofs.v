(** Proofs about the scale of a feature. *)
From Coq Require Import Permutation Sorted Lqa.
From Verif Require Import Base BaseLemmas Num PrelimModel PrelimSpec PrelimProofs PrelimBound InstOrderSpec InstOrderProofs ScaleSpec.
Set Implicit Arguments.
Open Scope list_scope.

Lemma qsort_mono f l : (forall x y, Qle_bool (f x) (f y) = Qle_bool x y) -> qsort (map f l) = map f (qsort l).
Proof.
  intro M. induction l as [|q l IH]; simpl; auto. rewrite IH. generalize (qsort l) as s. clear IH.
  induction s as [|x s IH]; simpl; auto. rewrite M. destruct (Qle_bool q x); simpl; auto. rewrite IH. auto.
Qed.
Lemma qsort_id s : StronglySorted Qle s -> qsort s = s.
Proof.
  induction 1 as [|x t S IH F]; simpl; auto. rewrite IH. destruct t as [|y t]; simpl; auto.
  inversion F; subst. rewrite (proj2 (Qle_bool_iff x y)) by auto. auto.
Qed.
Lemma sorted_snoc l x : StronglySorted Qle l -> (forall y, In y l -> (y <= x)%Q) -> StronglySorted Qle (l ++ [x]).
Proof.
  induction 1 as [|a t S IH F]; intro H; simpl; [repeat constructor|]. constructor; [apply IH; intros; apply H; right; auto|].
  apply Forall_app. split; auto. repeat constructor. apply H. left. auto.
Qed.
Lemma sorted_rev f l : (forall x y, (x <= y)%Q -> (f y <= f x)%Q) -> StronglySorted Qle l -> StronglySorted Qle (rev (map f l)).
Proof.
  intro A. induction 1 as [|x t S IH F]; simpl; [constructor|]. apply sorted_snoc; auto. intros y H. apply in_rev, in_map_iff in H.
  destruct H as (z & <- & I). apply A. rewrite Forall_forall in F. auto.
Qed.
Lemma qsort_anti f l : (forall x y, (x <= y)%Q -> (f y <= f x)%Q) -> Forall2 Qeq (qsort (map f l)) (rev (map f (qsort l))).
Proof.
  intro A. rewrite <- (qsort_id (@sorted_rev f _ A (qsort_sorted l))). apply qsort_reordered, reordered_perm.
  rewrite <- Permutation_rev. apply Permutation_map, Permutation_sym, qsort_perm.
Qed.
Lemma qsort_clip f l : (forall x y, (x <= y)%Q -> (f x <= f y)%Q) -> Forall2 Qeq (qsort (map f l)) (map f (qsort l)).
Proof.
  intro A. assert (S : StronglySorted Qle (map f (qsort l))).
  { generalize (qsort_sorted l). generalize (qsort l). induction 1 as [|x t S IH F]; simpl; constructor; auto.
    rewrite Forall_forall in *. intros y H. apply in_map_iff in H. destruct H as (z & <- & I). auto. }
  rewrite <- (qsort_id S). apply qsort_reordered, reordered_perm. apply Permutation_map, Permutation_sym, qsort_perm.
Qed.

Lemma nth_map_in (f : Q -> Q) s i : i < length s -> nth i (map f s) 0%Q = f (nth i s 0%Q).
Proof. intro H. rewrite (nth_indep _ _ (f 0%Q)) by (rewrite map_length; auto). apply map_nth. Qed.

(** the median and the interquartile range of a complete column *)
Lemma median_all l : l <> [] -> median (map Some l) = Some ((nth ((length l - 1) / 2)%nat (qsort l) 0 + nth (length l / 2)%nat (qsort l) 0) / 2)%Q.
Proof.
  intro N. unfold median. rewrite (proj2 (finite_some (map Some l) l) eq_refl). destruct l; [congruence|reflexivity].
Qed.
Lemma iqr_all l : l <> [] -> iqr (map Some l) = Some (quartile 3 (qsort l) - quartile 1 (qsort l))%Q.
Proof.
  intro N. unfold iqr. rewrite (proj2 (finite_some (map Some l) l) eq_refl). destruct l; [congruence|reflexivity].
Qed.
Lemma half_lt n : 0 < n -> (n - 1) / 2 < n /\ n / 2 < n /\ n - 1 - (n - 1) / 2 = n / 2 /\ n - 1 - n / 2 = (n - 1) / 2.
Proof.
  intro H. pose proof (Nat.div_mod (n - 1) 2 ltac:(lia)). pose proof (Nat.mod_upper_bound (n - 1) 2 ltac:(lia)).
  pose proof (Nat.div_mod n 2 ltac:(lia)). pose proof (Nat.mod_upper_bound n 2 ltac:(lia)). lia.
Qed.
Lemma quarter_lt n : 0 < n ->
  (1 * (n - 1)) / 4 < n /\ (1 * (n - 1) + 3) / 4 < n /\ (3 * (n - 1)) / 4 < n /\ (3 * (n - 1) + 3) / 4 < n /\
  n - 1 - (1 * (n - 1)) / 4 = (3 * (n - 1) + 3) / 4 /\ n - 1 - (1 * (n - 1) + 3) / 4 = (3 * (n - 1)) / 4 /\
  n - 1 - (3 * (n - 1) + 3) / 4 = (1 * (n - 1)) / 4 /\ n - 1 - (3 * (n - 1)) / 4 = (1 * (n - 1) + 3) / 4 /\
  (1 * (n - 1) + 3) / 4 <= (n - 1) / 2 + 1 /\ (n - 1) / 2 <= (3 * (n - 1) + 3) / 4.
Proof.
  intro H. set (k := n - 1). replace n with (S k) by lia.
  pose proof (Nat.div_mod (1 * k) 4 ltac:(lia)). pose proof (Nat.mod_upper_bound (1 * k) 4 ltac:(lia)).
  pose proof (Nat.div_mod (1 * k + 3) 4 ltac:(lia)). pose proof (Nat.mod_upper_bound (1 * k + 3) 4 ltac:(lia)).
  pose proof (Nat.div_mod (3 * k) 4 ltac:(lia)). pose proof (Nat.mod_upper_bound (3 * k) 4 ltac:(lia)).
  pose proof (Nat.div_mod (3 * k + 3) 4 ltac:(lia)). pose proof (Nat.mod_upper_bound (3 * k + 3) 4 ltac:(lia)).
  pose proof (Nat.div_mod k 2 ltac:(lia)). pose proof (Nat.mod_upper_bound k 2 ltac:(lia)). lia.
Qed.

Section Affine.
  Variables a b : Q.
  Let f := fun q : Q => (a * q + b)%Q.
  Lemma scale_all l : map (on_scale a b) (map Some l) = map Some (map f l).
  Proof. rewrite !map_map. reflexivity. Qed.

  Lemma median_scaled l : ~ (a == 0)%Q -> l <> [] -> same_number (median (map Some (map f l))) (on_scale a b (median (map Some l))).
  Proof.
    intros A N. assert (N' : map f l <> []) by (destruct l; [congruence|discriminate]). rewrite !median_all by auto. rewrite map_length.
    assert (L : 0 < length l) by (destruct l; [congruence|simpl; lia]). destruct (half_lt L) as (H1 & H2 & H3 & H4).
    cbn [same_number on_scale option_map]. destruct (Qlt_le_dec 0 a) as [P|P].
    - rewrite qsort_mono, !nth_map_in by (rewrite ?qsort_length; auto;
        intros; apply eq_true_iff_eq; rewrite !Qle_bool_iff; unfold f; rewrite Qplus_le_l; apply Qmult_le_l; auto).
      unfold f. field.
    - assert (M : (a < 0)%Q) by (apply Qle_lteq in P; destruct P; auto; tauto).
      assert (An : forall x y, (x <= y)%Q -> (f y <= f x)%Q).
      { intros x y H. unfold f. apply Qplus_le_l. setoid_replace (a * y)%Q with (- ((- a) * y))%Q by ring.
        setoid_replace (a * x)%Q with (- ((- a) * x))%Q by ring. apply Qopp_le_compat. apply Qmult_le_l; auto. lra. }
      pose proof (@qsort_anti f l An) as Fs. rewrite !(f2_nth _ Fs).
      rewrite !rev_nth by (rewrite map_length, qsort_length; auto). rewrite map_length, qsort_length.
      replace (length l - S ((length l - 1) / 2)) with (length l / 2) by lia. replace (length l - S (length l / 2)) with ((length l - 1) / 2) by lia.
      rewrite !nth_map_in by (rewrite qsort_length; auto). unfold f. field.
  Qed.
  Lemma iqr_scaled l : ~ (a == 0)%Q -> l <> [] ->
    same_number (iqr (map Some (map f l))) (nmul (Some (if Qle_bool 0 a then a else - a)%Q) (iqr (map Some l))).
  Proof.
    intros A N. assert (N' : map f l <> []) by (destruct l; [congruence|discriminate]). rewrite !iqr_all by auto.
    assert (L : 0 < length l) by (destruct l; [congruence|simpl; lia]). destruct (quarter_lt L) as (H1 & H2 & H3 & H4 & H5 & H6 & H7 & H8 & _).
    cbn [same_number nmul]. unfold quartile. rewrite !qsort_length, !map_length. destruct (Qlt_le_dec 0 a) as [P|P].
    - rewrite qsort_mono, !nth_map_in by (rewrite ?qsort_length; auto;
        intros; apply eq_true_iff_eq; rewrite !Qle_bool_iff; unfold f; rewrite Qplus_le_l; apply Qmult_le_l; auto).
      rewrite (proj2 (Qle_bool_iff 0 a)) by lra. unfold f. field.
    - assert (M : (a < 0)%Q) by (apply Qle_lteq in P; destruct P; auto; tauto).
      assert (An : forall x y, (x <= y)%Q -> (f y <= f x)%Q).
      { intros x y H. unfold f. apply Qplus_le_l. setoid_replace (a * y)%Q with (- ((- a) * y))%Q by ring.
        setoid_replace (a * x)%Q with (- ((- a) * x))%Q by ring. apply Qopp_le_compat. apply Qmult_le_l; auto. lra. }
      pose proof (@qsort_anti f l An) as Fs. rewrite !(f2_nth _ Fs).
      rewrite !rev_nth by (rewrite map_length, qsort_length; auto). rewrite map_length, qsort_length. set (n := length l) in *.
      replace (n - S (3 * (n - 1) / 4)) with ((1 * (n - 1) + 3) / 4) by lia.
      replace (n - S ((3 * (n - 1) + 3) / 4)) with ((1 * (n - 1)) / 4) by lia.
      replace (n - S (1 * (n - 1) / 4)) with ((3 * (n - 1) + 3) / 4) by lia.
      replace (n - S ((1 * (n - 1) + 3) / 4)) with ((3 * (n - 1)) / 4) by lia.
      assert (Z : Qle_bool 0 a = false) by (apply Qle_bool_false; auto). rewrite Z.
      rewrite !nth_map_in by (rewrite qsort_length; auto). unfold f. field.
  Qed.

  Lemma bounds_scaled l : ~ (a == 0)%Q -> l <> [] ->
    same_number (lo_bound (map Some (map f l))) (on_scale a b (if Qle_bool 0 a then lo_bound (map Some l) else hi_bound (map Some l))) /\
    same_number (hi_bound (map Some (map f l))) (on_scale a b (if Qle_bool 0 a then hi_bound (map Some l) else lo_bound (map Some l))).
  Proof.
    intros A N. pose proof (median_scaled A N) as M. pose proof (iqr_scaled A N) as I. unfold lo_bound, hi_bound.
    assert (N' : map f l <> []) by (destruct l; [congruence|discriminate]).
    destruct (bounds_finite N) as (m & i & Em & Ei & _). destruct (bounds_finite N') as (m' & i' & Em' & Ei' & _).
    rewrite Em, Ei, Em', Ei' in *. simpl in M, I. destruct (Qle_bool 0 a); simpl; rewrite M, I; split; ring.
  Qed.

  Lemma clip_scaled lo hi lo' hi' v : ~ (a == 0)%Q -> (lo <= hi)%Q ->
    same_number (Some lo') (on_scale a b (if Qle_bool 0 a then Some lo else Some hi)) ->
    same_number (Some hi') (on_scale a b (if Qle_bool 0 a then Some hi else Some lo)) ->
    same_number (bound_value (Some lo') (Some hi') (Some (f v))) (on_scale a b (bound_value (Some lo) (Some hi) (Some v))).
  Proof.
    intros A H L' H'. destruct (Qlt_le_dec 0 a) as [P|P].
    - rewrite (proj2 (Qle_bool_iff 0 a)) in * by lra. simpl in L', H'.
      assert (X : (lo' <= hi')%Q). { rewrite L', H'. apply Qplus_le_l, Qmult_le_l; auto. }
      destruct (@bound_value_spec lo hi v H) as (w & -> & W1 & W2 & W3). destruct (@bound_value_spec lo' hi' (f v) X) as (w' & -> & U1 & U2 & U3).
      cbn [same_number on_scale option_map]. destruct (Qlt_le_dec hi v) as [C|C]; [|destruct (Qlt_le_dec v lo) as [D|D]].
      + rewrite W1, U1, H' by (auto; rewrite H'; unfold f; apply Qplus_lt_l, Qmult_lt_l; auto). reflexivity.
      + rewrite W2, U2, L' by (auto; rewrite L'; unfold f; apply Qplus_lt_l, Qmult_lt_l; auto). reflexivity.
      + rewrite W3, U3 by (auto; rewrite ?L', ?H'; unfold f; split; apply Qplus_le_l, Qmult_le_l; auto). reflexivity.
    - assert (M : (0 < - a)%Q) by (apply Qle_lteq in P; destruct P; [lra|tauto]).
      assert (Z : Qle_bool 0 a = false) by (apply Qle_bool_false; lra). rewrite Z in *. simpl in L', H'.
      assert (N : forall x, (a * x == - (- a * x))%Q) by (intro; ring).
      assert (LE : forall x y, (x <= y)%Q -> (a * y + b <= a * x + b)%Q).
      { intros x y E. rewrite (N x), (N y). apply Qplus_le_l, Qopp_le_compat, Qmult_le_l; auto. }
      assert (LT : forall x y, (x < y)%Q -> (a * y + b < a * x + b)%Q).
      { intros x y E. assert ((- a * x < - a * y)%Q) by (apply Qmult_lt_l; auto). rewrite (N x), (N y). lra. }
      assert (X : (lo' <= hi')%Q) by (rewrite L', H'; auto).
      destruct (@bound_value_spec lo hi v H) as (w & -> & W1 & W2 & W3). destruct (@bound_value_spec lo' hi' (f v) X) as (w' & -> & U1 & U2 & U3).
      cbn [same_number on_scale option_map]. destruct (Qlt_le_dec hi v) as [C|C]; [|destruct (Qlt_le_dec v lo) as [D|D]].
      + rewrite W1, U2, L' by (auto; rewrite L'; apply LT; auto). reflexivity.
      + rewrite W2, U1, H' by (auto; rewrite H'; apply LT; auto). reflexivity.
      + rewrite W3, U3 by (auto; rewrite ?L', ?H'; split; apply LE; auto). reflexivity.
  Qed.

  Lemma bound_scaled col : ~ (a == 0)%Q ->
    Forall2 same_number (bound_column (map (on_scale a b) col)) (map (on_scale a b) (bound_column col)).
  Proof.
    intro A. destruct (missing_or_all col) as [M|(l & ->)].
    - destruct (PrelimBound.bound_missing col M) as (_ & _ & ->).
      assert (M' : In None (map (on_scale a b) col)) by (apply in_map_iff; exists None; auto).
      destruct (PrelimBound.bound_missing _ M') as (_ & _ & ->). clear. induction col; simpl; constructor; simpl; auto.
    - destruct l as [|q l]; [constructor|]. assert (N : q :: l <> []) by discriminate. set (l0 := q :: l) in *. clearbody l0.
      rewrite scale_all. destruct (bounds_scaled A N) as [BL BH]. unfold bound_column.
      destruct (bounds_finite N) as (m & i & _ & _ & I & El & Eh).
      assert (N' : map f l0 <> []) by (destruct l0; [congruence|discriminate]).
      destruct (bounds_finite N') as (m' & i' & _ & _ & _ & El' & Eh'). rewrite El, Eh, El', Eh' in *.
      assert (LH : (m - 5 * i <= m + 5 * i)%Q) by lra.
      generalize l0 at 1 2. intro k. induction k as [|v k IH]; cbn [map]; constructor; auto. apply clip_scaled; auto;
        destruct (Qle_bool 0 a); auto.
  Qed.
End Affine.

(** the order statistics of a column of other than two values lie within its bounds *)
Lemma six_inside A B C D E F : (A <= B)%Q -> (B <= C)%Q -> (C <= D)%Q -> (D <= E)%Q -> (E <= F)%Q ->
  let med := ((C + D) / 2)%Q in let iq := ((E + F) / 2 - (A + B) / 2)%Q in
  forall v, In v [C; D; A; B; E; F] -> (med - 5 * iq <= v <= med + 5 * iq)%Q.
Proof.
  intros H1 H2 H3 H4 H5 med iq v H. subst med iq.
  assert (X : forall u w : Q, ((u + w) / 2 == (1 # 2) * (u + w))%Q) by (intros; field). rewrite !X.
  simpl in H. destruct H as [<-|[<-|[<-|[<-|[<-|[<-|[]]]]]]]; split; lra.
Qed.
Lemma statistics_inside s n : StronglySorted Qle s -> length s = n -> 0 < n -> n <> 2 ->
  let med := ((nth ((n - 1) / 2)%nat s 0 + nth (n / 2)%nat s 0) / 2)%Q in
  let iq := (quartile 3 s - quartile 1 s)%Q in
  forall i, In i [(n - 1) / 2; n / 2; 1 * (n - 1) / 4; (1 * (n - 1) + 3) / 4; 3 * (n - 1) / 4; (3 * (n - 1) + 3) / 4] ->
    (med - 5 * iq <= nth i s 0 <= med + 5 * iq)%Q.
Proof.
  intros Ss <- L N2 med iq i Hi. subst med iq. unfold quartile. set (n := length s) in *.
  destruct (half_lt L) as (H1 & H2 & _). destruct (quarter_lt L) as (Q1 & Q2 & Q3 & Q4 & _).
  assert (O1 : 1 * (n - 1) / 4 <= (1 * (n - 1) + 3) / 4) by (apply Nat.div_le_mono; lia).
  assert (O2 : (n - 1) / 2 <= n / 2) by (apply Nat.div_le_mono; lia).
  assert (O3 : 3 * (n - 1) / 4 <= (3 * (n - 1) + 3) / 4) by (apply Nat.div_le_mono; lia).
  assert (X : (1 * (n - 1) + 3) / 4 <= (n - 1) / 2 /\ n / 2 <= 3 * (n - 1) / 4).
  { clear - L N2. remember (n - 1) as k. replace n with (S k) in * by lia.
    pose proof (Nat.div_mod (1 * k + 3) 4 ltac:(lia)). pose proof (Nat.mod_upper_bound (1 * k + 3) 4 ltac:(lia)).
    pose proof (Nat.div_mod (3 * k) 4 ltac:(lia)). pose proof (Nat.mod_upper_bound (3 * k) 4 ltac:(lia)).
    pose proof (Nat.div_mod k 2 ltac:(lia)). pose proof (Nat.mod_upper_bound k 2 ltac:(lia)).
    pose proof (Nat.div_mod (S k) 2 ltac:(lia)). pose proof (Nat.mod_upper_bound (S k) 2 ltac:(lia)). lia. }
  destruct X as [X1 X2].
  assert (W : forall i j, i <= j < n -> (nth i s 0 <= nth j s 0)%Q) by (intros; apply sorted_nth; auto).
  refine (@six_inside _ _ _ _ _ _ (W _ _ (conj O1 Q2)) (W _ _ (conj X1 H1)) (W _ _ (conj O2 H2)) (W _ _ (conj X2 Q3)) (W _ _ (conj O3 Q4)) _ _).
  apply (in_map (fun i => nth i s 0%Q)) in Hi. exact Hi.
Qed.

(** clipping *)
Definition clip (lo hi v : Q) : Q := match bound_value (Some lo) (Some hi) (Some v) with Some w => w | None => 0%Q end.
Lemma clip_eq lo hi v : (lo <= hi)%Q -> bound_value (Some lo) (Some hi) (Some v) = Some (clip lo hi v).
Proof. intro H. unfold clip. destruct (@bound_value_spec lo hi v H) as (w & -> & _). auto. Qed.
Lemma clip_spec lo hi v : (lo <= hi)%Q ->
  ((hi < v)%Q -> (clip lo hi v == hi)%Q) /\ ((v < lo)%Q -> (clip lo hi v == lo)%Q) /\ ((lo <= v <= hi)%Q -> (clip lo hi v == v)%Q).
Proof. intro H. unfold clip. destruct (@bound_value_spec lo hi v H) as (w & -> & X). auto. Qed.
Lemma clip_inside lo hi v : (lo <= hi)%Q -> (lo <= clip lo hi v <= hi)%Q.
Proof.
  intro H. destruct (clip_spec v H) as (A & B & C). destruct (Qlt_le_dec hi v) as [X|X]; [rewrite A by auto; lra|].
  destruct (Qlt_le_dec v lo) as [Y|Y]; [rewrite B by auto; lra|]. rewrite C by auto. lra.
Qed.
Lemma clip_mono lo hi x y : (lo <= hi)%Q -> (x <= y)%Q -> (clip lo hi x <= clip lo hi y)%Q.
Proof.
  intros H L. pose proof (clip_inside x H) as I. pose proof (clip_inside y H) as J.
  destruct (clip_spec x H) as (A & B & C). destruct (clip_spec y H) as (A' & B' & C').
  destruct (Qlt_le_dec hi y) as [X|X]; [rewrite (A' X); lra|].
  destruct (Qlt_le_dec x lo) as [Y|Y]; [rewrite (B Y); lra|].
  rewrite C, C' by lra. auto.
Qed.

Lemma bound_column_clip l : l <> [] -> exists lo hi, (lo <= hi)%Q /\ lo_bound (map Some l) = Some lo /\ hi_bound (map Some l) = Some hi /\
  bound_column (map Some l) = map Some (map (clip lo hi) l).
Proof.
  intro N. destruct (bounds_finite N) as (m & i & _ & _ & I & El & Eh). exists (m - 5 * i)%Q, (m + 5 * i)%Q.
  assert (LH : (m - 5 * i <= m + 5 * i)%Q) by lra. repeat (split; [auto|]). unfold bound_column. rewrite El, Eh, !map_map.
  apply map_ext. intro v. apply clip_eq. auto.
Qed.

Lemma same_trans a b c : same_number a b -> same_number b c -> same_number a c.
Proof. destruct a, b, c; simpl; try tauto. intros. etransitivity; eauto. Qed.
Lemma some_inj A (x y : A) : Some x = Some y -> x = y.
Proof. congruence. Qed.
Lemma bounds_again l lo hi : l <> [] -> length l <> 2 -> lo_bound (map Some l) = Some lo -> hi_bound (map Some l) = Some hi ->
  same_number (lo_bound (map Some (map (clip lo hi) l))) (Some lo) /\ same_number (hi_bound (map Some (map (clip lo hi) l))) (Some hi).
Proof.
  intros N N2 El Eh. destruct (bounds_finite N) as (m & i & Em & Ei & I & El' & Eh'). rewrite El' in El. rewrite Eh' in Eh.
  injection El as <-. injection Eh as <-. set (lo := (m - 5 * i)%Q) in *. set (hi := (m + 5 * i)%Q) in *.
  assert (LH : (lo <= hi)%Q) by (unfold lo, hi; lra).
  assert (N' : map (clip lo hi) l <> []) by (destruct l; [congruence|discriminate]).
  assert (L : 0 < length l) by (destruct l; [congruence|simpl; lia]).
  pose proof (statistics_inside (qsort_sorted l) (qsort_length l) L N2) as In6. cbv zeta in In6.
  rewrite (median_all N) in Em. apply some_inj in Em. rewrite (iqr_all N) in Ei. apply some_inj in Ei. rewrite Em, Ei in In6.
  destruct (half_lt L) as (H1 & H2 & _). destruct (quarter_lt L) as (Q1 & Q2 & Q3 & Q4 & _).
  pose proof (@qsort_clip (clip lo hi) l (fun x y => @clip_mono lo hi x y LH)) as Fs.
  assert (K : forall j, j < length l -> In j [(length l - 1) / 2; length l / 2; 1 * (length l - 1) / 4; (1 * (length l - 1) + 3) / 4; 3 * (length l - 1) / 4; (3 * (length l - 1) + 3) / 4] ->
    (nth j (qsort (map (clip lo hi) l)) 0 == nth j (qsort l) 0)%Q).
  { intros j Hj J. rewrite (f2_nth _ Fs), nth_map_in by (rewrite qsort_length; auto). apply (clip_spec _ LH). apply In6. auto. }
  assert (M : same_number (median (map Some (map (clip lo hi) l))) (Some m)).
  { rewrite (median_all N'), map_length, <- Em. cbn [same_number]. rewrite !K; [reflexivity|simpl; tauto..]. }
  assert (J : same_number (iqr (map Some (map (clip lo hi) l))) (Some i)).
  { rewrite (iqr_all N'), <- Ei. cbn [same_number]. unfold quartile. rewrite !qsort_length, map_length.
    rewrite !K; [reflexivity|auto; simpl; tauto..]. }
  destruct (bounds_finite N') as (m' & i' & Em' & Ei' & _ & -> & ->). rewrite Em' in M. rewrite Ei' in J. simpl in M, J |- *.
  unfold lo, hi. rewrite M, J. split; reflexivity.
Qed.
Lemma bound_two (x y : Q) : exists u v, bound_column [Some x; Some y] = [Some u; Some v] /\ (u == (x + y) / 2)%Q /\ (v == (x + y) / 2)%Q.
Proof.
  assert (N : [x; y] <> []) by discriminate. destruct (bound_column_clip N) as (lo & hi & LH & El & Eh & E). simpl map in E. rewrite E.
  assert (M : same_number (median [Some x; Some y]) (Some ((x + y) / 2)%Q)).
  { pose proof (median_all N) as X. simpl map in X. rewrite X. simpl. destruct (Qle_bool x y); simpl; field. }
  assert (I : same_number (iqr [Some x; Some y]) (Some 0%Q)).
  { pose proof (iqr_all N) as X. simpl map in X. rewrite X. unfold quartile. rewrite qsort_length. simpl. destruct (Qle_bool x y); simpl; field. }
  unfold lo_bound, hi_bound in El, Eh. simpl map in El, Eh.
  destruct (median [Some x; Some y]) as [m|]; [|destruct M]. destruct (iqr [Some x; Some y]) as [i|]; [|destruct I]. cbn [same_number] in M, I.
  simpl in El, Eh. injection El as <-. injection Eh as <-.
  exists (clip (m - 5 * i) (m + 5 * i) x), (clip (m - 5 * i) (m + 5 * i) y). split; auto.
  pose proof (clip_inside x LH) as A. pose proof (clip_inside y LH) as B.
  set (cx := clip _ _ x) in *. set (cy := clip _ _ y) in *. rewrite <- !M. split; apply Qle_antisym; lra.
Qed.

Lemma bound_twice col : Forall2 same_number (bound_column (bound_column col)) (bound_column col).
Proof.
  destruct (missing_or_all col) as [M|(l & ->)].
  - destruct (PrelimBound.bound_missing col M) as (_ & _ & E0).
    assert (M' : In None (bound_column col)) by (rewrite E0; apply in_map_iff; eauto).
    destruct (PrelimBound.bound_missing (bound_column col) M') as (_ & _ & E1). rewrite E1, E0. clear. induction col; simpl; constructor; simpl; auto.
  - destruct (Nat.eq_dec (length l) 2) as [E2|N2].
    + destruct l as [|x [|y [|z l]]]; try discriminate. simpl map. destruct (bound_two x y) as (u & v & -> & U & V).
      destruct (bound_two u v) as (u' & v' & -> & U' & V').
      assert (X : (((x + y) / 2 + (x + y) / 2) / 2 == (x + y) / 2)%Q) by field.
      repeat constructor; simpl; rewrite ?U', ?V', ?U, ?V; auto.
    + destruct l as [|q l]; [constructor|]. assert (N : q :: l <> []) by discriminate. set (l0 := q :: l) in *. clearbody l0.
      destruct (bound_column_clip N) as (lo & hi & LH & El & Eh & E). rewrite E.
      assert (N' : map (clip lo hi) l0 <> []) by (destruct l0; [congruence|discriminate]).
      destruct (bounds_again N N2 El Eh) as [A B]. unfold bound_column.
      generalize l0 at 3 4. intro k. induction k as [|v k IH]; cbn [map]; constructor; auto.
      pose proof (@bound_value_same _ _ _ _ _ _ A B (same_refl (Some (clip lo hi v)))) as Y. eapply same_trans; [exact Y|]. rewrite clip_eq by auto. simpl. apply (clip_spec _ LH), clip_inside, LH.
Qed.

(** normalisation *)
Lemma shifted_complete b c c' : Forall2 same_number c' (map (on_scale 1 b) c) ->
  (In None c /\ In None c') \/ exists l l', c = map Some l /\ c' = map Some l' /\ Forall2 (fun x y => (x == y + b)%Q) l' l.
Proof.
  revert c'. induction c as [|v c IH]; intros [|x c'] H; try (inversion H; fail).
  - right. exists [], []. repeat split; constructor.
  - assert (HH : same_number x (on_scale 1 b v) /\ Forall2 same_number c' (map (on_scale 1 b) c)) by (inversion H; auto).
    destruct HH as [H3 H4]. destruct (IH _ H4) as [[A B]|(l & l0 & -> & -> & F)].
    + left. split; right; auto.
    + destruct v as [v|], x as [x|]; simpl in H3; try tauto.
      * right. exists (v :: l), (x :: l0). repeat split; constructor; auto. rewrite H3. ring.
      * left. split; left; auto.
Qed.
Lemma min_shifted b l l' m m' : Forall2 (fun x y => (x == y + b)%Q) l' l -> In m l -> (forall x, In x l -> (m <= x)%Q) ->
  In m' l' -> (forall x, In x l' -> (m' <= x)%Q) -> (m' == m + b)%Q.
Proof.
  intros F I L I' L'. apply Qle_antisym.
  - assert (X : exists y, In y l' /\ (y == m + b)%Q).
    { clear - F I. induction F as [|x y l' l E F IH]; [destruct I|]. destruct I as [->|I]; [exists x; split; [left|]; auto|].
      destruct (IH I) as (z & Z & Ez). exists z. split; [right|]; auto. }
    destruct X as (y & Y & Ey). rewrite <- Ey. auto.
  - assert (X : exists y, In y l /\ (m' == y + b)%Q).
    { clear - F I'. induction F as [|x y l' l E F IH]; [destruct I'|]. destruct I' as [->|I]; [exists y; split; [left|]; auto|].
      destruct (IH I) as (z & Z & Ez). exists z. split; [right|]; auto. }
    destruct X as (y & Y & Ey). specialize (L y Y). rewrite Ey. apply Qplus_le_l. auto.
Qed.
Lemma f2_length (l l' : list Q) P : Forall2 P l l' -> length l = length l'.
Proof. induction 1; simpl; auto. Qed.
Lemma normalise_shifted_feature tr b c c' : well_behaved tr -> Forall2 same_number c' (map (on_scale 1 b) c) ->
  Forall2 same_number (normalise_feature tr c') (normalise_feature tr c).
Proof.
  intros [Len Eqv] F. destruct (shifted_complete _ _ F) as [[A B]|(l & l' & -> & -> & G)].
  - assert (Z : forall c, In None c -> normalise_feature tr c = map (fun _ => None) c).
    { intros c0 H. apply PrelimBound.normalise_missing. unfold nmin. rewrite (proj2 (finite_none c0) H). auto. }
    rewrite !Z by auto. clear - F. remember (map (on_scale 1 b) c) as d. revert c Heqd.
    induction F as [|x y l l' E F IH]; intros [|w c] H; simpl in *; try discriminate; constructor; simpl; auto. apply IH. injection H; auto.
  - destruct l as [|q l]; inversion G; subst.
    + unfold normalise_feature, normalise_column. simpl. pose proof (Len []) as X. destruct (tr []); [constructor|discriminate].
    + assert (N : q :: l <> []) by discriminate. assert (N' : x :: l0 <> []) by discriminate.
      destruct (nmin_finite N) as (m & Em & I & L). destruct (nmin_finite N') as (m' & Em' & I' & L').
      pose proof (min_shifted G I L I' L') as M. unfold normalise_feature. rewrite Em, Em'. rewrite !normalise_finite, !scatter_all by (rewrite Len; auto).
      apply Eqv. clear - M G. induction G as [|u v k' k E G IH]; simpl; constructor; auto. rewrite E, M. ring.
Qed.
Lemma feature_shifted o tr b col : well_behaved tr -> norm o = true ->
  Forall2 same_number (feature_column o tr (map (on_scale 1 b) col)) (feature_column o tr col).
Proof.
  intros W No. unfold feature_column. rewrite No. apply normalise_shifted_feature with b; auto. destruct (bound o).
  - apply bound_scaled. discriminate.
  - clear. induction col; simpl; constructor; auto. apply same_refl.
Qed.

(** a value shared by more than three quarters of the instances *)
Lemma filter_beyond (P : Q -> bool) s i : (forall j, i <= j < length s -> P (nth j s 0%Q) = false) -> length (filter P s) <= i.
Proof.
  revert i. induction s as [|x s IH]; intros i H; simpl; [lia|]. destruct i as [|i].
  - pose proof (H 0 ltac:(simpl; lia)) as X. simpl in X. rewrite X. apply (IH 0). intros j Hj. apply (H (S j)). simpl. lia.
  - assert (L : length (filter P s) <= i) by (apply IH; intros j Hj; apply (H (S j)); simpl; lia). destruct (P x); simpl; lia.
Qed.
Lemma filter_before (P : Q -> bool) s i : i <= length s -> (forall j, j < i -> P (nth j s 0%Q) = false) -> length (filter P s) <= length s - i.
Proof.
  revert i. induction s as [|x s IH]; intros i L H; simpl in *; [lia|]. destruct i as [|i].
  - pose proof (IH 0 ltac:(lia) ltac:(intros; lia)). destruct (P x); simpl; lia.
  - pose proof (H 0 ltac:(lia)) as X. simpl in X. rewrite X. pose proof (IH i ltac:(lia) ltac:(intros j Hj; apply (H (S j)); lia)). lia.
Qed.
Lemma bound_mostly v l : 3 * length l < 4 * length (filter (Qeq_bool v) l) ->
  Forall (fun w => exists q, w = Some q /\ (q == v)%Q) (bound_column (map Some l)).
Proof.
  intro H. assert (N : l <> []) by (intro X; subst l; simpl in H; lia).
  set (n := length l) in *. set (s := qsort l). set (k := length (filter (Qeq_bool v) l)) in *.
  assert (Ls : length s = n) by apply qsort_length. assert (S : StronglySorted Qle s) by apply qsort_sorted.
  assert (K : length (filter (Qeq_bool v) s) = k).
  { unfold k, s. apply Permutation_length, BaseLemmas.filter_perm; auto. apply qsort_perm. }
  assert (V : forall i, (n - 1) / 4 <= i <= (3 * (n - 1) + 3) / 4 -> i < n -> (nth i s 0 == v)%Q).
  { intros i [I1 I2] I3.
    pose proof (Nat.div_mod (n - 1) 4 ltac:(lia)). pose proof (Nat.mod_upper_bound (n - 1) 4 ltac:(lia)).
    pose proof (Nat.div_mod (3 * (n - 1) + 3) 4 ltac:(lia)). pose proof (Nat.mod_upper_bound (3 * (n - 1) + 3) 4 ltac:(lia)).
    destruct (Qlt_le_dec v (nth i s 0%Q)) as [A|A].
    - assert (X : length (filter (Qeq_bool v) s) <= i).
      { apply filter_beyond. intros j Hj. apply not_true_iff_false. rewrite Qeq_bool_iff.
        pose proof (@sorted_nth s i j S Hj). lra. }
      lia.
    - destruct (Qlt_le_dec (nth i s 0%Q) v) as [B|B]; [|lra].
      assert (X : length (filter (Qeq_bool v) s) <= length s - (i + 1)).
      { apply filter_before; [lia|]. intros j Hj. apply not_true_iff_false. rewrite Qeq_bool_iff.
        pose proof (@sorted_nth s j i S ltac:(lia)). lra. }
      lia. }
  assert (P0 : 0 < n) by (unfold n; destruct l; [congruence|simpl; lia]).
  destruct (quarter_lt P0) as (Q1 & Q2 & Q3 & Q4 & Q5 & Q6 & Q7 & Q8 & Q9 & Q10). destruct (half_lt P0) as (M1 & M2 & M3 & M4).
  assert (Hm : forall i, i < n -> (1 * (n - 1)) / 4 <= i <= (3 * (n - 1) + 3) / 4 -> (nth i s 0 == v)%Q).
  { intros i Hi Hr. apply V; auto. replace (n - 1) with (1 * (n - 1)) at 1 by lia. auto. }
  assert (O : (1 * (n - 1)) / 4 <= (1 * (n - 1) + 3) / 4 /\ (3 * (n - 1)) / 4 <= (3 * (n - 1) + 3) / 4 /\ (1 * (n - 1)) / 4 <= (3 * (n - 1)) / 4 /\
              (1 * (n - 1) + 3) / 4 <= (3 * (n - 1) + 3) / 4 /\ (1 * (n - 1)) / 4 <= (n - 1) / 2 /\ (n - 1) / 2 <= n / 2 /\ n / 2 <= (3 * (n - 1) + 3) / 4).
  { repeat split; try (apply Nat.div_le_mono; lia).
    - pose proof (Nat.div_mod (1 * (n - 1)) 4 ltac:(lia)). pose proof (Nat.div_mod (n - 1) 2 ltac:(lia)). pose proof (Nat.mod_upper_bound (n - 1) 2 ltac:(lia)). lia.
    - pose proof (Nat.div_mod (3 * (n - 1) + 3) 4 ltac:(lia)). pose proof (Nat.mod_upper_bound (3 * (n - 1) + 3) 4 ltac:(lia)).
      pose proof (Nat.div_mod n 2 ltac:(lia)). lia. }
  destruct O as (O1 & O2 & O3 & O4 & O5 & O6 & O7).
  assert (Me : median (map Some l) = Some ((nth ((n - 1) / 2) s 0 + nth (n / 2) s 0) / 2)%Q) by (apply median_all; auto).
  assert (Iq : iqr (map Some l) = Some (quartile 3 s - quartile 1 s)%Q) by (apply iqr_all; auto).
  assert (Em : ((nth ((n - 1) / 2) s 0 + nth (n / 2) s 0) / 2 == v)%Q).
  { rewrite !Hm by lia. field. }
  assert (Ei : (quartile 3 s - quartile 1 s == 0)%Q).
  { unfold quartile. rewrite Ls. rewrite !Hm by lia. field. }
  destruct (bounds_finite N) as (med & iq & A & B & _ & Lo & Hi). rewrite Me in A. rewrite Iq in B. injection A as <-. injection B as <-.
  unfold bound_column. rewrite Lo, Hi. apply Forall_forall. intros w Iw. rewrite map_map in Iw. apply in_map_iff in Iw. destruct Iw as (x & <- & _).
  set (med := ((nth ((n - 1) / 2) s 0 + nth (n / 2) s 0) / 2)%Q) in *. set (iq := (quartile 3 s - quartile 1 s)%Q) in *.
  assert (LH : (med - 5 * iq <= med + 5 * iq)%Q) by (rewrite Ei; lra).
  destruct (@bound_value_spec _ _ x LH) as (q & Ew & W1 & W2 & W3). exists q. split; [exact Ew|].
  assert (R1 : (med - 5 * iq == v)%Q) by (rewrite Em, Ei; ring). assert (R2 : (med + 5 * iq == v)%Q) by (rewrite Em, Ei; ring).
  destruct (Qlt_le_dec (med + 5 * iq) x) as [C|C]; [rewrite W1; auto|]. destruct (Qlt_le_dec x (med - 5 * iq)) as [D|D]; [rewrite W2; auto|].
  rewrite W3 by auto. rewrite R2 in C. rewrite R1 in D. lra.
Qed.
