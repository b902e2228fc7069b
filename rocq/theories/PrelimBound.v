(** Lemmas about bounding, normalisation and instance selection (PrelimProps.v). *)
From Coq Require Import Lqa Sorted.
From Verif Require Import Base BaseLemmas Num Ext FilterModel FilterProofs PreprocModel PreprocSpec PreprocProofs PrelimModel PrelimSpec PrelimProofs.
Set Implicit Arguments.

Lemma finite_some col l : finite col = Some l <-> col = map Some l.
Proof.
  revert l. induction col as [|[q|] t IH]; intro l; simpl.
  - split; [intro H; injection H as <-; auto|]. destruct l; [auto|discriminate].
  - destruct (finite t) as [l'|] eqn:E.
    + rewrite (proj1 (IH l') eq_refl). split.
      * intro H. injection H as <-. auto.
      * destruct l as [|q' l]; simpl; [discriminate|]. intro H. injection H as -> H.
        apply (map_Some_inj l' l) in H. subst. auto.
    + split; [discriminate|]. destruct l as [|q' l]; simpl; [discriminate|]. intro H. injection H as -> H.
      pose proof (proj2 (IH l) H). discriminate.
  - split; [discriminate|]. destruct l; discriminate.
Qed.
Lemma finite_none col : finite col = None <-> In None col.
Proof.
  induction col as [|[q|] t IH]; simpl.
  - split; [discriminate|tauto].
  - destruct (finite t).
    + split; [discriminate|]. intros [H|H]; [discriminate|]. apply IH in H. discriminate.
    + split; auto. intros _. right. apply IH. auto.
  - tauto.
Qed.

(* ------------------------------------------------------------------ sorting *)
Lemma insert_perm q l : Permutation (insert q l) (q :: l).
Proof.
  induction l as [|x t IH]; simpl; auto. destruct (Qle_bool q x); auto.
  rewrite IH. constructor.
Qed.
Lemma qsort_perm l : Permutation (qsort l) l.
Proof. induction l as [|q l IH]; simpl; auto. rewrite insert_perm. auto. Qed.
Lemma insert_sorted q l : StronglySorted Qle l -> StronglySorted Qle (insert q l).
Proof.
  induction 1 as [|x t S IH F]; simpl; [repeat constructor|].
  destruct (Qle_bool q x) eqn:E.
  - apply Qle_bool_iff in E. constructor; [constructor; auto|]. constructor; auto.
    eapply Forall_impl; [|exact F]. simpl. intros a Ha. lra.
  - apply Qle_bool_false in E. constructor; auto. apply Forall_forall. intros a Ha.
    apply (Permutation_in _ (insert_perm q t)) in Ha. destruct Ha as [<-|Ha]; [lra|].
    rewrite Forall_forall in F. auto.
Qed.
Lemma qsort_sorted l : StronglySorted Qle (qsort l).
Proof. induction l; simpl; [constructor|]. apply insert_sorted. auto. Qed.
Lemma qsort_length l : length (qsort l) = length l.
Proof. apply Permutation_length, qsort_perm. Qed.
Lemma sorted_nth l i j : StronglySorted Qle l -> i <= j < length l -> (nth i l 0 <= nth j l 0)%Q.
Proof.
  intro S. revert i j. induction S as [|x t S IH F]; intros i j [H1 H2]; simpl in H2; [lia|].
  destruct j as [|j].
  - replace i with 0 by lia. apply Qle_refl.
  - destruct i as [|i]; simpl.
    + rewrite Forall_forall in F. apply F, nth_In. lia.
    + apply IH. lia.
Qed.

Lemma quartiles_ordered l : l <> [] -> (quartile 1 (qsort l) <= quartile 3 (qsort l))%Q.
Proof.
  intro N. unfold quartile. rewrite qsort_length.
  assert (L : 0 < length l) by (destruct l; [congruence|simpl; lia]).
  pose proof (qsort_sorted l) as S. pose proof (qsort_length l) as E.
  set (n := length l) in *. set (s := qsort l) in *.
  assert (A : (1 * (n - 1)) / 4 <= (3 * (n - 1)) / 4) by (apply Nat.div_le_mono; lia).
  assert (B : (1 * (n - 1) + 3) / 4 <= (3 * (n - 1) + 3) / 4) by (apply Nat.div_le_mono; lia).
  assert (C : (3 * (n - 1) + 3) / 4 < n) by (apply Nat.div_lt_upper_bound; lia).
  assert (D : (3 * (n - 1)) / 4 < n) by (apply Nat.div_lt_upper_bound; lia).
  assert (X : (nth (1 * (n - 1) / 4)%nat s 0 <= nth (3 * (n - 1) / 4)%nat s 0)%Q) by (apply sorted_nth; auto; lia).
  assert (Y : (nth ((1 * (n - 1) + 3) / 4)%nat s 0 <= nth ((3 * (n - 1) + 3) / 4)%nat s 0)%Q) by (apply sorted_nth; auto; lia).
  apply Qmult_le_compat_r; [lra|]. discriminate.
Qed.

Lemma halfway s i j : i < length s -> j < length s ->
  exists a b, nth_error s i = Some a /\ nth_error s j = Some b /\ ((nth i s 0 + nth j s 0) / 2 = (a + b) / 2)%Q.
Proof.
  intros Hi Hj. exists (nth i s 0%Q), (nth j s 0%Q). split; [apply nth_error_nth'; auto|]. split; [apply nth_error_nth'; auto|]. auto.
Qed.
Lemma quartile_positions k n : 0 < n -> k <= 4 ->
  let m := k * (n - 1) in 4 * (m / 4) <= m < 4 * (m / 4) + 4 /\ m <= 4 * ((m + 3) / 4) < m + 4 /\ m / 4 < n /\ (m + 3) / 4 < n.
Proof.
  intros Hn Hk m. pose proof (Nat.div_mod m 4 ltac:(lia)). pose proof (Nat.mod_upper_bound m 4 ltac:(lia)).
  pose proof (Nat.div_mod (m + 3) 4 ltac:(lia)). pose proof (Nat.mod_upper_bound (m + 3) 4 ltac:(lia)).
  assert (m <= 4 * (n - 1)) by (apply Nat.mul_le_mono_r; auto).
  repeat apply conj; try lia; apply Nat.div_lt_upper_bound; lia.
Qed.
Lemma quartile_correct k s : s <> [] -> k <= 4 -> quartile_of k s (quartile k s).
Proof.
  intros N Hk. assert (L : 0 < length s) by (destruct s; [congruence|simpl; lia]).
  destruct (quartile_positions L Hk) as (A & B & C & D).
  destruct (halfway s C D) as (a & b & Ea & Eb & E). exists (k * (length s - 1) / 4), ((k * (length s - 1) + 3) / 4), a, b.
  split; auto. split; auto. split; auto. split; auto. unfold quartile. rewrite E. reflexivity.
Qed.
Lemma median_correct l med : median (map Some l) = Some med -> quartile_of 2 (qsort l) med.
Proof.
  unfold median. rewrite (proj2 (finite_some (map Some l) l) eq_refl).
  destruct (Nat.eqb_spec (length l) 0) as [E|E]; [discriminate|]. intros H. injection H as <-.
  pose proof (qsort_length l) as L. set (n := length l) in *.
  pose proof (Nat.div_mod (n - 1) 2 ltac:(lia)). pose proof (Nat.mod_upper_bound (n - 1) 2 ltac:(lia)).
  pose proof (Nat.div_mod n 2 ltac:(lia)). pose proof (Nat.mod_upper_bound n 2 ltac:(lia)).
  destruct (@halfway (qsort l) ((n - 1) / 2) (n / 2)) as (a & b & Ea & Eb & Em); [rewrite L; lia|rewrite L; lia|].
  exists ((n - 1) / 2), (n / 2), a, b. rewrite L. split; auto. split; auto. split; [lia|]. split; [lia|]. match goal with |- Qeq ?u ?v => change u with ((nth ((n - 1) / 2)%nat (qsort l) 0 + nth (n / 2)%nat (qsort l) 0) / 2)%Q end. rewrite Em. reflexivity.
Qed.
Lemma iqr_correct l iq : iqr (map Some l) = Some iq ->
  exists q1 q3, quartile_of 1 (qsort l) q1 /\ quartile_of 3 (qsort l) q3 /\ iq = (q3 - q1)%Q.
Proof.
  unfold iqr. rewrite (proj2 (finite_some (map Some l) l) eq_refl).
  destruct (Nat.eqb_spec (length l) 0) as [E|E]; [discriminate|]. intros H. injection H as <-.
  assert (N : qsort l <> []) by (intros X; pose proof (qsort_length l) as L; rewrite X in L; simpl in L; lia).
  exists (quartile 1 (qsort l)), (quartile 3 (qsort l)). split; [apply quartile_correct; auto; lia|].
  split; [apply quartile_correct; auto; lia|]. auto.
Qed.
(** the bounds of a complete column *)
Lemma bounds_finite l : l <> [] ->
  exists med iq, median (map Some l) = Some med /\ iqr (map Some l) = Some iq /\ (0 <= iq)%Q /\
    lo_bound (map Some l) = Some (med - 5 * iq)%Q /\ hi_bound (map Some l) = Some (med + 5 * iq)%Q.
Proof.
  intro N. unfold lo_bound, hi_bound, median, iqr. rewrite (proj2 (finite_some (map Some l) l) eq_refl).
  destruct (Nat.eqb_spec (length l) 0) as [E|E]; [destruct l; [congruence|discriminate]|].
  do 2 eexists. split; [reflexivity|]. split; [reflexivity|]. split; [|split; reflexivity].
  pose proof (quartiles_ordered N). lra.
Qed.

(** the median separates the data *)
Lemma bound_value_spec lo hi v : (lo <= hi)%Q ->
  exists w, bound_value (Some lo) (Some hi) (Some v) = Some w /\
    ((hi < v)%Q -> (w == hi)%Q) /\ ((v < lo)%Q -> (w == lo)%Q) /\ ((lo <= v <= hi)%Q -> (w == v)%Q).
Proof.
  intro H. unfold bound_value. simpl. eexists. split; [reflexivity|].
  destruct (Qle_bool v hi) eqn:E1; destruct (Qle_bool lo v) eqn:E2;
    try apply Qle_bool_iff in E1; try apply Qle_bool_iff in E2;
    try apply Qle_bool_false in E1; try apply Qle_bool_false in E2; simpl; repeat split; intros; lra.
Qed.

Lemma bound_value_missing v : bound_value None None v = None.
Proof.
  unfold bound_value. simpl. destruct v; simpl; auto.
Qed.

Lemma bound_missing col : In None col -> lo_bound col = None /\ hi_bound col = None /\
  bound_column col = map (fun _ => None) col.
Proof.
  intro H. apply finite_none in H. unfold bound_column, lo_bound, hi_bound, median, iqr. rewrite H. simpl.
  split; auto. split; auto. apply map_ext. apply bound_value_missing.
Qed.

(* ------------------------------------------------------------------ normalisation *)
Lemma scatter_none (col vals : list num) : Forall (fun v => v = None) col -> scatter col vals = map (fun _ => None) col.
Proof. induction 1 as [|v t H F IH]; simpl; auto. subst v. rewrite IH. auto. Qed.
Lemma scatter_all l vals : length vals = length l -> scatter (map Some l) vals = vals.
Proof.
  revert vals. induction l as [|q l IH]; intros [|w ws] E; simpl in *; try discriminate; auto.
  injection E as E. rewrite IH; auto.
Qed.
Lemma present_all l : present (map Some l) = l.
Proof. unfold present. induction l; simpl; f_equal; auto. Qed.

Lemma normalise_missing tr m s col : m = None -> normalise_column tr m s col = map (fun _ => None) col.
Proof.
  intros ->. unfold normalise_column. rewrite scatter_none.
  - rewrite map_map. auto.
  - apply Forall_forall. intros v Hv. apply in_map_iff in Hv. destruct Hv as (u & <- & _).
    destruct u; auto.
Qed.
Lemma nmin_missing col : In None col -> nmin col = None.
Proof. intro H. apply finite_none in H. unfold nmin. rewrite H. auto. Qed.

Lemma fold_min_le t : forall q, 
  (fold_left (fun a b => if Qle_bool a b then a else b) t q <= q)%Q /\
  (forall x, In x t -> (fold_left (fun a b => if Qle_bool a b then a else b) t q <= x)%Q) /\
  (In (fold_left (fun a b => if Qle_bool a b then a else b) t q) (q :: t)).
Proof.
  induction t as [|a t IH]; intro q; simpl.
  - split; [apply Qle_refl|]. split; [tauto|auto].
  - destruct (IH (if Qle_bool q a then q else a)) as (H1 & H2 & H3).
    destruct (Qle_bool q a) eqn:E.
    + apply Qle_bool_iff in E. split; auto. split.
      * intros x [<-|Hx]; auto. lra.
      * destruct H3 as [H3|H3]; auto.
    + apply Qle_bool_false in E. split; [lra|]. split.
      * intros x [<-|Hx]; auto.
      * destruct H3 as [H3|H3]; auto.
Qed.
Lemma nmin_finite l : l <> [] -> exists m, nmin (map Some l) = Some m /\ In m l /\ forall x, In x l -> (m <= x)%Q.
Proof.
  intro N. unfold nmin. rewrite (proj2 (finite_some (map Some l) l) eq_refl).
  destruct l as [|q t]; [congruence|]. eexists. split; [reflexivity|].
  destruct (fold_min_le t q) as (H1 & H2 & H3). split; auto. intros x [<-|Hx]; auto.
Qed.

Lemma normalise_finite tr m s l :
  normalise_column tr (Some m) s (map Some l) =
  scatter (map Some (map (fun x => x - m + s)%Q l)) (tr (map (fun x => x - m + s)%Q l)).
Proof.
  unfold normalise_column. rewrite map_map.
  assert (E : map (fun x => nadd (nsub (Some x) (Some m)) (Some s)) l = map Some (map (fun x => x - m + s)%Q l)).
  { rewrite map_map. reflexivity. }
  etransitivity; [apply (f_equal (fun c => scatter c (tr (present c))) E)|]. cbv beta.
  do 2 f_equal. apply present_all.
Qed.

(* ------------------------------------------------------------------ selection *)
Lemma set_true_spec idx : forall mask m, set_true mask idx = Some m ->
  length m = length mask /\
  (forall z, In z idx -> py_index (length mask) z <> None) /\
  forall i, i < length mask -> (nth i m false = true <-> nth i mask false = true \/ exists z, In z idx /\ py_index (length mask) z = Some i).
Proof.
  induction idx as [|z idx IH]; intros mask m H; simpl in H.
  - injection H as <-. split; auto. split; [simpl; tauto|]. intros i Hi. split; auto.
    intros [X|(z & [] & _)]; auto.
  - destruct (py_index (length mask) z) as [k|] eqn:E; [|discriminate].
    destruct (IH _ _ H) as (L & P & S). rewrite upd_length in *.
    split; auto. split.
    { intros w [<-|Hw]; [congruence|auto]. }
    intros i Hi. rewrite S by auto.
    assert (Lk : k < length mask).
    { unfold py_index in E. destruct (0 <=? z)%Z eqn:A.
      - destruct (z <? Z.of_nat (length mask))%Z eqn:B; [|discriminate]. injection E as <-. lia.
      - destruct (0 <=? z + Z.of_nat (length mask))%Z eqn:B; [|discriminate]. injection E as <-. lia. }
    destruct (Nat.eq_dec k i) as [->|Nk].
    + rewrite upd_same by auto. split; auto. intros _. right. exists z. split; auto. left. auto.
    + rewrite upd_other by auto. split.
      * intros [X|(w & Hw & X)]; auto. right. exists w. split; auto. right. auto.
      * intros [X|(w & [<-|Hw] & X)]; auto; [congruence|]. right. exists w. auto.
Qed.
Lemma set_true_ok idx : forall mask, (forall z, In z idx -> py_index (length mask) z <> None) -> exists m, set_true mask idx = Some m.
Proof.
  induction idx as [|z idx IH]; intros mask H; simpl; [eauto|].
  destruct (py_index (length mask) z) as [k|] eqn:E.
  - apply IH. intros w Hw. rewrite upd_length. apply H. right. auto.
  - exfalso. apply (H z); auto. left. auto.
Qed.
Lemma py_index_none n z : py_index n z = None <-> (z < - Z.of_nat n \/ Z.of_nat n <= z)%Z.
Proof.
  unfold py_index. destruct (Z.leb_spec 0 z) as [A|A].
  - destruct (Z.ltb_spec z (Z.of_nat n)) as [B|B]; split; try discriminate; auto; lia.
  - destruct (Z.leb_spec 0 (z + Z.of_nat n)) as [B|B]; split; try discriminate; auto; lia.
Qed.
Lemma py_index_some n z i : py_index n z = Some i <->
  (i < n)%nat /\ (z = Z.of_nat i \/ z = Z.of_nat i - Z.of_nat n)%Z.
Proof.
  unfold py_index. destruct (Z.leb_spec 0 z) as [A|A].
  - destruct (Z.ltb_spec z (Z.of_nat n)) as [B|B].
    + split; [intro H; injection H as <-; lia|]. intros [H1 [H2|H2]]; f_equal; lia.
    + split; [discriminate|]. intros [H1 [H2|H2]]; lia.
  - destruct (Z.leb_spec 0 (z + Z.of_nat n)) as [B|B].
    + split; [intro H; injection H as <-; lia|]. intros [H1 [H2|H2]]; f_equal; lia.
    + split; [discriminate|]. intros [H1 [H2|H2]]; lia.
Qed.

Lemma select_restricted A (mask : list bool) (l : list A) : length l = length mask ->
  restricted_to (positions mask) l (select mask l).
Proof.
  intro E. unfold restricted_to. destruct l as [|a l].
  - destruct mask; [reflexivity|discriminate].
  - rewrite (select_positions mask (a :: l) a E), map_map. apply map_ext_in. intros i Hi.
    symmetry. apply nth_error_nth'. apply positions_in in Hi. lia.
Qed.
Lemma restrict_all L S n mask (d : inst_data L S) : of_size n d -> length mask = n ->
  all_restricted_to (positions mask) d (restrict mask d).
Proof.
  unfold of_size. intros (H1 & H2 & H3 & H4 & H5 & H6 & H7 & H8 & H9 & H10 & H11) E. subst n.
  unfold all_restricted_to, restrict. cbn [d_x d_y d_x_raw d_y_raw d_bin d_beta d_good d_best d_p d_labels d_s].
  do 10 (split; [apply select_restricted; congruence|]).
  destruct (d_s d); simpl; auto. apply select_restricted. congruence.
Qed.

Lemma flag2 a b : reflect (a = true /\ b = true) (a && b).
Proof. destruct a, b; constructor; intuition discriminate. Qed.
Lemma flag3 a b c : reflect (a = true /\ b = true /\ c = true) (a && b && c).
Proof. destruct a, b, c; constructor; intuition discriminate. Qed.

Lemma repeat_false_nth n i : nth i (repeat false n) false = false.
Proof. revert i. induction n; intros [|i]; simpl; auto. Qed.
Lemma repeat_true_nth n i : i < n -> nth i (repeat true n) false = true.
Proof. revert i. induction n; intros [|i] H; simpl; auto; try lia. apply IHn. lia. Qed.

Lemma restricted_all A (l : list A) : restricted_to (seq 0 (length l)) l l.
Proof.
  unfold restricted_to. induction l as [|a l IH]; simpl; auto. f_equal.
  rewrite <- seq_shift, map_map. exact IH.
Qed.

Section Sel.
  Variables L S : Type.
  Variable o : selopts.
  Variable split : option (list nat).
  Variable file : list Z.
  Variables n n_feats n_algos : nat.
  Variable d : inst_data L S.
  Hypothesis Size : of_size n d.

  Let fractional := small_scale_flag o = true /\ small_scale_float o = true.
  Let fileindexed := file_idx_flag o = true /\ file_exists o = true.
  Let bydensity := density_flag o = true /\ min_distance_float o = true /\ type_str o = true.

  Lemma selection_which m d' dense : filter_insts o split file n_feats n_algos d = Ok (m, d', dense) ->
      (fractional -> exists idx, split = Some idx /\ forall i, i < n -> (nth i m false = true <-> In i idx)) /\
      (~ fractional -> fileindexed -> file_mask n file = Some m) /\
      (~ fractional -> ~ fileindexed -> bydensity -> exists ex di vi,
         filter_instance (d_x d) (d_y d) (d_bin d) n_feats n_algos (min_distance o) (selvars_type o) = Ok (ex, di, vi) /\
         forall i, i < n -> (nth i m false = true <-> nth i ex false = false)) /\
      (~ fractional -> ~ fileindexed -> ~ bydensity -> m = repeat true n /\ d' = d /\ dense = None).
  Proof.
    unfold filter_insts. assert (Ln : length (d_x d) = n) by apply Size. rewrite Ln.
    unfold fractional, fileindexed, bydensity.
    destruct (flag2 (small_scale_flag o) (small_scale_float o)) as [F|F].
    { destruct split as [idx|]; [|discriminate].
      destruct (set_true (repeat false n) (map Z.of_nat idx)) as [m'|] eqn:E; [|discriminate].
      rewrite orb_true_r. simpl. intro H. injection H as <- _ _. split; [|tauto].
      intros _. exists idx. split; auto. intros i Hi. destruct (set_true_spec _ _ E) as (_ & _ & X).
      rewrite repeat_length in X. rewrite X, repeat_false_nth by auto. split.
      - intros [Y|(z & Hz & Y)]; [discriminate|]. apply in_map_iff in Hz. destruct Hz as (k & <- & Hk).
        apply py_index_some in Y. destruct Y as [_ Y]. assert (k = i) by lia. subst. auto.
      - intro Hk. right. exists (Z.of_nat i). split; [apply in_map; auto|]. apply py_index_some. lia. }
    destruct (flag2 (file_idx_flag o) (file_exists o)) as [G|G].
    { destruct (file_mask n file) as [m'|] eqn:E; [|discriminate]. simpl. intro H. injection H as <- _ _. tauto. }
    destruct (flag3 (density_flag o) (min_distance_float o) (type_str o)) as [B|B]; simpl.
    - destruct (filter_instance _ _ _ _ _ _ _) as [[[ex di] vi]|e] eqn:E; [|discriminate].
      intro H. injection H as <- _ _. split; [tauto|]. split; [tauto|]. split; [|tauto].
      intros _ _ _. exists ex, di, vi. split; auto. intros i Hi.
      assert (Le : length ex = n).
      { destruct (filter_ok _ _ _ _ _ _ _ E) as (t & _ & _ & -> & _ & _). rewrite map_length, final_length. apply Size. }
      rewrite nth_indep with (d' := negb false) by (rewrite map_length; lia).
      rewrite map_nth, negb_true_iff. reflexivity.
    - intro H. injection H as <- <- <-. split; [tauto|]. split; [tauto|]. split; [tauto|]. auto.
  Qed.

  Lemma selection_spec m d' dense : filter_insts o split file n_feats n_algos d = Ok (m, d', dense) ->
      length m = n /\
      exists idx, increasing idx /\ (forall i, In i idx <-> i < n /\ nth i m false = true) /\
        all_restricted_to idx d d' /\
        (bydensity -> dense = Some d) /\ (~ bydensity -> dense = None).
  Proof.
    intro H.
    assert (Lm : length m = n).
    { revert H. unfold filter_insts. assert (Ln : length (d_x d) = n) by apply Size. rewrite Ln.
      destruct (small_scale_flag o && small_scale_float o).
      { destruct split as [idx|]; [|discriminate].
        destruct (set_true (repeat false n) (map Z.of_nat idx)) as [m'|] eqn:E; [|discriminate].
        rewrite orb_true_r. simpl. intro H. injection H as <- _ _. destruct (set_true_spec _ _ E) as (X & _).
        rewrite X, repeat_length. auto. }
      destruct (file_idx_flag o && file_exists o).
      { destruct (file_mask n file) as [m'|] eqn:E; [|discriminate]. simpl. intro H. injection H as <- _ _.
        destruct (set_true_spec _ _ E) as (X & _). rewrite X, repeat_length. auto. }
      destruct (density_flag o && min_distance_float o && type_str o); simpl.
      - destruct (filter_instance _ _ _ _ _ _ _) as [[[ex di] vi]|e] eqn:E; [|discriminate].
        intro H. injection H as <- _ _. destruct (filter_ok _ _ _ _ _ _ _ E) as (t & _ & _ & -> & _ & _).
        rewrite !map_length, final_length. apply Size.
      - intro H. injection H as <- _ _. apply repeat_length. }
    split; auto. exists (positions m). split; [apply positions_increasing|].
    split; [intro i; rewrite positions_in, Lm; reflexivity|].
    revert H. unfold filter_insts. unfold bydensity.
    destruct (if small_scale_flag o && small_scale_float o then _ else _) as [m'|e] eqn:Em; [|discriminate].
    destruct ((file_idx_flag o && file_exists o) || (small_scale_flag o && small_scale_float o)
              || (density_flag o && min_distance_float o && type_str o)) eqn:Any.
    - intro H. injection H as -> <- <-. split; [apply restrict_all with (n := n); auto|].
      destruct (flag3 (density_flag o) (min_distance_float o) (type_str o)); tauto.
    - intro H. injection H as -> <- <-. rewrite !orb_false_iff in Any. destruct Any as [[A1 A2] A3].
      rewrite A1, A2, A3 in Em. injection Em as <-.
      assert (Ln : length (d_x d) = n) by apply Size.
      assert (P : positions (repeat true (length (d_x d))) = seq 0 n).
      { rewrite positions_all, repeat_length; auto. rewrite existsb_false_iff. intros b Hb.
        apply in_map_iff in Hb. destruct Hb as (c & <- & Hc). apply repeat_spec in Hc. subst. auto. }
      rewrite P. split.
      + unfold all_restricted_to. destruct Size as (H1 & H2 & H3 & H4 & H5 & H6 & H7 & H8 & H9 & H10 & H11).
        split; [rewrite <- H1; apply restricted_all|]. split; [rewrite <- H2; apply restricted_all|].
        split; [rewrite <- H3; apply restricted_all|]. split; [rewrite <- H4; apply restricted_all|].
        split; [rewrite <- H5; apply restricted_all|]. split; [rewrite <- H6; apply restricted_all|].
        split; [rewrite <- H7; apply restricted_all|]. split; [rewrite <- H8; apply restricted_all|].
        split; [rewrite <- H9; apply restricted_all|]. split; [rewrite <- H10; apply restricted_all|].
        destruct (d_s d); auto. rewrite <- H11. apply restricted_all.
      + destruct (flag3 (density_flag o) (min_distance_float o) (type_str o)); [congruence|]. tauto.
  Qed.
End Sel.

(** the index file *)
Lemma file_mask_spec n file m : file_mask n file = Some m ->
  length m = n /\ forall i, i < n ->
    (nth i m false = true <->
     exists z, In z file /\ (z < Z.of_nat n)%Z /\ (z = Z.of_nat i + 1 \/ z = Z.of_nat i + 1 - Z.of_nat n)%Z).
Proof.
  unfold file_mask. intro E. destruct (set_true_spec _ _ E) as (Lm & _ & X).
  rewrite repeat_length in *. split; auto. intros i Hi. rewrite X, repeat_false_nth by auto. split.
  - intros [Y|(w & Hw & Y)]; [discriminate|]. apply in_map_iff in Hw. destruct Hw as (z & <- & Hz).
    apply filter_In in Hz. destruct Hz as [Hz Lz]. apply Z.ltb_lt in Lz. apply py_index_some in Y.
    exists z. split; auto. split; auto. lia.
  - intros (z & Hz & Lz & H). right. exists (z - 1)%Z. split.
    + apply (in_map (fun w => (w - 1)%Z)), filter_In. split; auto. apply Z.ltb_lt. auto.
    + apply py_index_some. split; auto. lia.
Qed.
Lemma file_mask_error n file : file_mask n file = None <-> exists z, In z file /\ (z < 1 - Z.of_nat n /\ z < Z.of_nat n)%Z.
Proof.
  unfold file_mask. set (idx := map _ _).
  assert (I : forall w, In w idx <-> exists z, In z file /\ (z < Z.of_nat n)%Z /\ w = (z - 1)%Z).
  { intro w. unfold idx. rewrite in_map_iff. split.
    - intros (z & <- & H). apply filter_In in H. destruct H as [H1 H2]. apply Z.ltb_lt in H2. eauto.
    - intros (z & H1 & H2 & ->). exists z. split; auto. apply filter_In. split; auto. apply Z.ltb_lt. auto. }
  split.
  - intro E. destruct (existsb (fun w => match py_index n w with None => true | _ => false end) idx) eqn:B.
    + apply existsb_exists in B. destruct B as (w & Hw & Hn). destruct (py_index n w) eqn:P; [discriminate|].
      apply py_index_none in P. apply I in Hw. destruct Hw as (z & Hz & Lz & ->). exists z. split; auto. lia.
    + exfalso. destruct (@set_true_ok idx (repeat false n)) as [m Hm]; [|congruence].
      intros w Hw Hn. rewrite repeat_length in Hn. rewrite existsb_false_iff in B. apply B in Hw. rewrite Hn in Hw. discriminate.
  - intros (z & Hz & Lz & Ln). destruct (set_true (repeat false n) idx) as [m|] eqn:E; auto. exfalso.
    destruct (set_true_spec _ _ E) as (_ & X & _). rewrite repeat_length in X. apply (X (z - 1)%Z).
    + apply I. eauto.
    + apply py_index_none. lia.
Qed.
