(** Lemmas for InstOrderProps.v: sorting, minimum, bounding and normalisation do not depend on the order. *)
From Coq Require Import Permutation Lqa Sorted.
From Verif Require Import Base BaseLemmas Num Ext FilterModel FilterProofs PreprocModel PreprocSpec PreprocProofs PrelimModel PrelimProofs PrelimBound
  InstOrderSpec.
Set Implicit Arguments.
Open Scope nat_scope.
Open Scope list_scope.

Lemma f2_refl l : Forall2 Qeq l l.
Proof. induction l; constructor; auto. reflexivity. Qed.
Lemma f2_trans l1 l2 l3 : Forall2 Qeq l1 l2 -> Forall2 Qeq l2 l3 -> Forall2 Qeq l1 l3.
Proof.
  intro H. revert l3. induction H as [|a b l1 l2 E H IH]; intros l3 H3; inversion H3; subst; constructor; auto.
  etransitivity; eauto.
Qed.
Lemma f2_nth l l' i : Forall2 Qeq l l' -> (nth i l 0 == nth i l' 0)%Q.
Proof. intro H. revert i. induction H; intros [|i]; simpl; auto; reflexivity. Qed.
Lemma leb_eq a b c d : (a == b)%Q -> (c == d)%Q -> Qle_bool a c = Qle_bool b d.
Proof. intros A B. rewrite A, B. reflexivity. Qed.
Lemma insert_f2 q q' l l' : (q == q')%Q -> Forall2 Qeq l l' -> Forall2 Qeq (insert q l) (insert q' l').
Proof.
  intros E H. induction H as [|a b l l' Ea H IH]; simpl; [repeat constructor; auto|].
  rewrite (leb_eq E Ea). destruct (Qle_bool q' b); repeat constructor; auto.
Qed.
Lemma insert_swap x y s : Forall2 Qeq (insert x (insert y s)) (insert y (insert x s)).
Proof.
  induction s as [|a s IH]; simpl.
  - destruct (Qle_bool x y) eqn:A, (Qle_bool y x) eqn:B; try apply f2_refl.
    + apply Qle_bool_iff in A, B. assert (x == y)%Q by lra. repeat constructor; lra.
    + apply Qle_bool_false in A, B. lra.
  - destruct (Qle_bool y a) eqn:Ya, (Qle_bool x a) eqn:Xa; simpl; rewrite ?Ya, ?Xa.
    + destruct (Qle_bool x y) eqn:A, (Qle_bool y x) eqn:B; try apply f2_refl.
      * apply Qle_bool_iff in A, B. assert (x == y)%Q by lra. repeat constructor; try lra. apply f2_refl.
      * apply Qle_bool_false in A, B. lra.
    + assert (Qle_bool x y = false) as ->.
      { apply Qle_bool_iff in Ya. apply Qle_bool_false in Xa. apply not_true_is_false. intro Z. apply Qle_bool_iff in Z. lra. }
      apply f2_refl.
    + assert (Qle_bool y x = false) as ->.
      { apply Qle_bool_iff in Xa. apply Qle_bool_false in Ya. apply not_true_is_false. intro Z. apply Qle_bool_iff in Z. lra. }
      apply f2_refl.
    + constructor; auto. reflexivity.
Qed.
Lemma qsort_reordered l l' : reordered l l' -> Forall2 Qeq (qsort l) (qsort l').
Proof.
  intros (m & P & F).
  assert (A : Forall2 Qeq (qsort l) (qsort m)).
  { clear F. induction P as [|x l m P IH|x y l|l m n P IH P' IH']; simpl.
    - constructor.
    - apply insert_f2; auto. reflexivity.
    - apply insert_swap.
    - eapply f2_trans; eauto. }
  assert (B : Forall2 Qeq (qsort m) (qsort l')).
  { clear A P. induction F; simpl; [constructor|]. apply insert_f2; auto. }
  eapply f2_trans; eauto.
Qed.
Lemma reordered_length l l' : reordered l l' -> length l = length l'.
Proof. intros (m & P & F). rewrite (Permutation_length P). clear P. induction F; simpl; auto. Qed.
Lemma reordered_perm l l' : Permutation l l' -> reordered l l'.
Proof. intro P. exists l'. split; auto. apply f2_refl. Qed.
Lemma reordered_map (f g : Q -> Q) l l' : (forall a b, (a == b)%Q -> (f a == g b)%Q) -> reordered l l' -> reordered (map f l) (map g l').
Proof.
  intros E (m & P & F). exists (map f m). split; [apply Permutation_map; auto|]. clear P. induction F; simpl; constructor; auto.
Qed.
Lemma reordered_in l l' v : reordered l l' -> In v l -> exists v', In v' l' /\ (v == v')%Q.
Proof.
  intros (m & P & F) H. apply (Permutation_in _ P) in H. clear P.
  induction F as [|a b m l' E F IH]; simpl in *; [tauto|]. destruct H as [<-|H]; eauto.
  destruct (IH H) as (v' & I & Q). eauto.
Qed.
Lemma reordered_sym l l' : reordered l l' -> reordered l' l.
Proof.
  intros (m & P & F).
  assert (X : forall a b, Permutation a b -> forall b', Forall2 Qeq b b' -> exists a', Forall2 Qeq a' a /\ Permutation a' b').
  { clear. intros a b P. induction P as [|x l m P IH|x y l|l m n P IH P' IH']; intros b' F.
    - inversion F. subst. exists []. split; constructor.
    - inversion F as [|? z ? ? E F']; subst. destruct (IH _ F') as (a' & A & B). exists (z :: a'). split; constructor; auto. symmetry; auto.
    - inversion F as [|? z ? ? E F']; subst. inversion F' as [|? w ? ? E' F'']; subst. exists (w :: z :: l'0). split; [|constructor].
      constructor; [symmetry; auto|]. constructor; [symmetry; auto|]. clear - F''. induction F''; constructor; auto. symmetry; auto.
    - destruct (IH' _ F) as (m' & A & B).
      assert (A' : Forall2 Qeq m m') by (clear - A; induction A; constructor; auto; symmetry; auto).
      destruct (IH _ A') as (a' & C & D). exists a'. split; auto. eapply Permutation_trans; eauto. }
  destruct (X _ _ P _ F) as (a' & A & B). exists a'. split; auto. apply Permutation_sym. auto.
Qed.

Lemma same_refl a : same_number a a.
Proof. destruct a; simpl; auto. reflexivity. Qed.

(** minimum *)
Lemma nmin_reordered l l' : reordered l l' -> same_number (nmin (map Some l)) (nmin (map Some l')).
Proof.
  intro R. destruct l as [|a l].
  { pose proof (reordered_length R) as E. destruct l'; [|discriminate]. simpl. auto. }
  assert (N : a :: l <> []) by discriminate. assert (N' : l' <> []) by (intros ->; apply reordered_length in R; discriminate).
  destruct (nmin_finite N) as (m & -> & I & M). destruct (nmin_finite N') as (m' & -> & I' & M'). simpl.
  destruct (@reordered_in _ _ _ R I) as (w & Iw & Ew). destruct (@reordered_in _ _ _ (reordered_sym R) I') as (w' & Iw' & Ew').
  specialize (M' _ Iw). specialize (M _ Iw'). lra.
Qed.

(** bounds *)
Lemma median_reordered l l' : reordered l l' -> same_number (median (map Some l)) (median (map Some l')).
Proof.
  intro R. unfold median. rewrite !(proj2 (finite_some (map Some _) _) eq_refl), (reordered_length R).
  destruct (Nat.eqb (length l') 0); simpl; auto.
  rewrite (f2_nth _ (qsort_reordered R)), (f2_nth _ (qsort_reordered R)). reflexivity.
Qed.
Lemma iqr_reordered l l' : reordered l l' -> same_number (iqr (map Some l)) (iqr (map Some l')).
Proof.
  intro R. unfold iqr. rewrite !(proj2 (finite_some (map Some _) _) eq_refl), (reordered_length R).
  destruct (Nat.eqb (length l') 0); [exact I|]. cbn [same_number]. unfold quartile. rewrite !qsort_length, (reordered_length R).
  rewrite !(f2_nth _ (qsort_reordered R)). reflexivity.
Qed.
Lemma bounds_reordered l l' : reordered l l' ->
  same_number (lo_bound (map Some l)) (lo_bound (map Some l')) /\ same_number (hi_bound (map Some l)) (hi_bound (map Some l')).
Proof.
  intro R. pose proof (median_reordered R) as A. pose proof (iqr_reordered R) as B. unfold lo_bound, hi_bound.
  destruct (median (map Some l)), (median (map Some l')), (iqr (map Some l)), (iqr (map Some l')); simpl in *; try tauto.
  split; rewrite A, B; reflexivity.
Qed.
Lemma bound_value_same lo lo' hi hi' v v' : same_number lo lo' -> same_number hi hi' -> same_number v v' ->
  same_number (bound_value lo hi v) (bound_value lo' hi' v').
Proof.
  intros A B C. unfold bound_value, b2n, nlt.
  destruct lo as [lo|], lo' as [lo'|]; simpl in A; try tauto; destruct hi as [hi|], hi' as [hi'|]; simpl in B; try tauto;
    destruct v as [v|], v' as [v'|]; simpl in C; try tauto; simpl; auto.
  rewrite (leb_eq C B), (leb_eq A C). destruct (Qle_bool v' hi'), (Qle_bool lo' v'); simpl; rewrite A, B, C; reflexivity.
Qed.

(** a column with a missing value *)
Lemma bound_missing col : In None col -> bound_column col = map (fun _ => None) col.
Proof.
  intro H. apply finite_none in H. unfold bound_column, lo_bound, hi_bound, median, iqr. rewrite H. simpl.
  apply map_ext. intros v. unfold bound_value. simpl. destruct v; reflexivity.
Qed.
Lemma missing_or_all (col : list num) : In None col \/ exists l, col = map Some l.
Proof. destruct (finite col) as [l|] eqn:E; [right; exists l; apply finite_some; auto|left; apply finite_none; auto]. Qed.
Lemma perm_map_some (l : list Q) (c : list num) : Permutation (map Some l) c -> exists l', c = map Some l' /\ Permutation l l'.
Proof. intro H. apply Permutation_sym, Permutation_map_inv in H. destruct H as (l' & -> & P). eauto. Qed.

Lemma normalise_missing tr m s col : m = None -> normalise_column tr m s col = map (fun _ => None) col.
Proof.
  intros ->. unfold normalise_column.
  assert (E : map (fun v => nadd (nsub v None) (Some s)) col = map (fun _ => None) col) by (apply map_ext; intros []; reflexivity).
  rewrite E. rewrite scatter_none; [rewrite map_map; auto|]. apply Forall_forall. intros v H. apply in_map_iff in H. destruct H as (w & <- & _). auto.
Qed.

Section Column.
  Variable tr : list Q -> list num.
  Hypothesis Blind : order_blind tr.

  Lemma normalise_same m m' s l l' i i' v v' : (m == m')%Q -> reordered l l' ->
    nth_error l i = Some v -> nth_error l' i' = Some v' -> (v == v')%Q ->
    same_number (nth i (normalise_column tr (Some m) s (map Some l)) None) (nth i' (normalise_column tr (Some m') s (map Some l')) None).
  Proof.
    intros Em R Hi Hi' E. destruct Blind as [Len Bl]. rewrite !normalise_finite, !scatter_all by (rewrite Len; auto).
    eapply Bl.
    - apply reordered_map with (2 := R). intros a b X. rewrite X, Em. reflexivity.
    - rewrite nth_error_map, Hi. reflexivity.
    - rewrite nth_error_map, Hi'. reflexivity.
    - rewrite E, Em. reflexivity.
  Qed.
  Lemma normalise_feature_same l l' i i' v v' : reordered l l' ->
    nth_error l i = Some v -> nth_error l' i' = Some v' -> (v == v')%Q ->
    same_number (nth i (normalise_feature tr (map Some l)) None) (nth i' (normalise_feature tr (map Some l')) None).
  Proof.
    intros R Hi Hi' E. unfold normalise_feature. pose proof (nmin_reordered R) as M.
    assert (N : l <> []) by (intros ->; destruct i; discriminate). assert (N' : l' <> []) by (intros ->; destruct i'; discriminate).
    destruct (nmin_finite N) as (m & Em & _). destruct (nmin_finite N') as (m' & Em' & _). rewrite Em, Em' in *. simpl in M.
    eapply normalise_same; eauto.
  Qed.

  Lemma bound_all l : l <> [] -> exists w, bound_column (map Some l) = map Some w /\ length w = length l /\
    forall k v, nth_error l k = Some v -> exists x, nth_error w k = Some x /\ bound_value (lo_bound (map Some l)) (hi_bound (map Some l)) (Some v) = Some x.
  Proof.
    intro N. destruct (bounds_finite N) as (med & iq & _ & _ & Hi & Hl & Hh).
    assert (LH : (med - 5 * iq <= med + 5 * iq)%Q) by lra.
    set (f := fun v : Q => match bound_value (Some (med - 5 * iq)%Q) (Some (med + 5 * iq)%Q) (Some v) with Some x => x | None => 0%Q end).
    assert (Ef : forall v, bound_value (Some (med - 5 * iq)%Q) (Some (med + 5 * iq)%Q) (Some v) = Some (f v)).
    { intro v. unfold f. destruct (@bound_value_spec _ _ v LH) as (w & -> & _). auto. }
    exists (map f l). unfold bound_column. rewrite Hl, Hh. split; [|split].
    - rewrite !map_map. apply map_ext. auto.
    - apply map_length.
    - intros k v Hk. exists (f v). rewrite nth_error_map, Hk. split; auto.
  Qed.
  Lemma bound_reordered l l' w w' : reordered l l' -> bound_column (map Some l) = map Some w -> bound_column (map Some l') = map Some w' -> reordered w w'.
  Proof.
    intros R E E'. destruct (bounds_reordered R) as [A B]. unfold bound_column in *.
    set (f := fun b c (v : Q) => match bound_value b c (Some v) with Some x => x | None => 0%Q end).
    assert (X : forall c d l w, map (bound_value c d) (map Some l) = map Some w -> w = map (f c d) l).
    { clear. intros c d l. induction l as [|v l IH]; intros [|x w] H; simpl in *; try discriminate; auto.
      unfold f at 1. injection H as H1 H2. f_equal; [|auto]. destruct (bound_value c d (Some v)); congruence. }
    rewrite (X _ _ _ _ E), (X _ _ _ _ E'). apply reordered_map; auto. intros a b Q. unfold f.
    assert (S : same_number (Some a) (Some b)) by exact Q. pose proof (@bound_value_same _ _ _ _ _ _ A B S) as Y.
    destruct (bound_value _ _ (Some a)), (bound_value _ _ (Some b)); simpl in Y; try tauto. reflexivity.
  Qed.

  Lemma feature_column_same o (col col' : list num) i i' v : Permutation col col' ->
    nth_error col i = Some v -> nth_error col' i' = Some v ->
    same_number (nth i (feature_column o tr col) None) (nth i' (feature_column o tr col') None).
  Proof.
    intros P Hi Hi'. unfold feature_column.
    assert (K : forall c c' : list num, (forall k, nth k (map (fun _ : num => None : num) c) None = None)).
    { clear. intros c _. induction c; intros [|k]; simpl; auto. }
    destruct (missing_or_all col) as [M|(l & ->)].
    - assert (M' : In None col') by (eapply Permutation_in; eauto).
      assert (F : forall c, In None c -> normalise_feature tr c = map (fun _ => None) c).
      { intros c Hc. apply normalise_missing. unfold nmin. rewrite (proj2 (finite_none c) Hc). auto. }
      destruct (bound o).
      + rewrite !bound_missing by auto. destruct (norm o).
        * rewrite !F; [rewrite !map_map, (K col' col), (K col col'); exact I| |]; apply in_map_iff; eauto.
        * rewrite (K col' col), (K col col'). exact I.
      + destruct (norm o); [rewrite !F by auto; rewrite (K col' col), (K col col'); exact I|].
        rewrite (nth_error_nth _ _ _ Hi), (nth_error_nth _ _ _ Hi'). apply same_refl.
    - destruct (perm_map_some l P) as (l' & -> & P'). pose proof (reordered_perm P') as R.
      rewrite nth_error_map in Hi, Hi'. destruct (nth_error l i) as [a|] eqn:Ea; [|discriminate]. destruct (nth_error l' i') as [b|] eqn:Eb; [|discriminate].
      simpl in Hi, Hi'. injection Hi as <-. injection Hi' as ->.
      assert (N : l <> []) by (intros ->; destruct i; discriminate). assert (N' : l' <> []) by (intros ->; destruct i'; discriminate).
      destruct (bound o).
      + destruct (bound_all N) as (w & E & _ & W). destruct (bound_all N') as (w' & E' & _ & W').
        pose proof (@bound_reordered _ _ _ _ R E E') as R2. destruct (W _ _ Ea) as (x & Hx & Bx). destruct (W' _ _ Eb) as (x' & Hx' & Bx').
        destruct (bounds_reordered R) as [A B]. pose proof (@bound_value_same _ _ _ _ _ _ A B (same_refl (Some a))) as Y. rewrite Bx, Bx' in Y. simpl in Y.
        rewrite E, E'. destruct (norm o); [eapply normalise_feature_same; eauto|].
        erewrite !nth_error_nth by (rewrite nth_error_map; first [rewrite Hx; reflexivity|rewrite Hx'; reflexivity]). exact Y.
      + destruct (norm o); [eapply normalise_feature_same; eauto; reflexivity|].
        erewrite !nth_error_nth by (rewrite nth_error_map; first [rewrite Ea; reflexivity|rewrite Eb; reflexivity]). apply same_refl.
  Qed.
End Column.
