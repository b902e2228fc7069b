(** Proofs about the scale and the order of the columns given to the purifier. *)
From Coq Require Import Permutation Lqa.
From Verif Require Import Base BaseLemmas Num FilterModel FilterSpec FilterProofs PrelimSpec AlgOrderSpec AlgOrderProofs InstOrderSpec InvarSpec.
Set Implicit Arguments.
Open Scope list_scope.

Lemma fold_ext_in A B (f g : A -> B -> A) l a : (forall a b, In b l -> f a b = g a b) -> fold_left f l a = fold_left g l a.
Proof. revert a. induction l as [|b l IH]; intros a H; simpl; auto. rewrite H by (left; auto). apply IH. intros. apply H. right. auto. Qed.

Lemma filter_ext x y yb nf na r x' y' yb' nf' na' r' s :
  length y' = length y -> (nf' = 0 <-> nf = 0) ->
  (forall i j, i < length y -> j < length y -> close_x x' r' i j = close_x x r i j) ->
  (forall i j t f, i < length y -> j < length y -> parse_type s = Some t ->
     mark y' yb' nf' na' r' t i j f = mark y yb nf na r t i j f) ->
  filter_instance x' y' yb' nf' na' r' s = filter_instance x y yb nf na r s.
Proof.
  intros L Z X M. unfold filter_instance. rewrite L.
  assert (E : Nat.eqb nf' 0 = Nat.eqb nf 0).
  { apply eq_true_iff_eq. rewrite !Nat.eqb_eq. auto. }
  rewrite E. destruct (Nat.eqb nf 0); auto. destruct (parse_type s) as [t|] eqn:Et; auto.
  assert (F : forall st0, fold_left (outer x' y' yb' nf' na' r' t (length y)) (seq 0 (length y)) st0
            = fold_left (outer x y yb nf na r t (length y)) (seq 0 (length y)) st0).
  { intro st0. apply fold_ext_in. intros st i Hi. apply in_seq in Hi. unfold outer. destruct (excl (get st i)); auto.
    apply fold_ext_in. intros st' j Hj. apply in_seq in Hj. unfold inner. destruct (excl (get st' j)); auto.
    rewrite X by lia. destruct (close_x x r i j); auto.
    assert (G : forall k l, upd k (mark y' yb' nf' na' r' t i j) l = upd k (mark y yb nf na r t i j) l).
    { intros k l. revert k. induction l as [|a l IH]; intros [|k]; simpl; auto; [rewrite M by (auto; lia); auto|rewrite IH; auto]. }
    apply G. }
  rewrite F. reflexivity.
Qed.

(** [nle] respects equality of numbers *)
Lemma nle_same a a' b b' : same_number a a' -> same_number b b' -> nle a b = nle a' b'.
Proof. destruct a, a', b, b'; simpl; try tauto. intros. apply qleb_same; auto. Qed.
Lemma nadd_same a a' b b' : same_number a a' -> same_number b b' -> same_number (nadd a b) (nadd a' b').
Proof. destruct a, a', b, b'; simpl; try tauto. intros H K. rewrite H, K. reflexivity. Qed.
Lemma same_number_refl a : same_number a a.
Proof. destruct a; simpl; auto. reflexivity. Qed.
Lemma same_number_trans a b c : same_number a b -> same_number b c -> same_number a c.
Proof. destruct a, b, c; simpl; try tauto. intros. etransitivity; eauto. Qed.

(** the squared difference, and the squared distance as a sum of them *)
Definition sqdiff (p : num * num) : num := nmul (nsub (fst p) (snd p)) (nsub (fst p) (snd p)).
Definition nsum (l : list num) : num := fold_right nadd (Some 0%Q) l.
Lemma sqdist_sum_acc l acc : same_number (fold_left (fun a p => nadd a (sqdiff p)) l acc) (nadd acc (nsum (map sqdiff l))).
Proof.
  revert acc. induction l as [|p l IH]; intro acc; simpl; [destruct acc; simpl; auto; ring|].
  eapply same_number_trans; [apply IH|]. destruct acc, (sqdiff p), (nsum (map sqdiff l)); simpl; auto. ring.
Qed.
Lemma sqdist_sum u v : same_number (sqdist u v) (nsum (map sqdiff (combine u v))).
Proof.
  unfold sqdist. eapply same_number_trans; [apply (sqdist_sum_acc (combine u v))|].
  destruct (nsum _); simpl; auto. ring.
Qed.
Lemma nsum_perm l l' : Permutation l l' -> same_number (nsum l) (nsum l').
Proof.
  induction 1; simpl.
  - reflexivity.
  - apply nadd_same; auto. apply same_number_refl.
  - destruct x, y, (nsum l); simpl; auto. ring.
  - eapply same_number_trans; eauto.
Qed.
Lemma same_number_sym a b : same_number a b -> same_number b a.
Proof. destruct a, b; simpl; auto. intro. symmetry. auto. Qed.

(** another order of the columns *)
Lemma combine_nth_error A B (u : list A) (v : list B) k :
  nth_error (combine u v) k = match nth_error u k, nth_error v k with Some a, Some b => Some (a, b) | _, _ => None end.
Proof.
  revert v k. induction u as [|a u IH]; intros [|b v] [|k]; simpl; auto. destruct (nth_error u k); auto.
Qed.
Lemma combine_listed A B idx (u u' : list A) (v v' : list B) : listed_as idx u u' -> listed_as idx v v' ->
  listed_as idx (combine u v) (combine u' v').
Proof.
  intros (P & R) (P' & R').
  assert (L : length v = length u) by (apply Permutation_length in P, P'; rewrite !seq_length in *; congruence).
  split; [rewrite combine_length, L, Nat.min_id; auto|].
  unfold restricted_to in *. clear P P' L. revert u' v' R R'. induction idx as [|k idx IH]; intros [|a u'] [|b v'] R R'; simpl in *;
    try discriminate; auto.
  injection R as R1 R2. injection R' as R1' R2'. f_equal; [|apply IH; auto]. rewrite combine_nth_error, <- R1, <- R1'. reflexivity.
Qed.
Lemma sqdist_listed idx u u' v v' : listed_as idx u u' -> listed_as idx v v' -> same_number (sqdist u' v') (sqdist u v).
Proof.
  intros H K. eapply same_number_trans; [apply sqdist_sum|]. eapply same_number_trans; [|apply same_number_sym, sqdist_sum].
  apply nsum_perm, Permutation_map. apply (listed_perm (combine_listed H K)).
Qed.
Lemma forallb_perm A (f : A -> bool) l l' : Permutation l l' -> forallb f l = forallb f l'.
Proof. induction 1; simpl; auto; [congruence|destruct (f x), (f y); auto|congruence]. Qed.

(** other zero points *)
Lemma shifted_combine d u v : length u = length d -> length v = length d ->
  Forall2 same_number (map sqdiff (combine (shifted d u) (shifted d v))) (map sqdiff (combine u v)).
Proof.
  unfold shifted. revert u v. induction d as [|q d IH]; intros [|a u] [|b v] H K; simpl in *; try discriminate; constructor; auto.
  destruct a, b; simpl; auto. ring.
Qed.
Lemma nsum_same l l' : Forall2 same_number l l' -> same_number (nsum l) (nsum l').
Proof. induction 1; simpl; [reflexivity|apply nadd_same; auto]. Qed.
Lemma sqdist_shifted d u v : length u = length d -> length v = length d -> same_number (sqdist (shifted d u) (shifted d v)) (sqdist u v).
Proof.
  intros H K. eapply same_number_trans; [apply sqdist_sum|]. eapply same_number_trans; [|apply same_number_sym, sqdist_sum].
  apply nsum_same, shifted_combine; auto.
Qed.

(** another unit *)
Lemma add_scaled c a b A B : same_number A (nmul (Some (c * c)%Q) B) ->
  same_number (nadd (sqdiff (option_map (Qmult c) a, option_map (Qmult c) b)) A) (nmul (Some (c * c)%Q) (nadd (sqdiff (a, b)) B)).
Proof. destruct a, b, A, B; simpl; try tauto. intro H. rewrite H. ring. Qed.
Lemma sqdist_times c u v : same_number (sqdist (times c u) (times c v)) (nmul (Some (c * c)%Q) (sqdist u v)).
Proof.
  eapply same_number_trans; [apply sqdist_sum|].
  assert (X : same_number (nmul (Some (c * c)%Q) (sqdist u v)) (nmul (Some (c * c)%Q) (nsum (map sqdiff (combine u v))))).
  { pose proof (sqdist_sum u v) as E. destruct (sqdist u v), (nsum _); simpl in *; try tauto. rewrite E. reflexivity. }
  eapply same_number_trans; [|apply same_number_sym; exact X]. clear X.
  unfold times. revert v. induction u as [|a u IH]; intros [|b v]; [simpl; ring..|]. cbn [map combine nsum fold_right]. apply add_scaled, IH.
Qed.
Lemma close_times c s r u v : (0 < c)%Q ->
  Qle_bool 0 (c * r) && nle (sqdist (times c u) (times c v)) (Some (s * ((c * r) * (c * r)))%Q) =
  Qle_bool 0 r && nle (sqdist u v) (Some (s * (r * r))%Q).
Proof.
  intro C. f_equal.
  - apply eq_true_iff_eq. rewrite !Qle_bool_iff. split; intro H; [|nra].
    destruct (Qlt_le_dec r 0) as [N|N]; auto. exfalso. assert (c * - r > 0)%Q by (apply Qmult_lt_0_compat; lra). lra.
  - rewrite (@nle_same _ _ _ _ (sqdist_times c u v) (same_number_refl _)). destruct (sqdist u v) as [q|]; simpl; auto.
    apply eq_true_iff_eq. rewrite !Qle_bool_iff.
    assert (P : (0 < c * c)%Q) by (apply Qmult_lt_0_compat; auto).
    rewrite <- (Qmult_le_l q (s * (r * r)) (c * c) P).
    assert (Y : (s * (c * r * (c * r)) == c * c * (s * (r * r)))%Q) by ring. rewrite Y. tauto.
Qed.

(** one more column *)
Lemma sqdist_column v0 u v : length u = length v -> same_number (sqdist (with_column v0 u) (with_column v0 v)) (sqdist u v).
Proof.
  intro L. eapply same_number_trans; [apply sqdist_sum|]. eapply same_number_trans; [|apply same_number_sym, sqdist_sum].
  unfold with_column. revert v L. induction u as [|a u IH]; intros [|b v] L; simpl in *; try discriminate; [ring|].
  apply nadd_same; [apply same_number_refl|]. apply IH. auto.
Qed.

Lemma nth_Forall A (P : A -> Prop) l i d : Forall P l -> i < length l -> P (nth i l d).
Proof. intros F H. rewrite Forall_forall in F. apply F, nth_In, H. Qed.
Lemma nth_Forall2 A B (P : A -> B -> Prop) l l' i d d' : Forall2 P l l' -> i < length l -> P (nth i l d) (nth i l' d').
Proof. intro F. revert i. induction F; intros [|i] H0; simpl in *; try lia; auto. apply IHF. lia. Qed.
Lemma nth_mapped A B (f : A -> B) l i d d' : i < length l -> nth i (map f l) d' = f (nth i l d).
Proof. intro H. rewrite (nth_indep _ _ (f d)) by (rewrite map_length; auto). apply map_nth. Qed.
