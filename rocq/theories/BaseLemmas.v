(** Lemmas about the set-as-list operations of [Base]. *)
From Verif Require Import Base.
Set Implicit Arguments.

Definition set_eq {A} (l1 l2 : list A) : Prop := forall x, In x l1 <-> In x l2.

Lemma set_eq_refl A (l : list A) : set_eq l l.
Proof. intro x; tauto. Qed.
Lemma set_eq_sym A (l1 l2 : list A) : set_eq l1 l2 -> set_eq l2 l1.
Proof. intros H x; symmetry; apply H. Qed.
Lemma set_eq_trans A (l1 l2 l3 : list A) : set_eq l1 l2 -> set_eq l2 l3 -> set_eq l1 l3.
Proof. intros H1 H2 x; rewrite (H1 x); apply H2. Qed.
Lemma perm_set_eq A (l1 l2 : list A) : Permutation l1 l2 -> set_eq l1 l2.
Proof.
  intros H x; split; intro Hx.
  - exact (Permutation_in x H Hx).
  - exact (Permutation_in x (Permutation_sym H) Hx).
Qed.

Lemma nonempty_true A (l : list A) : nonempty l = true <-> exists x, In x l.
Proof.
  destruct l as [|a l]; simpl; split; intro H; try discriminate; auto.
  - destruct H as [x []].
  - exists a; auto.
Qed.

Lemma nonempty_false A (l : list A) : nonempty l = false <-> forall x, ~ In x l.
Proof.
  destruct l as [|a l]; simpl; split; intro H; try discriminate; auto.
  exfalso; apply (H a); auto.
Qed.

Lemma nonempty_set_eq A (l1 l2 : list A) : set_eq l1 l2 -> nonempty l1 = nonempty l2.
Proof.
  intro H. destruct (nonempty l2) eqn:E.
  - apply nonempty_true in E. destruct E as [x Hx]. apply nonempty_true. exists x. apply H; auto.
  - rewrite nonempty_false in E. apply nonempty_false. intros x Hx. apply (E x). apply H; auto.
Qed.

Section SetLemmas.
  Variable A : Type.
  Variable dec : forall x y : A, {x = y} + {x <> y}.

  Lemma mem_true x s : mem dec x s = true <-> In x s.
  Proof. unfold mem; destruct (in_dec dec x s); split; auto; discriminate. Qed.
  Lemma mem_false x s : mem dec x s = false <-> ~ In x s.
  Proof. unfold mem; destruct (in_dec dec x s); split; auto; try discriminate; tauto. Qed.

  Lemma in_sdiff x s t : In x (sdiff dec s t) <-> In x s /\ ~ In x t.
  Proof.
    unfold sdiff; rewrite filter_In, negb_true_iff, mem_false; tauto.
  Qed.
  Lemma in_sinter x s t : In x (sinter dec s t) <-> In x s /\ In x t.
  Proof. unfold sinter; rewrite filter_In, mem_true; tauto. Qed.
  Lemma in_sadd x y s : In x (sadd dec y s) <-> x = y \/ In x s.
  Proof.
    unfold sadd; destruct (mem dec y s) eqn:E.
    - apply mem_true in E. split; [auto|]. intros [->|]; auto.
    - rewrite in_app_iff; simpl. split; [intros [|[|[]]]|intros [|]]; auto.
  Qed.
  Lemma in_sunion x s t : In x (sunion dec s t) <-> In x s \/ In x t.
  Proof.
    unfold sunion; revert s; induction t as [|y t IH]; intro s; simpl.
    - tauto.
    - rewrite IH, in_sadd. split; intros; intuition (subst; auto).
  Qed.

  Lemma sdiff_empty s t : nonempty (sdiff dec s t) = false <-> incl s t.
  Proof.
    rewrite nonempty_false. split; intros H x Hx.
    - destruct (in_dec dec x t); auto. exfalso; apply (H x). apply in_sdiff; auto.
    - apply in_sdiff in Hx. destruct Hx as [H1 H2]; auto.
  Qed.

  Lemma sdiff_set_eq s1 s2 t1 t2 :
    set_eq s1 s2 -> set_eq t1 t2 -> set_eq (sdiff dec s1 t1) (sdiff dec s2 t2).
  Proof. intros H1 H2 x; rewrite !in_sdiff, (H1 x), (H2 x); tauto. Qed.
  Lemma sinter_set_eq s1 s2 t1 t2 :
    set_eq s1 s2 -> set_eq t1 t2 -> set_eq (sinter dec s1 t1) (sinter dec s2 t2).
  Proof. intros H1 H2 x; rewrite !in_sinter, (H1 x), (H2 x); tauto. Qed.
  Lemma mem_set_eq x s t : set_eq s t -> mem dec x s = mem dec x t.
  Proof.
    intro H; destruct (mem dec x t) eqn:E.
    - apply mem_true in E. apply mem_true. apply H; auto.
    - apply mem_false in E. apply mem_false. intro; apply E; apply H; auto.
  Qed.

  Lemma sdiff_NoDup s t : NoDup s -> NoDup (sdiff dec s t).
  Proof. intro; apply NoDup_filter; auto. Qed.

  Lemma sdiff_perm s1 s2 t1 t2 :
    Permutation s1 s2 -> set_eq t1 t2 -> Permutation (sdiff dec s1 t1) (sdiff dec s2 t2).
  Proof.
    intros H Ht. unfold sdiff.
    rewrite (filter_ext (fun x => negb (mem dec x t1)) (fun x => negb (mem dec x t2)))
      by (intro a; rewrite (mem_set_eq a Ht); auto).
    induction H; simpl; auto.
    - destruct (negb (mem dec x t2)); auto.
    - destruct (negb (mem dec x t2)), (negb (mem dec y t2)); auto. constructor.
    - etransitivity; eauto.
  Qed.
End SetLemmas.

Lemma filter_perm A (f g : A -> bool) l1 l2 :
  (forall x, f x = g x) -> Permutation l1 l2 -> Permutation (filter f l1) (filter g l2).
Proof.
  intros E H. rewrite (filter_ext _ _ E).
  induction H; simpl; auto.
  - destruct (g x); auto.
  - destruct (g x), (g y); auto. constructor.
  - etransitivity; eauto.
Qed.

Lemma existsb_set_eq A (f g : A -> bool) l1 l2 :
  (forall x, f x = g x) -> set_eq l1 l2 -> existsb f l1 = existsb g l2.
Proof.
  intros E H. destruct (existsb g l2) eqn:X.
  - apply existsb_exists in X. destruct X as [x [Hx Hg]]. apply existsb_exists.
    exists x. split; [apply H; auto | rewrite E; auto].
  - destruct (existsb f l1) eqn:Y; auto.
    apply existsb_exists in Y. destruct Y as [x [Hx Hf]].
    rewrite <- X. symmetry. apply existsb_exists. exists x. split; [apply H; auto|rewrite <- E; auto].
Qed.

Lemma existsb_false_iff A (f : A -> bool) l :
  existsb f l = false <-> forall x, In x l -> f x = false.
Proof.
  split.
  - intros H x Hx. destruct (f x) eqn:E; auto.
    rewrite <- H; symmetry; apply existsb_exists; eauto.
  - intros H. destruct (existsb f l) eqn:E; auto.
    apply existsb_exists in E. destruct E as [x [Hx Hf]]. rewrite (H x Hx) in Hf; discriminate.
Qed.

Lemma NoDup_incl_length_lt A (dec : forall x y : A, {x=y}+{x<>y}) (l1 l2 : list A) x :
  NoDup l1 -> incl l1 l2 -> In x l2 -> ~ In x l1 -> length l1 < length l2.
Proof.
  intros Hn Hi Hx Hnx.
  assert (NoDup (x :: l1)) by (constructor; auto).
  assert (incl (x :: l1) l2) by (intros y [->|Hy]; auto).
  pose proof (NoDup_incl_length H H0). simpl in H1. lia.
Qed.

Lemma in_concat_nth A (l : list (list A)) x :
  In x (concat l) <-> exists k g, nth_error l k = Some g /\ In x g.
Proof.
  rewrite in_concat. split.
  - intros [g [Hg Hx]]. apply In_nth_error in Hg. destruct Hg as [k Hk]. eauto.
  - intros [k [g [Hk Hx]]]. exists g. split; auto. eapply nth_error_In; eauto.
Qed.

Lemma nth_error_snoc A (l : list A) x k :
  nth_error (l ++ [x]) k =
  if Nat.ltb k (length l) then nth_error l k
  else if Nat.eqb k (length l) then Some x else None.
Proof.
  destruct (Nat.ltb_spec k (length l)) as [H|H].
  - apply nth_error_app1; auto.
  - rewrite nth_error_app2 by auto. destruct (Nat.eqb_spec k (length l)) as [->|Hne].
    + rewrite Nat.sub_diag; auto.
    + destruct (k - length l) as [|n] eqn:E; [lia|]. simpl. destruct n; auto.
Qed.

Lemma NoDup_app_comm_snoc A (l : list A) x : NoDup l -> ~ In x l -> NoDup (l ++ [x]).
Proof.
  intros. eapply Permutation_NoDup; [apply Permutation_cons_append|]. constructor; auto.
Qed.
