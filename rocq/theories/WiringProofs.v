(** Lemmas for WiringProps: what a call, a tuple assignment and a constructor
    bind, as equations between values. *)
From Coq Require Import List String Bool Arith Lia.
From Verif Require Import WiringModel.
Import ListNotations.
Open Scope string_scope.
Open Scope list_scope.

(** A list of names without repetition, as a computation. *)
Fixpoint distinct (l : list string) : bool :=
  match l with
  | [] => true
  | a :: l' => negb (existsb (String.eqb a) l') && distinct l'
  end.

Definition unused (n : string) (l : list string) : bool :=
  negb (existsb (String.eqb n) l).

Lemma unused_not_in : forall n l, unused n l = true -> ~ In n l.
Proof.
  intros n l H HI. unfold unused in H.
  apply negb_true_iff in H.
  assert (existsb (String.eqb n) l = true).
  { apply existsb_exists. exists n. split; [exact HI | apply String.eqb_refl]. }
  congruence.
Qed.

Set Implicit Arguments.

Section Lemmas.
Variable V : Type.
Variable unbound : V.

Lemma put_other : forall m n (v : V) e, m <> n -> put n v e m = e m.
Proof.
  intros m n v e H. unfold put.
  destruct (String.eqb m n) eqn:E; [apply String.eqb_eq in E; contradiction | reflexivity].
Qed.

Lemma put_same : forall n (v : V) e, put n v e n = v.
Proof. intros. unfold put. rewrite String.eqb_refl. reflexivity. Qed.

Lemma unpack_ok : forall ts (vs : list V) e,
  distinct ts = true -> List.length ts = List.length vs ->
  exists e', unpack ts vs e = Some e' /\ map e' ts = vs /\
             forall n, unused n ts = true -> e' n = e n.
Proof.
  induction ts as [| t ts IH]; intros [| v vs] e Hd Hl; try discriminate.
  - exists e. repeat split; auto.
  - simpl in Hd. apply andb_true_iff in Hd. destruct Hd as [Ht Hd].
    simpl in Hl. injection Hl as Hl.
    destruct (IH vs (put t v e) Hd Hl) as (e' & He & Hm & Hu).
    exists e'. simpl. split; [exact He |]. split.
    + f_equal; [| exact Hm].
      rewrite (Hu t) by exact Ht. apply put_same.
    + intros n Hn. unfold unused in Hn. simpl in Hn.
      apply negb_true_iff in Hn. apply orb_false_iff in Hn. destruct Hn as [H1 H2].
      rewrite Hu by (unfold unused; rewrite H2; reflexivity).
      apply put_other. intros ->. rewrite String.eqb_refl in H1. discriminate.
Qed.

Lemma bind_ok : forall ts (vs : list V),
  distinct ts = true -> List.length ts = List.length vs ->
  exists e, bind unbound ts vs = Some e /\ map e ts = vs /\
            forall n, unused n ts = true -> e n = unbound.
Proof.
  intros. destruct (unpack_ok ts vs (fun _ => unbound)) as (e & H1 & H2 & H3); auto.
  exists e. auto.
Qed.

Lemma bind_kw_ok : forall params (kws : list (string * V)),
  distinct (map fst kws) = true ->
  forallb (fun p => existsb (String.eqb p) (map fst kws)) params = true ->
  forallb (fun k => existsb (String.eqb k) params) (map fst kws) = true ->
  List.length params = List.length (map fst kws) ->
  exists e, bind_kw unbound params kws = Some e /\
            map e (map fst kws) = map snd kws.
Proof.
  intros params kws Hd H1 H2 H3. unfold bind_kw.
  assert (A : forallb (fun p => existsb (fun k => String.eqb p (fst k)) kws) params = true).
  { apply forallb_forall. intros p Hp.
    assert (Q : existsb (String.eqb p) (map fst kws) = true)
      by exact (proj1 (forallb_forall _ _) H1 p Hp).
    apply existsb_exists in Q. destruct Q as (k & Hk & E).
    apply in_map_iff in Hk. destruct Hk as ([k' v] & <- & Hk).
    apply existsb_exists. exists (k', v). auto. }
  assert (B : forallb (fun k => existsb (String.eqb (fst k)) params) kws = true).
  { apply forallb_forall. intros k Hk.
    exact (proj1 (forallb_forall _ _) H2 (fst k) (in_map fst _ _ Hk)). }
  rewrite A, B. simpl. rewrite map_length in H3. rewrite H3, Nat.eqb_refl.
  destruct (unpack_ok (map fst kws) (map snd kws) (fun _ => unbound))
    as (e & He & Hm & _); auto.
  { rewrite !map_length. reflexivity. }
  exists e. auto.
Qed.

Lemma attributes_from : forall l (p e : env V),
  distinct (map fst l) = true ->
  let e' := fold_left (fun e ap => put (fst ap) (p (snd ap)) e) l e in
  map e' (map fst l) = map p (map snd l) /\
  (forall n, unused n (map fst l) = true -> e' n = e n).
Proof.
  induction l as [| [a s] l IH]; intros p e Hd; simpl.
  - auto.
  - simpl in Hd. apply andb_true_iff in Hd. destruct Hd as [Ha Hd].
    destruct (IH p (put a (p s) e) Hd) as [Hm Hu]. simpl in Hm, Hu.
    split.
    + f_equal; [| exact Hm]. rewrite (Hu a) by exact Ha. apply put_same.
    + intros n Hn. unfold unused in Hn. simpl in Hn.
      apply negb_true_iff in Hn. apply orb_false_iff in Hn. destruct Hn as [H1 H2].
      rewrite Hu by (unfold unused; rewrite H2; reflexivity).
      apply put_other. intros ->. rewrite String.eqb_refl in H1. discriminate.
Qed.

Lemma attributes_ok : forall l (p : env V),
  distinct (map fst l) = true ->
  exists e, attributes unbound l p = e /\ map e (map fst l) = map p (map snd l).
Proof.
  intros l p Hd. exists (attributes unbound l p). split; [reflexivity |].
  exact (proj1 (attributes_from l p (fun _ => unbound) Hd)).
Qed.

End Lemmas.

(** Replaces the call that is evaluated next by an opaque scope and the
    equations for its names. *)
Ltac bound_by H :=
  let e := fresh "e" in let E := fresh "E" in let M := fresh "M" in
  let U := fresh "U" in
  destruct H as (e & E & M & U); [reflexivity | reflexivity |];
  rewrite E; clear E; unfold vals in M; cbn [map fst snd] in M; injection M; intros; clear M;
  cbn beta iota.

Ltac next_call :=
  match goal with
  | |- context [bind ?u ?ts ?vs] => bound_by (bind_ok u ts vs)
  | |- context [unpack ?ts ?vs ?e0] => bound_by (unpack_ok ts vs e0)
  end.

Ltac next_kw :=
  match goal with
  | |- context [bind_kw ?u ?ts ?vs] =>
    let e := fresh "e" in let E := fresh "E" in let M := fresh "M" in
    destruct (bind_kw_ok u ts vs) as (e & E & M);
    [reflexivity | reflexivity | reflexivity | reflexivity |];
    rewrite E; clear E; cbn [map fst snd] in M; injection M; intros; clear M;
    cbn beta iota
  end.

Ltac next_attributes :=
  match goal with
  | |- context [attributes ?u ?l ?p] =>
    let e := fresh "e" in let E := fresh "E" in let M := fresh "M" in
    destruct (attributes_ok u l p) as (e & E & M);
    [reflexivity |];
    rewrite E; clear E; cbn [map fst snd] in M; injection M; intros; clear M;
    cbn beta iota
  end.
