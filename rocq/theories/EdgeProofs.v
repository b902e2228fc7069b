(** Lemmas about when CLOISTER finds a boundary. *)
From Coq Require Import Lqa.
From Verif Require Import BaseLemmas Mat CloisterModel CloisterSpec PilotProofs SiftedProofs CloisterProofs EdgeSpec.
Set Implicit Arguments.
Open Scope nat_scope.
Open Scope list_scope.

(* ------------------------------------------------------------------ sums *)
Fixpoint sm (n : nat) (f : nat -> Q) : Q := match n with 0 => 0%Q | S k => (f 0%nat + sm k (fun j => f (S j)))%Q end.
Lemma sm_ext n : forall f g, (forall j, j < n -> (f j == g j)%Q) -> (sm n f == sm n g)%Q.
Proof. induction n as [|n IH]; intros f g H; simpl; [reflexivity|]. rewrite (H 0) by lia. rewrite (IH _ (fun j => g (S j))); [reflexivity|]. intros j Hj. apply H. lia. Qed.
Lemma sm_zero n : forall f, (forall j, j < n -> (f j == 0)%Q) -> (sm n f == 0)%Q.
Proof. induction n as [|n IH]; intros f H; simpl; [reflexivity|]. rewrite (H 0) by lia. rewrite IH; [reflexivity|]. intros j Hj. apply H. lia. Qed.
Lemma sm_minus n : forall f g, (sm n f - sm n g == sm n (fun j => f j - g j))%Q.
Proof. induction n as [|n IH]; intros f g; simpl; [reflexivity|]. rewrite <- IH. ring. Qed.
Lemma sm_scale n : forall c f, (c * sm n f == sm n (fun j => c * f j))%Q.
Proof. induction n as [|n IH]; intros c f; simpl; [ring|]. rewrite <- IH. ring. Qed.
Lemma sm_prod n m : forall f g, (sm n f * sm m g == sm n (fun j => sm m (fun k => f j * g k)))%Q.
Proof. induction n as [|n IH]; intros f g; simpl; [ring|]. rewrite <- IH, <- sm_scale. ring. Qed.
Lemma sm_swap n m : forall f, (sm n (fun j => sm m (fun k => f j k)) == sm m (fun k => sm n (fun j => f j k)))%Q.
Proof.
  induction n as [|n IH]; intros f; simpl; [symmetry; apply sm_zero; reflexivity|]. rewrite (IH (fun j => f (S j))).
  assert (A : forall m g h, (sm m g + sm m h == sm m (fun k => g k + h k))%Q). { clear. induction m as [|m IH]; intros g h; simpl; [reflexivity|]. rewrite <- IH. ring. }
  apply A.
Qed.
Lemma sm_one n : forall f i, i < n -> (forall j, j < n -> j <> i -> (f j == 0)%Q) -> (sm n f == f i)%Q.
Proof.
  induction n as [|n IH]; intros f [|i] Hi H; [lia|lia| |]; simpl.
  - rewrite sm_zero; [ring|]. intros j Hj. apply H; lia.
  - rewrite (H 0) by lia. rewrite (IH (fun j => f (S j)) i); [ring|lia|]. intros j Hj N. apply H; lia.
Qed.
Lemma qdot_sm : forall (a : list Q) n f, length a = n -> (qdot a (map f (seq 0 n)) == sm n (fun j => nth j a 0 * f j))%Q.
Proof.
  induction a as [|c a IH]; intros n f <-; simpl; [reflexivity|]. rewrite <- seq_shift, map_map. rewrite (IH (length a) (fun j => f (S j))) by auto. reflexivity.
Qed.

(* ------------------------------------------------------------------ the corners *)
Definition val (v : num) : Q := match v with Some q => q | None => 0%Q end.
Definition lo (x : list (list num)) j := val (col_min (column None x j)).
Definition hi (x : list (list num)) j := val (col_max (column None x j)).
Definition side x (b : nat -> bool) j := if b j then hi x j else lo x j.
Lemma corner_side x n b : complete x n -> corner x n b = map Some (map (side x b) (seq 0 n)).
Proof.
  intro C. unfold corner. rewrite map_map. apply map_ext_in. intros j Hj. apply in_seq in Hj.
  destruct (@extremes x n j C ltac:(lia)) as (l & h & El & Eh & _). unfold side, lo, hi. rewrite El, Eh. destruct (b j); reflexivity.
Qed.
Definition place (a1 a2 : list Q) n f : Q * Q := (qdot a1 (map f (seq 0 n)), qdot a2 (map f (seq 0 n))).
Lemma corner_placed x n a1 a2 b : complete x n -> mulv [map Some a1; map Some a2] (corner x n b) = in_plane (place a1 a2 n (side x b)).
Proof.
  intro C. rewrite (corner_side b C). change [map Some a1; map Some a2] with (map (map Some) [a1; a2]). rewrite qproj_mulv. reflexivity.
Qed.
Lemma varies_iff x n j : complete x n -> j < n -> (varies x j <-> ~ (hi x j == lo x j)%Q).
Proof.
  intros C Hj. destruct (complete_column C Hj) as [Hn Hf].
  destruct (col_min_spec Hn Hf) as (l & El & Il & Al). destruct (col_max_spec Hn Hf) as (h & Eh & Ih & Ah).
  unfold lo, hi. rewrite El, Eh in *. simpl. unfold column in Il, Ih. apply in_map_iff in Il. apply in_map_iff in Ih.
  destruct Il as (r & Er & Hr), Ih as (r' & Er' & Hr'). split.
  - intros (s & s' & v & v' & Hs & Hs' & Ev & Ev' & N) E. apply N.
    assert (B : forall s v, In s x -> nth j s None = Some v -> (l <= v /\ v <= h)%Q).
    { intros s0 v0 H0 E0. assert (I : In (Some v0) (column None x j)) by (unfold column; apply in_map_iff; eauto).
      destruct (Al _ I) as (w & W & L). injection W as <-. destruct (Ah _ I) as (w' & W' & L'). injection W' as <-. auto. }
    destruct (B _ _ Hs Ev), (B _ _ Hs' Ev'). lra.
  - intro N. exists r', r, h, l. auto.
Qed.

(* ------------------------------------------------------------------ the turn of three projections *)
Lemma turn_sum a1 a2 n fp fq fr : length a1 = n -> length a2 = n ->
  (turn (place a1 a2 n fp) (place a1 a2 n fq) (place a1 a2 n fr) ==
   sm n (fun j => sm n (fun k => (fq j - fp j) * (fr k - fp k) * (nth j a1 0 * nth k a2 0 - nth k a1 0 * nth j a2 0))))%Q.
Proof.
  intros L1 L2. unfold turn, place. cbn [fst snd]. rewrite !qdot_sm by auto. rewrite !sm_minus, !sm_prod.
  rewrite sm_minus. apply sm_ext. intros j Hj. rewrite sm_minus. apply sm_ext. intros k Hk. ring.
Qed.
Lemma flat_zero a1 a2 n x b1 b2 b3 : length a1 = n -> length a2 = n ->
  (forall j k, j < n -> k < n -> ~ (hi x j == lo x j)%Q -> ~ (hi x k == lo x k)%Q -> (nth j a1 0 * nth k a2 0 == nth k a1 0 * nth j a2 0)%Q) ->
  (turn (place a1 a2 n (side x b1)) (place a1 a2 n (side x b2)) (place a1 a2 n (side x b3)) == 0)%Q.
Proof.
  intros L1 L2 H. rewrite turn_sum by auto. apply sm_zero. intros j Hj. apply sm_zero. intros k Hk.
  assert (D : forall b b' i, (hi x i == lo x i)%Q -> (side x b i - side x b' i == 0)%Q).
  { intros b b' i E. unfold side. destruct (b i), (b' i); rewrite ?E; ring. }
  destruct (Qeq_dec (hi x j) (lo x j)) as [E|Nj]; [rewrite (D b2 b1 j E); ring|].
  destruct (Qeq_dec (hi x k) (lo x k)) as [E|Nk]; [rewrite (D b3 b1 k E); ring|].
  rewrite (H j k Hj Hk Nj Nk). ring.
Qed.
Definition only (i : nat) : nat -> bool := Nat.eqb i.
Lemma turn_two a1 a2 n x j k : length a1 = n -> length a2 = n -> j < n -> k < n ->
  (turn (place a1 a2 n (side x (fun _ => false))) (place a1 a2 n (side x (only j))) (place a1 a2 n (side x (only k))) ==
   (hi x j - lo x j) * (hi x k - lo x k) * (nth j a1 0 * nth k a2 0 - nth k a1 0 * nth j a2 0))%Q.
Proof.
  intros L1 L2 Hj Hk. rewrite turn_sum by auto.
  assert (O : forall i q, q <> i -> (side x (only i) q - side x (fun _ => false) q == 0)%Q).
  { intros i q N. unfold side, only. destruct (Nat.eqb_spec i q); [congruence|ring]. }
  assert (I : forall i, (side x (only i) i - side x (fun _ => false) i == hi x i - lo x i)%Q) by (intro i; unfold side, only; rewrite Nat.eqb_refl; reflexivity).
  rewrite (@sm_one n _ j Hj).
  - rewrite (@sm_one n _ k Hk).
    + rewrite !I. reflexivity.
    + intros q Hq N. rewrite (O k q N). ring.
  - intros p Hp N. apply sm_zero. intros q Hq. rewrite (O j p N). ring.
Qed.

(** a decidable property of two indices *)
Lemma search_pair n (P : nat -> nat -> Prop) : (forall j k, P j k \/ ~ P j k) ->
  (exists j k, j < n /\ k < n /\ P j k) \/ (forall j k, j < n -> k < n -> ~ P j k).
Proof.
  intro D.
  assert (S1 : forall (R : nat -> Prop) m, (forall k, R k \/ ~ R k) -> (exists k, k < m /\ R k) \/ (forall k, k < m -> ~ R k)).
  { intros R m DR. induction m as [|m IH]; [right; intros; lia|]. destruct IH as [(k & Hk & X)|IH]; [left; exists k; split; auto|].
    destruct (DR m) as [X|X]; [left; exists m; auto|]. right. intros k Hk. destruct (Nat.eq_dec k m) as [->|]; auto. apply IH. lia. }
  destruct (S1 (fun j => exists k, k < n /\ P j k) n) as [(j & Hj & k & Hk & X)|N].
  - intro j. destruct (S1 (P j) n (D j)) as [X|X]; [auto|]. right. intros (k & Hk & Y). exact (X k Hk Y).
  - left. exists j, k. auto.
  - right. intros j k Hj Hk X. apply (N j Hj). eauto.
Qed.

Lemma edge_plane x n a1 a2 (l : list (list num)) : complete x n -> (forall v, In v l -> In v (x_edge x n)) ->
  forall v, In v (map (mulv [map Some a1; map Some a2]) l) -> exists b, In (corner x n b) l /\ v = in_plane (place a1 a2 n (side x b)).
Proof.
  intros C I v H. apply in_map_iff in H. destruct H as (w & <- & H). destruct (proj1 (edge_in x n w) (I w H)) as (b & ->).
  exists b. split; auto. apply corner_placed; auto.
Qed.
Lemma plane_inj p q : in_plane p = in_plane q -> p = q.
Proof. destruct p, q. unfold in_plane. simpl. congruence. Qed.
(** the hull of nothing but points on a line is empty, otherwise it is not *)
Lemma hull_empty hull pts : hull_correct hull -> fails_on_lines hull -> (forall v, In v pts -> exists p, v = in_plane p) ->
  (compute_convex_hull hull pts = [] <-> on_a_line pts).
Proof.
  intros HC HF P. rewrite <- (HF pts P). unfold compute_convex_hull. destruct (hull pts) as [vs|] eqn:E; [|tauto].
  split; [|discriminate]. intro X. exfalso. apply map_eq_nil in X. subst vs.
  assert (N : pts <> []). { intro Z. subst pts. assert (hull [] = None) by (apply HF; [intros v []|intros p q r []]). congruence. }
  destruct pts as [|v pts]; [congruence|]. destruct (P v (or_introl eq_refl)) as (p & ->).
  destruct (HC _ _ E) as (_ & Cv). specialize (Cv [fst p; snd p] (or_introl eq_refl)).
  unfold in_hull in Cv. revert Cv. generalize [fst p; snd p]. clear. induction 1; auto.
Qed.
Lemma edge_flat x n a1 a2 l : complete x n -> length a1 = n -> length a2 = n -> (forall v, In v l -> In v (x_edge x n)) ->
  (forall j k, j < n -> k < n -> ~ (hi x j == lo x j)%Q -> ~ (hi x k == lo x k)%Q -> (nth j a1 0 * nth k a2 0 == nth k a1 0 * nth j a2 0)%Q) ->
  on_a_line (map (mulv [map Some a1; map Some a2]) l).
Proof.
  intros C L1 L2 I H p q r Hp Hq Hr.
  destruct (@edge_plane x n a1 a2 l C I _ Hp) as (b1 & _ & E1), (@edge_plane x n a1 a2 l C I _ Hq) as (b2 & _ & E2), (@edge_plane x n a1 a2 l C I _ Hr) as (b3 & _ & E3).
  apply plane_inj in E1, E2, E3. subst. apply flat_zero; auto.
Qed.
