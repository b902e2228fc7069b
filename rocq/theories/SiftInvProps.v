(** C133: what SIFTED's selection of features depends on. *)
From Coq Require Import Lqa Qabs Permutation Sorted.
From Verif Require Import Base BaseLemmas Num FilterModel FilterProofs PreprocModel PreprocSpec PreprocProofs
  SiftedModel SiftedSpec SiftedProofs SiftInvSpec SiftInvProofs.
Set Implicit Arguments.
Open Scope nat_scope.
Open Scope list_scope.

Section Sift.
  Variable pearson : list (Q * Q) -> num * num.
  Variable ranking : list Q -> list nat.
  Variable sil : list nat -> list Q.
  Variable km_labels : list nat -> list nat.
  Variable best : list nat -> list Z.
  Variable dense : option (list (list num) * list (list num) * list (list bool)).
  Variable stype : string.
  Variable md : Q.
  Notation sift x y labels na thr k :=
    (sifted pearson (by_column ranking) sil km_labels best x y labels na thr k dense stype md).

  (** C133: the order in which the algorithms are listed does not matter: the same output. *)
  Theorem C133_order_of_algorithms :
    forall x y labels na thr k s out, Permutation s (seq 0 na) ->
      sift x y labels na thr k = Ok out -> so_clustered out = false ->
      sift x (map (in_order s) y) labels na thr k = Ok out.
  Proof.
    intros x y labels na thr k s out P H Hc.
    assert (Ls : length s = na) by (rewrite (Permutation_length P), seq_length; auto).
    assert (G : forall j, j < na -> nth j s 0 < na /\ column None (map (in_order s) y) j = column None y (nth j s 0)).
    { intros j Hj. split; [|apply in_order_column; lia].
      assert (I : In (nth j s 0) (seq 0 na)) by (eapply Permutation_in; [exact P|]; apply nth_In; lia). apply in_seq in I. lia. }
    assert (G' : exists g, forall j, j < na -> g j < na /\ column None y j = column None (map (in_order s) y) (g j)).
    { assert (X : forall j, exists i, j < na -> i < na /\ nth i s 0 = j).
      { intros j. destruct (Nat.lt_ge_cases j na) as [Hj|Hj]; [|exists 0; lia].
        assert (I : In j s) by (eapply Permutation_in; [apply Permutation_sym; exact P|]; apply in_seq; lia).
        apply In_nth with (d := 0) in I. destruct I as (i & Hi & E). exists i. intros _. split; auto. lia. }
      assert (C : exists g : nat -> nat, forall j, j < na -> g j < na /\ nth (g j) s 0 = j).
      { clear - X. induction na as [|n IH]; [exists (fun _ => 0); lia|].
        assert (Y : forall m, exists g : nat -> nat, forall j, j < m -> j < S n -> g j < S n /\ nth (g j) s 0 = j).
        { induction m as [|m [g Hg]]; [exists (fun _ => 0); lia|]. destruct (X m) as [i Hi]. exists (fun j => if Nat.eqb j m then i else g j).
          intros j H1 H2. destruct (Nat.eqb_spec j m) as [->|]; [auto|]. apply Hg; lia. }
        destruct (Y (S n)) as [g Hg]. exists g. auto. }
      destruct C as [g Hg]. exists g. intros j Hj. destruct (Hg j Hj) as [A B]. split; auto. rewrite in_order_column by lia. rewrite B. auto. }
    destruct G' as [g G'].
    destruct (Nat.le_gt_cases (length labels) 3) as [Hl|Hl].
    - destruct (@sifted_few _ _ _ _ _ _ _ _ _ _ _ _ _ _ _ H Hl) as [A ->]. unfold sifted.
      destruct (Nat.leb_spec (length labels) 1); [lia|]. destruct (Nat.leb_spec (length labels) 3); [auto|lia].
    - destruct (@sifted_inv _ _ _ _ _ _ _ _ _ _ _ _ _ _ _ H Hc Hl) as (D & W & O & ->).
      assert (E : chosen pearson ranking x (map (in_order s) y) (length labels) na thr = chosen pearson ranking x y (length labels) na thr).
      { apply increasing_ext; try apply chosen_increasing. intros f. split.
        - exact (@chosen_sub pearson ranking x y _ (length labels) na na thr (fun j => nth j s 0) G f).
        - exact (@chosen_sub pearson ranking x (map (in_order s) y) y (length labels) na na thr g G' f). }
      rewrite <- E in *. apply sifted_plain; auto. exact (@defined_sub pearson x y _ (length labels) na na (fun j => nth j s 0) G D).
  Qed.

  (** More algorithms never lose a feature: what is selected for some of them is selected for all. *)
  Theorem C133_more_algorithms :
    forall x y labels na thr k s out out', (forall a, In a s -> a < na) -> 3 < length labels ->
      sift x (map (in_order s) y) labels (length s) thr k = Ok out -> so_clustered out = false ->
      sift x y labels na thr k = Ok out' -> so_clustered out' = false ->
      forall f, In f (so_selvars out) -> In f (so_selvars out').
  Proof.
    intros x y labels na thr k s out out' Hs Hl H Hc H' Hc' f.
    destruct (@sifted_inv _ _ _ _ _ _ _ _ _ _ _ _ _ _ _ H Hc Hl) as (_ & _ & _ & ->). destruct (@sifted_inv _ _ _ _ _ _ _ _ _ _ _ _ _ _ _ H' Hc' Hl) as (_ & _ & _ & ->).
    cbn [so_selvars plain]. apply chosen_sub with (g := fun j => nth j s 0). intros j Hj. split; [apply Hs, nth_In; auto|].
    apply in_order_column. auto.
  Qed.

  (** Neither the units nor the zero points of the features and performances matter. *)
  Theorem C133_units_and_zero_points :
    scale_blind pearson ->
    forall x y labels na thr k a b c d out, (forall j, 0 < a j)%Q -> (forall j, 0 < c j)%Q ->
      sift x y labels na thr k = Ok out -> so_clustered out = false ->
      exists out', sift (map (rescaled a b) x) (map (rescaled c d) y) labels na thr k = Ok out' /\
        so_selvars out' = so_selvars out /\ so_labels out' = so_labels out /\ so_idx out' = so_idx out /\ so_clustered out' = false.
  Proof.
    intros B x y labels na thr k a b c d out Ha Hc0 H Hc.
    destruct (Nat.le_gt_cases (length labels) 3) as [Hl|Hl].
    - destruct (@sifted_few _ _ _ _ _ _ _ _ _ _ _ _ _ _ _ H Hl) as [A ->]. unfold sifted.
      destruct (Nat.leb_spec (length labels) 1); [lia|]. destruct (Nat.leb_spec (length labels) 3); [|lia].
      eexists. split; [reflexivity|]. cbn. auto.
    - destruct (@sifted_inv _ _ _ _ _ _ _ _ _ _ _ _ _ _ _ H Hc Hl) as (D & W & O & ->).
      assert (V : forall i j, corr_pair pearson (column None (map (rescaled a b) x) i) (column None (map (rescaled c d) y) j) =
                              corr_pair pearson (column None x i) (column None y j)).
      { intros i j. rewrite !rescaled_column. unfold corr_pair. rewrite (valid_pairs_map (fun v => (a i * v + b i)%Q) (fun v => (c j * v + d j)%Q)).
        specialize (B (a i) (b i) (c j) (d j) (valid_pairs (column None x i) (column None y j)) (Ha i) (Hc0 j)).
        destruct (valid_pairs (column None x i) (column None y j)) as [|p [|q l]]; auto.
        cbn [map] in *. f_equal. exact B. }
      assert (E : chosen pearson ranking (map (rescaled a b) x) (map (rescaled c d) y) (length labels) na thr = chosen pearson ranking x y (length labels) na thr).
      { apply chosen_same. intros i j _ _. unfold value. rewrite V. auto. }
      eexists. split; [apply sifted_plain; auto; rewrite ?E; auto|].
      + intros i j Hi Hj. rewrite V. auto.
      + cbn. rewrite E. auto.
  Qed.
End Sift.

(* ------------------------------------------------------------------ a coefficient and a ranking *)
(** The sign of the covariance, which is the coefficient of correlation where it is 1, 0 or -1. *)
Definition total (f : Q * Q -> Q) (l : list (Q * Q)) : Q := fold_right (fun p s => (f p + s)%Q) 0%Q l.
Definition cov (l : list (Q * Q)) : Q :=
  (total (fun _ => 1) l * total (fun p => fst p * snd p) l - total fst l * total snd l)%Q.
Definition sign_of (q : Q) : Q := inject_Z (Z.sgn (Qnum q)).
Definition sgn_pearson (l : list (Q * Q)) : num * num := (Some (sign_of (cov l)), Some 0%Q).
Lemma sign_pos p q k : (0 < k)%Q -> (p == k * q)%Q -> sign_of p = sign_of q.
Proof.
  intros Hk E. unfold sign_of. f_equal.
  assert (C : forall r : Q, (0 < r)%Q /\ Z.sgn (Qnum r) = 1%Z \/ (r == 0)%Q /\ Z.sgn (Qnum r) = 0%Z \/ (r < 0)%Q /\ Z.sgn (Qnum r) = (-1)%Z).
  { intros [n d]. unfold Qlt, Qeq. simpl. destruct n; simpl; auto; [left|right; right]; split; auto; lia. }
  destruct (C p) as [[Hp ->]|[[Hp ->]|[Hp ->]]]; destruct (C q) as [[Hq ->]|[[Hq ->]|[Hq ->]]]; auto; exfalso; rewrite E in Hp; nra.
Qed.
Lemma sgn_scale_blind : scale_blind sgn_pearson.
Proof.
  intros a b c d l Ha Hc. unfold sgn_pearson. f_equal. f_equal. apply sign_pos with (a * c)%Q; [nra|]. unfold cov.
  set (l' := map _ l).
  assert (E0 : (total (fun _ => 1) l' == total (fun _ => 1) l)%Q).
  { unfold l'. induction l as [|p l IH]; simpl; [reflexivity|]. rewrite IH. reflexivity. }
  assert (E1 : (total fst l' == a * total fst l + b * total (fun _ => 1) l)%Q).
  { unfold l'. clear E0. induction l as [|p l IH]; simpl; [ring|]. rewrite IH. ring. }
  assert (E2 : (total snd l' == c * total snd l + d * total (fun _ => 1) l)%Q).
  { unfold l'. clear E0 E1. induction l as [|p l IH]; simpl; [ring|]. rewrite IH. ring. }
  assert (E3 : (total (fun p => fst p * snd p) l' == a * c * total (fun p => fst p * snd p) l + a * d * total fst l + b * c * total snd l + b * d * total (fun _ => 1) l)%Q).
  { unfold l'. clear E0 E1 E2. induction l as [|p l IH]; simpl; [ring|]. rewrite IH. ring. }
  rewrite E0, E1, E2, E3. ring.
Qed.
Lemma sgn_direction_aware : direction_aware sgn_pearson.
Proof.
  intros l. cbv zeta. unfold sgn_pearson. cbn [fst snd]. split; auto.
  assert (E : (cov (map (fun p => (- fst p, snd p)%Q) l) == - cov l)%Q).
  { unfold cov. set (l' := map _ l).
    assert (E0 : (total (fun _ => 1) l' == total (fun _ => 1) l)%Q).
    { unfold l'. induction l as [|p l IH]; simpl; [reflexivity|]. rewrite IH. reflexivity. }
    assert (E1 : (total fst l' == - total fst l)%Q).
    { unfold l'. clear E0. induction l as [|p l IH]; simpl; [ring|]. rewrite IH. ring. }
    assert (E2 : (total snd l' == total snd l)%Q).
    { unfold l'. clear E0 E1. induction l as [|p l IH]; simpl; [ring|]. rewrite IH. ring. }
    assert (E3 : (total (fun p => fst p * snd p) l' == - total (fun p => fst p * snd p) l)%Q).
    { unfold l'. clear E0 E1 E2. induction l as [|p l IH]; simpl; [ring|]. rewrite IH. ring. }
    rewrite E0, E1, E2, E3. ring. }
  assert (X : sign_of (cov (map (fun p => (- fst p, snd p)%Q) l)) = sign_of (- cov l)) by (apply sign_pos with 1%Q; [reflexivity|rewrite E; ring]).
  rewrite X. unfold sign_of. destruct (cov l) as [n d]. simpl. rewrite Z.sgn_opp, inject_Z_opp. reflexivity.
Qed.
(** Insertion sort of the positions by decreasing modulus. *)
Fixpoint insert_rank (col : list Q) (i : nat) (l : list nat) : list nat :=
  match l with
  | [] => [i]
  | j :: t => if Qle_bool (Qabs (nth j col 0%Q)) (Qabs (nth i col 0%Q)) then i :: l else j :: insert_rank col i t
  end.
Definition stable_ranking (col : list Q) : list nat := fold_right (insert_rank col) [] (seq 0 (length col)).
Definition ranks_all (ranking : list Q -> list nat) : Prop := forall col,
  Permutation (ranking col) (seq 0 (length col)) /\
  forall a b, a < b < length col -> (Qabs (nth (nth b (ranking col) 0%nat) col 0) <= Qabs (nth (nth a (ranking col) 0%nat) col 0))%Q.
Lemma stable_ranks : ranks_all stable_ranking.
Proof.
  intros col.
  assert (P : forall i l, Permutation (insert_rank col i l) (i :: l)).
  { intros i. induction l as [|j t IH]; simpl; auto. destruct (Qle_bool _ _); auto. rewrite IH. constructor. }
  assert (PP : Permutation (stable_ranking col) (seq 0 (length col))).
  { unfold stable_ranking. induction (seq 0 (length col)) as [|i l IH]; simpl; auto. rewrite P. auto. }
  split; auto.
  set (R := fun i j => (Qabs (nth j col 0) <= Qabs (nth i col 0))%Q).
  assert (SR : forall i l, StronglySorted R l -> StronglySorted R (insert_rank col i l)).
  { intros i. induction l as [|j t IH]; intros I; simpl; [repeat constructor|].
    apply StronglySorted_inv in I. destruct I as [I F]. destruct (Qle_bool _ _) eqn:E.
    - apply Qle_bool_iff in E. constructor; [constructor; auto|]. constructor; [exact E|]. eapply Forall_impl; [|exact F]. unfold R. intros k Hk. lra.
    - assert (N : (Qabs (nth i col 0) <= Qabs (nth j col 0))%Q).
      { apply Qnot_lt_le. intro L. assert (X : Qle_bool (Qabs (nth j col 0%Q)) (Qabs (nth i col 0%Q)) = true) by (apply Qle_bool_iff; lra). congruence. }
      constructor; [auto|]. rewrite Forall_forall in *. intros k Hk. apply (Permutation_in _ (P i t)) in Hk. destruct Hk as [<-|Hk]; [exact N|auto]. }
  assert (SS : StronglySorted R (stable_ranking col)).
  { unfold stable_ranking. clear PP. induction (seq 0 (length col)) as [|i l IH]; simpl; [apply SSorted_nil|apply SR; exact IH]. }
  intros a b [H1 H2]. assert (L : length (stable_ranking col) = length col) by (rewrite (Permutation_length PP), seq_length; auto).
  rewrite <- L in H2. clear - SS H1 H2. revert a b H1 H2. induction SS as [|i l SS IH F]; intros a b H1 H2; simpl in H2; [lia|].
  destruct b as [|b]; [lia|]. destruct a as [|a]; simpl.
  - rewrite Forall_forall in F. apply F. apply nth_In. lia.
  - apply IH; lia.
Qed.

(** The direction of a feature matters: measured downwards, it is no longer selected. *)
Definition up := [[Some 1; Some 2; Some 1; Some 3]; [Some 2; Some 4; Some 5; Some 4]; [Some 3; Some 5; Some 6; Some 8]]%Q : list (list num).
Definition perf := [[Some 1]; [Some 2]; [Some 3]]%Q : list (list num).
Theorem C133_direction_of_a_feature_refuted :
  exists pearson ranking sil km best x y labels k thr f out out',
    scale_blind pearson /\ direction_aware pearson /\ ranks_all ranking /\
    sifted pearson (by_column ranking) sil km best x y labels 1 thr k None "Ftr" 0%Q = Ok out /\
    sifted pearson (by_column ranking) sil km best (map (turned f) x) y labels 1 thr k None "Ftr" 0%Q = Ok out' /\
    In f (so_selvars out) /\ ~ In f (so_selvars out').
Proof.
  exists sgn_pearson, stable_ranking, (fun _ => []), (fun _ => []), (fun _ => []), up, perf, ["a"; "b"; "c"; "d"]%string, 4, (1#2)%Q, 1.
  do 2 eexists. split; [apply sgn_scale_blind|]. split; [apply sgn_direction_aware|]. split; [apply stable_ranks|].
  split; [vm_compute; reflexivity|]. split; [vm_compute; reflexivity|]. cbn. split; [auto|]. intuition discriminate.
Qed.

(** The order in which the features are listed matters: other features (by name) are selected. *)
Definition mixed := [[Some 1; Some 1; Some 1; Some 2]; [Some 2; Some 2; Some 2; Some 5]; [Some 3; Some 1; Some 3; Some 2]]%Q : list (list num).
Theorem C133_order_of_features_refuted :
  exists pearson ranking sil km best x y labels k thr s out out',
    scale_blind pearson /\ direction_aware pearson /\ ranks_all ranking /\
    Permutation s (seq 0 (length labels)) /\ NoDup labels /\
    sifted pearson (by_column ranking) sil km best x y labels 1 thr k None "Ftr" 0%Q = Ok out /\
    sifted pearson (by_column ranking) sil km best (map (in_order s) x) y (take_labels labels s) 1 thr k None "Ftr" 0%Q = Ok out' /\
    so_labels out = ["a"; "b"]%string /\ so_labels out' = ["a"; "c"]%string.
Proof.
  exists sgn_pearson, stable_ranking, (fun _ => []), (fun _ => []), (fun _ => []), mixed, perf, ["a"; "b"; "c"; "d"]%string, 4, (1#2)%Q, [0; 2; 1; 3].
  do 2 eexists. split; [apply sgn_scale_blind|]. split; [apply sgn_direction_aware|]. split; [apply stable_ranks|].
  split; [repeat constructor|]. split; [repeat constructor; simpl; intuition discriminate|].
  split; [vm_compute; reflexivity|]. split; [vm_compute; reflexivity|]. split; reflexivity.
Qed.

(** Two algorithms, the second one selecting a feature of its own; in the other order, and alone. *)
Definition two := [[Some 1; Some 1]; [Some 2; Some 3]; [Some 3; Some 1]]%Q : list (list num).
Definition flat := [[Some 1; Some 1; Some 1; Some 2]; [Some 2; Some 1; Some 1; Some 5]; [Some 3; Some 1; Some 1; Some 2]]%Q : list (list num).
Example C133_met : exists out,
  let sift y na := sifted sgn_pearson (by_column stable_ranking) (fun _ => []) (fun _ => []) (fun _ => []) flat y
    ["a"; "b"; "c"; "d"]%string na (1#2) 4 None "Ftr" 0%Q in
  scale_blind sgn_pearson /\ Permutation [1; 0] (seq 0 2) /\
  sift two 2 = Ok out /\ so_clustered out = false /\ so_selvars out = [0; 2; 3] /\ sift (map (in_order [1; 0]) two) 2 = Ok out /\
  exists less, sift (map (in_order [1]) two) 1 = Ok less /\ so_clustered less = false /\ so_selvars less = [2; 3].
Proof.
  eexists. cbv zeta. split; [apply sgn_scale_blind|]. split; [constructor|].
  split; [vm_compute; reflexivity|]. split; [reflexivity|]. split; [vm_compute; reflexivity|]. split; [vm_compute; reflexivity|].
  eexists. split; [vm_compute; reflexivity|]. split; reflexivity.
Qed.

Print Assumptions C133_order_of_algorithms.
Print Assumptions C133_more_algorithms.
Print Assumptions C133_units_and_zero_points.
Print Assumptions C133_direction_of_a_feature_refuted.
Print Assumptions C133_order_of_features_refuted.
