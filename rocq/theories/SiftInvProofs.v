(** Lemmas for SiftInvProps.v. *)
From Coq Require Import Lqa Qabs Permutation Sorted.
From Verif Require Import Base BaseLemmas Num FilterModel FilterProofs PreprocModel PreprocSpec PreprocProofs
  SiftedModel SiftedSpec SiftedProofs SiftInvSpec.
Set Implicit Arguments.
Open Scope nat_scope.
Open Scope list_scope.

Lemma all_ok_map A B E (f : A -> res E B) (g : A -> B) l : (forall a, In a l -> f a = Ok (g a)) -> all_ok (map f l) = Ok (map g l).
Proof.
  induction l as [|a l IH]; intros H; simpl; auto. rewrite (H a) by (left; auto). rewrite IH by (intros; apply H; right; auto). auto.
Qed.
Lemma all_ok_each A B E (f : A -> res E B) l r : all_ok (map f l) = Ok r -> forall a, In a l -> exists b, f a = Ok b.
Proof.
  revert r. induction l as [|a l IH]; intros r H b Hb; [destruct Hb|]. simpl in H. destruct Hb as [<-|Hb].
  - destruct (f a); [eauto|discriminate].
  - destruct (f a); [|discriminate]. destruct (all_ok (map f l)); [|discriminate]. eapply IH; eauto.
Qed.
Lemma increasing_ext l : forall l', increasing l -> increasing l' -> (forall a, In a l <-> In a l') -> l = l'.
Proof.
  assert (Lo : forall a l, increasing (a :: l) -> forall b, In b l -> a < b).
  { intros a u I b Hb. apply StronglySorted_inv in I. destruct I as [_ F]. rewrite Forall_forall in F. auto. }
  assert (Tl : forall a l, increasing (a :: l) -> increasing l).
  { intros a u I. apply StronglySorted_inv in I. apply I. }
  induction l as [|a l IH]; intros [|a' l'] I I' H; auto.
  - exfalso. apply (H a'). left. auto.
  - exfalso. apply (H a). left. auto.
  - assert (a = a').
    { destruct (proj1 (H a) (or_introl eq_refl)) as [->|X]; auto. destruct (proj2 (H a') (or_introl eq_refl)) as [->|Y]; auto.
      pose proof (Lo _ _ I' _ X). pose proof (Lo _ _ I _ Y). lia. }
    subst a'. f_equal. apply IH; [eapply Tl; eauto|eapply Tl; eauto|]. intros b. split; intro Hb.
    + destruct (proj1 (H b) (or_intror Hb)) as [->|X]; auto. pose proof (Lo _ _ I _ Hb). lia.
    + destruct (proj2 (H b) (or_intror Hb)) as [->|X]; auto. pose proof (Lo _ _ I' _ Hb). lia.
Qed.

Section Sift.
  Variable pearson : list (Q * Q) -> num * num.
  Variable ranking : list Q -> list nat.

  Definition value (x y : list (list num)) (i j : nat) : num * num :=
    match corr_pair pearson (column None x i) (column None y j) with Ok v => v | Err _ => (None, None) end.
  Definition values (x y : list (list num)) (nf na : nat) : list (list (num * num)) :=
    map (fun i => map (value x y i) (seq 0 na)) (seq 0 nf).
  Definition defined (x y : list (list num)) (nf na : nat) : Prop :=
    forall i j, i < nf -> j < na -> exists v, corr_pair pearson (column None x i) (column None y j) = Ok v.
  Lemma correlations_total x y nf na : defined x y nf na -> correlations pearson x y nf na = Ok (values x y nf na).
  Proof.
    intros D. unfold correlations, values. apply all_ok_map. intros i Hi. apply in_seq in Hi. apply all_ok_map. intros j Hj. apply in_seq in Hj.
    destruct (D i j) as [v E]; [lia|lia|]. unfold value. rewrite E. auto.
  Qed.
  Lemma correlations_defined x y nf na rp : correlations pearson x y nf na = Ok rp -> defined x y nf na.
  Proof.
    intros H i j Hi Hj. unfold correlations in H.
    destruct (@all_ok_each _ _ _ _ _ _ H i) as [b E]; [apply in_seq; lia|].
    apply (@all_ok_each _ _ _ _ _ _ E j). apply in_seq. lia.
  Qed.
  Definition rho_of x y nf na : list (list Q) := map (map clean_rho) (values x y nf na).
  Definition chosen x y nf na thr : list nat :=
    where_true (perf_mask (rho_of x y nf na) (by_column ranking (rho_of x y nf na)) thr nf na).
  Lemma map_seq_nth_error A (f : nat -> A) n i : i < n -> nth_error (map f (seq 0 n)) i = Some (f i).
  Proof. intros H. rewrite nth_error_map, (nth_error_nth' _ 0), seq_nth by (rewrite ?seq_length; auto). auto. Qed.
  Lemma corr_at x y nf na i j : i < nf -> j < na -> corr (rho_of x y nf na) i j = clean_rho (value x y i j).
  Proof.
    intros Hi Hj. unfold corr, rho_of, values. rewrite map_map. rewrite (nth_error_nth _ _ _ (map_seq_nth_error _ Hi)).
    rewrite map_map. exact (nth_error_nth _ _ _ (map_seq_nth_error (fun j => clean_rho (value x y i j)) Hj)).
  Qed.
  Lemma column_at x y nf na j : j < na -> map (fun r => nth j r 0%Q) (rho_of x y nf na) = map (fun i => clean_rho (value x y i j)) (seq 0 nf).
  Proof.
    intros Hj. unfold rho_of, values. rewrite !map_map. apply map_ext. intros i. rewrite map_map.
    exact (nth_error_nth _ _ _ (map_seq_nth_error (fun j => clean_rho (value x y i j)) Hj)).
  Qed.
  (** What is chosen, in terms of the columns. *)
  Lemma chosen_spec x y nf na thr f : In f (chosen x y nf na thr) <->
    f < nf /\ exists j, j < na /\ let order := ranking (map (fun i => clean_rho (value x y i j)) (seq 0 nf)) in
      (nth 0 order 0 = f \/ exists i, i < nf /\ (thr <= clean_rho (value x y i j))%Q /\ nth i order 0 = f).
  Proof.
    unfold chosen. rewrite perf_selected. unfold by_column.
    split.
    - intros [Hf [(j & Hj & E)|(i & j & Hi & Hj & T & E)]]; split; auto; exists j; (split; [auto|]); cbv zeta; rewrite column_at in E by auto; auto.
      right. exists i. rewrite corr_at in T by auto. auto.
    - intros [Hf (j & Hj & [E|(i & Hi & T & E)])]; split; auto.
      + left. exists j. rewrite column_at by auto. auto.
      + right. exists i, j. rewrite column_at, corr_at by auto. auto.
  Qed.
  Lemma chosen_increasing x y nf na thr : increasing (chosen x y nf na thr).
  Proof. apply where_true_increasing. Qed.

  (** Algorithms listed in another order, or more of them. *)
  Lemma value_column x y x' y' i j i' j' : column None x' i' = column None x i -> column None y' j' = column None y j -> value x' y' i' j' = value x y i j.
  Proof. intros E E'. unfold value. rewrite E, E'. auto. Qed.
  Lemma chosen_sub x y y' nf na na' thr (g : nat -> nat) :
    (forall j, j < na' -> g j < na /\ column None y' j = column None y (g j)) ->
    forall f, In f (chosen x y' nf na' thr) -> In f (chosen x y nf na thr).
  Proof.
    intros G f. rewrite !chosen_spec. intros [Hf (j & Hj & H)]. destruct (G j Hj) as [Hg E]. split; auto. exists (g j). split; auto.
    cbv zeta in *. rewrite (map_ext _ (fun i => clean_rho (value x y i (g j)))) in H.
    - destruct H as [H|(i & Hi & T & H)]; auto. right. exists i. split; auto. split; auto. rewrite <- (@value_column x y x y' i (g j) i j); auto.
    - intros i. f_equal. apply value_column; auto.
  Qed.
  Lemma defined_sub x y y' nf na na' (g : nat -> nat) :
    (forall j, j < na' -> g j < na /\ column None y' j = column None y (g j)) -> defined x y nf na -> defined x y' nf na'.
  Proof. intros G D i j Hi Hj. destruct (G j Hj) as [Hg E]. rewrite E. apply D; auto. Qed.

  (** The values of the correlations are the same. *)
  Lemma chosen_same x y x' y' nf na thr : (forall i j, i < nf -> j < na -> value x' y' i j = value x y i j) ->
    chosen x' y' nf na thr = chosen x y nf na thr.
  Proof.
    intros V. apply increasing_ext; try apply chosen_increasing. intros f. rewrite !chosen_spec.
    split; intros [Hf (j & Hj & H)]; (split; [auto|]); exists j; (split; [auto|]); cbv zeta in *.
    - rewrite (map_ext_in _ (fun i => clean_rho (value x y i j))) in H by (intros i Hi; apply in_seq in Hi; rewrite V; auto; lia).
      destruct H as [H|(i & Hi & T & H)]; auto. right. exists i. rewrite V in T by auto. auto.
    - rewrite <- (map_ext_in (fun i => clean_rho (value x' y' i j))) in H by (intros i Hi; apply in_seq in Hi; rewrite V; auto; lia).
      destruct H as [H|(i & Hi & T & H)]; auto. right. exists i. rewrite V by auto. auto.
  Qed.

  (** The stage, when nothing is clustered. *)
  Variable sil : list nat -> list Q.
  Variable km_labels : list nat -> list nat.
  Variable best : list nat -> list Z.
  Notation sift x y labels na thr k dense stype md :=
    (sifted pearson (by_column ranking) sil km_labels best x y labels na thr k dense stype md).
  Definition plain (x : list (list num)) (labels : list string) (sv : list nat) : sift_out :=
    {| so_x := take_columns x sv; so_labels := take_labels labels sv; so_selvars := sv; so_idx := seq 0 (length labels); so_clustered := false |}.
  Lemma sifted_inv x y labels na thr k dense stype md out : sift x y labels na thr k dense stype md = Ok out -> so_clustered out = false ->
    3 < length labels ->
    let sv := chosen x y (length labels) na thr in
    defined x y (length labels) na /\ 1 < length sv /\ (length sv <= 3 \/ length sv <= k) /\ out = plain x labels sv.
  Proof.
    intros H Hc Hl sv. unfold sifted in H.
    destruct (Nat.leb_spec (length labels) 1) as [A|A]; [discriminate|]. destruct (Nat.leb_spec (length labels) 3) as [B|B]; [lia|].
    destruct (correlations pearson x y (length labels) na) as [rp|e] eqn:E; [|discriminate].
    assert (D : defined x y (length labels) na) by (eapply correlations_defined; eauto). split; auto. rewrite correlations_total in E by auto. injection E as <-.
    cbv zeta in H. change (where_true _) with sv in H.
    destruct (Nat.leb_spec (length sv) 1) as [W|W]; [discriminate|].
    destruct (Nat.leb (length sv) 3 || Nat.leb (length sv) k) eqn:O.
    - injection H as <-. split; auto. split; auto. apply orb_true_iff in O. rewrite !Nat.leb_le in O. auto.
    - destruct (evaluate_cluster _ _ _); [|discriminate]. destruct (decode_selvars _ _ _ _); [|discriminate].
      destruct dense as [[[dx dy] db]|]; [destruct (filter_instance _ _ _ _ _ _ _); discriminate|]. injection H as <-. discriminate.
  Qed.
  Lemma sifted_plain x y labels na thr k dense stype md :
    3 < length labels -> let sv := chosen x y (length labels) na thr in
    defined x y (length labels) na -> 1 < length sv -> length sv <= 3 \/ length sv <= k ->
    sift x y labels na thr k dense stype md = Ok (plain x labels sv).
  Proof.
    intros Hl sv D W O. unfold sifted.
    destruct (Nat.leb_spec (length labels) 1) as [A|A]; [lia|]. destruct (Nat.leb_spec (length labels) 3) as [B|B]; [lia|].
    rewrite correlations_total by auto. cbv zeta. change (where_true _) with sv.
    destruct (Nat.leb_spec (length sv) 1); [lia|].
    assert (X : Nat.leb (length sv) 3 || Nat.leb (length sv) k = true) by (apply orb_true_iff; rewrite !Nat.leb_le; auto).
    rewrite X. auto.
  Qed.
  Lemma sifted_few x y labels na thr k dense stype md out : sift x y labels na thr k dense stype md = Ok out -> length labels <= 3 ->
    1 < length labels /\ out = {| so_x := x; so_labels := labels; so_selvars := seq 0 (length labels); so_idx := seq 0 (length labels); so_clustered := false |}.
  Proof.
    intros H Hl. unfold sifted in H. destruct (Nat.leb_spec (length labels) 1) as [A|A]; [discriminate|].
    destruct (Nat.leb_spec (length labels) 3) as [B|B]; [|lia]. injection H as <-. auto.
  Qed.
End Sift.

Lemma in_order_column s y j : j < length s -> column None (map (in_order s) y) j = column None y (nth j s 0).
Proof.
  intros Hj. unfold column. rewrite map_map. apply map_ext. intros r. unfold in_order.
  rewrite (nth_indep _ None (nth (nth j s 0) r None)) by (rewrite map_length; auto).
  apply nth_error_nth. rewrite nth_error_map, (nth_error_nth' _ 0) by auto. auto.
Qed.
Lemma nth_numbered (f : nat * num -> num) row j : (forall i, f (i, None) = None) -> 
  nth j (map f (combine (seq 0 (length row)) row)) None = f (j, nth j row None).
Proof.
  intros F. destruct (Nat.lt_ge_cases j (length row)) as [H|H].
  - apply nth_error_nth. rewrite nth_error_map.
    assert (E : nth_error (combine (seq 0 (length row)) row) j = Some (j, nth j row None)); [|rewrite E; auto].
    rewrite (nth_error_nth' _ (0, None : num)) by (rewrite combine_length, seq_length; lia).
    rewrite combine_nth by apply seq_length. rewrite seq_nth by auto. auto.
  - rewrite !nth_overflow; auto. rewrite map_length, combine_length, seq_length. lia.
Qed.
Lemma rescaled_column a b x j : column None (map (rescaled a b) x) j = map (option_map (fun v => (a j * v + b j)%Q)) (column None x j).
Proof.
  unfold column. rewrite !map_map. apply map_ext. intros r. unfold rescaled. rewrite nth_numbered by auto. auto.
Qed.
Lemma turned_column f x j : column None (map (turned f) x) j = if Nat.eqb j f then map (option_map Qopp) (column None x j) else column None x j.
Proof.
  unfold column. rewrite map_map. transitivity (map (fun r => if Nat.eqb j f then option_map Qopp (nth j r None) else nth j r None) x).
  - apply map_ext. intros r. unfold turned. rewrite nth_numbered; auto. intros i. simpl. destruct (Nat.eqb i f); auto.
  - destruct (Nat.eqb j f); [rewrite map_map|]; auto.
Qed.
Lemma valid_pairs_map (f g : Q -> Q) u : forall v, valid_pairs (map (option_map f) u) (map (option_map g) v) =
  map (fun p => (f (fst p), g (snd p))) (valid_pairs u v).
Proof.
  induction u as [|a u IH]; intros [|b v]; auto. unfold valid_pairs in *. simpl. rewrite IH. destruct a, b; auto.
Qed.
