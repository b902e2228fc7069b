(** Proofs about the order of the algorithms in PRELIM. *)
From Coq Require Import Permutation Lqa.
From Verif Require Import Base BaseLemmas Num Ext PrelimModel PrelimSpec PrelimProofs UnitsSpec UnitsProofs AlgOrderSpec.
Set Implicit Arguments.
Open Scope list_scope.

Lemma same_sym a b : same_value a b -> same_value b a.
Proof. destruct a, b; simpl; auto. intro. symmetry. auto. Qed.
Lemma qeqb_same a b c d : (a == b)%Q -> (c == d)%Q -> Qeq_bool a c = Qeq_bool b d.
Proof. intros H K. apply eq_true_iff_eq. rewrite !Qeq_bool_iff, H, K. tauto. Qed.
Lemma qleb_same a b c d : (a == b)%Q -> (c == d)%Q -> Qle_bool a c = Qle_bool b d.
Proof. intros H K. apply eq_true_iff_eq. rewrite !Qle_bool_iff, H, K. tauto. Qed.
Lemma sign_same a b : (a == b)%Q -> sign a = sign b.
Proof.
  unfold sign, Qeq. intro H. destruct a as [n d], b as [n' d']. simpl in *.
  assert (Z.sgn (n * Z.pos d') = Z.sgn (n' * Z.pos d)) by congruence. rewrite !Z.sgn_mul in H0. simpl in H0. lia.
Qed.
Lemma ediv_same a a' b b' : same_value a a' -> same_value b b' -> same_value (ediv a b) (ediv a' b').
Proof.
  destruct a as [x| | |], a' as [x'| | |]; simpl; try tauto; destruct b as [y| | |], b' as [y'| | |]; simpl; try tauto; intros H K;
    try reflexivity; auto.
  - rewrite (qeqb_same K (Qeq_refl 0)), (sign_same H). destruct (Qeq_bool y' 0); [apply same_refl|]. simpl. rewrite H, K. reflexivity.
  - rewrite (qleb_same (Qeq_refl 0) K). apply same_refl.
  - rewrite (qleb_same (Qeq_refl 0) K). apply same_refl.
Qed.
Lemma eeq_same a a' b b' : same_value a a' -> same_value b b' -> eeq a b = eeq a' b'.
Proof. intros H K. unfold eeq. rewrite (@ele_same a a' b b' H K), (@ele_same b b' a a' K H). auto. Qed.

(** What PRELIM computes for one algorithm, given the best performance. *)
Definition best_used (o : popts) (w : ext) : ext := if abs_perf o then w else if eeq w (Fin 0) then Fin eps else w.
Definition judge (o : popts) (best : ext) (v : num) : bool :=
  if max_perf o then
    if abs_perf o then ele (Fin (epsilon o)) (y_aux o v) else ele (one_minus (ediv (y_aux o v) best)) (Fin (epsilon o))
  else
    if abs_perf o then ele (y_aux o v) (Fin (epsilon o)) else ele (one_minus (ediv best (y_aux o v))) (Fin (epsilon o)).
Definition replaced (o : popts) (v : num) : num := if abs_perf o then v else if neqb v (Some 0%Q) then Some eps else v.
Definition rescaled (o : popts) (best : ext) (v : num) : ext :=
  if abs_perf o then of_num v else
  if max_perf o then one_minus (ediv (of_num (replaced o v)) best) else one_minus (ediv best (of_num (replaced o v))).

Lemma row_parts o row :
  r_best (prelim_row o row) = best_used o (snd (best_of o row)) /\
  r_bin (prelim_row o row) = map (judge o (r_best (prelim_row o row))) row /\
  r_y (prelim_row o row) = map (rescaled o (r_best (prelim_row o row))) row /\
  r_y_inplace (prelim_row o row) = map (replaced o) row /\
  r_good (prelim_row o row) = count_true (r_bin (prelim_row o row)) /\
  r_beta (prelim_row o row) = negb (Qle_bool (inject_Z (Z.of_nat (r_good (prelim_row o row)))) (beta_threshold o * inject_Z (Z.of_nat (length row)))).
Proof.
  unfold prelim_row. destruct (best_of o row) as [k w]. cbn [r_best r_bin r_y r_y_inplace r_good r_beta snd]. split; [reflexivity|].
  split; [rewrite map_map; reflexivity|]. split; [|split; [|split; reflexivity]].
  - unfold rescaled, replaced. destruct (abs_perf o); [reflexivity|]. rewrite map_map. apply map_ext. intros v. reflexivity.
  - unfold replaced. destruct (abs_perf o); [rewrite map_id|]; reflexivity.
Qed.

Lemma judge_same o b b' v : same_value b b' -> judge o b v = judge o b' v.
Proof.
  intro H. unfold judge. destruct (max_perf o), (abs_perf o); auto; apply ele_same; try apply same_refl; apply one_minus_same, ediv_same; auto;
    apply same_refl.
Qed.
Lemma rescaled_same o b b' v : same_value b b' -> same_value (rescaled o b v) (rescaled o b' v).
Proof.
  intro H. unfold rescaled. destruct (max_perf o), (abs_perf o); try apply same_refl; apply one_minus_same, ediv_same; auto; apply same_refl.
Qed.
Lemma best_used_same o w w' : same_value w w' -> same_value (best_used o w) (best_used o w').
Proof.
  intro H. unfold best_used. destruct (abs_perf o); auto.
  rewrite (@eeq_same w w' (Fin 0) (Fin 0)); auto; [|apply same_refl]. destruct (eeq w' (Fin 0)); auto. apply same_refl.
Qed.

(** neither is better *)
Lemma not_better_same o w w' : real w -> real w' -> betterb o w w' = false -> betterb o w' w = false -> same_value w w'.
Proof.
  unfold betterb, elt. destruct w as [x| | |], w' as [y| | |]; destruct (max_perf o); simpl; intros A B H K; auto; try discriminate;
    try (exfalso; apply A; reflexivity); try (exfalso; apply B; reflexivity);
    apply negb_false_iff in H; apply negb_false_iff in K; apply Qle_bool_iff in H; apply Qle_bool_iff in K; apply Qle_antisym; auto.
Qed.

Lemma best_same o row row' : row <> [] -> row' <> [] ->
  (forall v, In v row -> exists v', In v' row' /\ betterb o (y_aux o v) (y_aux o v') = false) ->
  (forall v, In v row' -> exists v', In v' row /\ betterb o (y_aux o v) (y_aux o v') = false) ->
  same_value (r_best (prelim_row o row)) (r_best (prelim_row o row')).
Proof.
  intros N N' A B. rewrite (proj1 (row_parts o row)), (proj1 (row_parts o row')). apply best_used_same.
  destruct (best_of o row) as [k w] eqn:E, (best_of o row') as [k' w'] eqn:E'. simpl.
  destruct (best_present _ E N) as (v & I & ->). destruct (best_present _ E' N') as (v' & I' & ->).
  destruct (@best_of_spec o row _ _ N E) as (_ & S & _). destruct (@best_of_spec o row' _ _ N' E') as (_ & S' & _).
  assert (X : forall o u v b, real u -> real v -> real b -> betterb o u v = false -> betterb o v b = false -> betterb o u b = false).
  { intros o0 u v0 b Ru Rv Rb H K. destruct (betterb o0 u b) eqn:F; auto. rewrite (@better_neg_trans o0 v0 u b) in H; auto. }
  assert (Y : forall r u, In u r -> exists j, nth_error (map (y_aux o) r) j = Some (y_aux o u)).
  { intros r u H. apply In_nth_error. apply in_map. auto. }
  apply not_better_same with o; try apply y_aux_real.
  - destruct (A v I) as (u & Iu & Hu). destruct (Y _ _ Iu) as (j & Hj). eapply X; [..|exact Hu|eapply S'; exact Hj]; apply y_aux_real.
  - destruct (B v' I') as (u & Iu & Hu). destruct (Y _ _ Iu) as (j & Hj). eapply X; [..|exact Hu|eapply S; exact Hj]; apply y_aux_real.
Qed.

Lemma restricted_map' A B (f : A -> B) idx l l' : restricted_to idx l l' -> restricted_to idx (map f l) (map f l').
Proof.
  unfold restricted_to. intro H. rewrite map_map. rewrite (map_ext (fun x => Some (f x)) (fun x => option_map f (Some x))) by reflexivity.
  rewrite <- (map_map Some (option_map f)), H, map_map. apply map_ext. intro k. rewrite nth_error_map. reflexivity.
Qed.
Lemma restricted_nth_error A idx (l l' : list A) k : restricted_to idx l l' ->
  nth_error l' k = match nth_error idx k with Some j => nth_error l j | None => None end.
Proof.
  unfold restricted_to. intro H. assert (E : nth_error (map Some l') k = nth_error (map (nth_error l) idx) k) by congruence.
  rewrite !nth_error_map in E. destruct (nth_error l' k), (nth_error idx k); simpl in E; congruence.
Qed.
Lemma restricted_seq A (l : list A) : map (nth_error l) (seq 0 (length l)) = map Some l.
Proof.
  induction l as [|a l IH]; simpl; auto. f_equal. rewrite <- seq_shift, map_map. rewrite <- IH. apply map_ext. reflexivity.
Qed.
Lemma listed_perm A idx (l l' : list A) : listed_as idx l l' -> Permutation l' l.
Proof.
  intros (P & R). apply (Permutation_map (nth_error l)) in P. rewrite restricted_seq, <- R in P.
  apply Permutation_map_inv in P. destruct P as (m & E & P).
  assert (m = l').
  { clear P R. revert l' E. induction m as [|a m IH]; intros [|b l'] E; try discriminate; auto. injection E as -> E. f_equal. auto. }
  subst. apply Permutation_sym. auto.
Qed.
Lemma count_perm l l' : Permutation l l' -> count_true l = count_true l'.
Proof.
  unfold count_true. induction 1; simpl; auto; [destruct x; simpl; auto|destruct x, y; simpl; auto|congruence].
Qed.

Lemma listed_best o idx row row' : listed_as idx row row' -> same_value (r_best (prelim_row o row')) (r_best (prelim_row o row)).
Proof.
  intro H. pose proof (listed_perm H) as P. destruct row as [|a row]; [apply Permutation_sym, Permutation_nil in P; subst; apply same_refl|].
  apply best_same; try discriminate.
  - intros ->. apply Permutation_nil in P. discriminate.
  - intros v I. exists v. split; [eapply Permutation_in; eauto|apply better_irrefl, y_aux_real].
  - intros v I. exists v. split; [eapply Permutation_in; [apply Permutation_sym|]; eauto|apply better_irrefl, y_aux_real].
Qed.
Lemma listed_bin o idx row row' : listed_as idx row row' -> restricted_to idx (r_bin (prelim_row o row)) (r_bin (prelim_row o row')).
Proof.
  intro H. destruct (row_parts o row) as (_ & E & _). destruct (row_parts o row') as (_ & E' & _). rewrite E, E'.
  rewrite (map_ext _ _ (fun v => @judge_same o _ _ v (listed_best o H))). apply restricted_map'. apply H.
Qed.
Lemma listed_good o idx row row' : listed_as idx row row' -> r_good (prelim_row o row') = r_good (prelim_row o row).
Proof.
  intro H. destruct (row_parts o row) as (_ & E & _ & _ & G & _). destruct (row_parts o row') as (_ & E' & _ & _ & G' & _).
  rewrite G, G', E, E'. rewrite (map_ext _ _ (fun v => @judge_same o _ _ v (listed_best o H))).
  apply count_perm, Permutation_map, (listed_perm H).
Qed.
Lemma listed_beta o idx row row' : listed_as idx row row' -> r_beta (prelim_row o row') = r_beta (prelim_row o row).
Proof.
  intro H. destruct (row_parts o row) as (_ & _ & _ & _ & _ & B). destruct (row_parts o row') as (_ & _ & _ & _ & _ & B').
  rewrite B, B', (listed_good o H), (Permutation_length (listed_perm H)). reflexivity.
Qed.
Lemma listed_y o idx row row' k k' v v' : listed_as idx row row' -> nth_error idx k' = Some k ->
  nth_error (r_y (prelim_row o row)) k = Some v -> nth_error (r_y (prelim_row o row')) k' = Some v' -> same_value v v'.
Proof.
  intros H K. destruct (row_parts o row) as (_ & _ & E & _). destruct (row_parts o row') as (_ & _ & E' & _). rewrite E, E'.
  rewrite !nth_error_map. rewrite (restricted_nth_error k' (proj2 H)), K. destruct (nth_error row k); simpl; [|discriminate].
  intros X X'. injection X as <-. injection X' as <-. apply rescaled_same, same_sym, (listed_best o H).
Qed.

(** the number of the best algorithm *)
Lemma sole_best_p o row k b : sole_best o row k b -> (abs_perf o = true \/ max_perf o = true \/ ~ (b == 0)%Q) -> r_p (prelim_row o row) = S k.
Proof.
  intros (K & U) C. assert (N : row <> []) by (intros ->; destruct k; discriminate).
  destruct (@row_best_p o row N) as [(k' & b' & _ & (F1 & F2 & F3) & _ & P)|(A & _)].
  - assert (k' = k).
    { destruct (Nat.eq_dec k' k) as [|D]; auto. exfalso. apply (F2 _ _ K). eapply U; eauto. }
    subst k'. rewrite F1 in K. injection K as ->. apply P. tauto.
  - apply nth_error_In in K. apply A in K. discriminate.
Qed.
Lemma sole_best_listed o idx row row' k b : listed_as idx row row' -> sole_best o row k b ->
  exists k', nth_error idx k' = Some k /\ sole_best o row' k' b.
Proof.
  intros (P & R) (K & U). assert (I : In k idx).
  { eapply Permutation_in; [apply Permutation_sym; exact P|]. apply in_seq. split; [lia|]. simpl. apply nth_error_Some. congruence. }
  apply In_nth_error in I. destruct I as (k' & E). exists k'. split; auto. split.
  - rewrite (restricted_nth_error k' R), E. auto.
  - intros j v D H. rewrite (restricted_nth_error j R) in H. destruct (nth_error idx j) as [i|] eqn:Ei; [|discriminate].
    apply (U i); auto. intros ->. apply D.
    assert (ND : NoDup idx) by (eapply Permutation_NoDup; [apply Permutation_sym; exact P|apply seq_NoDup]).
    eapply (proj1 (NoDup_nth_error idx) ND); [apply nth_error_Some; congruence|congruence].
Qed.

(** one more algorithm *)
Lemma added_best o row v : row <> [] -> not_better o v row -> same_value (r_best (prelim_row o (row ++ [v]))) (r_best (prelim_row o row)).
Proof.
  intros N H. apply best_same; auto.
  - destruct row; discriminate.
  - intros u I. apply in_app_or in I. destruct I as [I|[<-|[]]].
    + exists u. split; auto. apply better_irrefl, y_aux_real.
    + destruct H as [->|(q & b & -> & I & B)].
      * destruct row as [|a row]; [congruence|]. exists a. split; [left; auto|].
        destruct (betterb o (y_aux o None) (y_aux o a)) eqn:E; auto. exfalso.
        destruct a as [a|]; [change (y_aux o (Some a)) with (Fin a) in E; apply better_asym in E; [|apply y_aux_real|discriminate]; rewrite (better_missing o a) in E; discriminate|].
        rewrite better_irrefl in E; [discriminate|apply y_aux_real].
      * exists (Some b). split; auto. apply not_true_iff_false. simpl. rewrite better_fin. auto.
  - intros u I. exists u. split; [apply in_or_app; auto|apply better_irrefl, y_aux_real].
Qed.
Lemma added_bin o row v : row <> [] -> not_better o v row ->
  exists g, r_bin (prelim_row o (row ++ [v])) = r_bin (prelim_row o row) ++ [g].
Proof.
  intros N H. destruct (row_parts o row) as (_ & E & _). destruct (row_parts o (row ++ [v])) as (_ & E' & _). rewrite E, E'.
  rewrite (map_ext _ _ (fun u => @judge_same o _ _ u (added_best N H))), map_app. eexists. reflexivity.
Qed.
Lemma added_y o row v k u u' : row <> [] -> not_better o v row ->
  nth_error (r_y (prelim_row o row)) k = Some u -> nth_error (r_y (prelim_row o (row ++ [v]))) k = Some u' -> same_value u u'.
Proof.
  intros N H. destruct (row_parts o row) as (_ & _ & E & _). destruct (row_parts o (row ++ [v])) as (_ & _ & E' & _). rewrite E, E'.
  rewrite !nth_error_map. intro X. assert (L : k < length row).
  { apply nth_error_Some. destruct (nth_error row k); [discriminate|discriminate X]. }
  rewrite nth_error_app1 by auto. destruct (nth_error row k); [|discriminate]. simpl in *. intro X'. injection X as <-. injection X' as <-.
  apply rescaled_same, same_sym, added_best; auto.
Qed.
Lemma first_best_added o row v k b : not_better o v row -> first_best o row k b -> first_best o (row ++ [v]) k b.
Proof.
  intros H (K & F & U). assert (L : k < length row) by (apply nth_error_Some; congruence). split; [rewrite nth_error_app1; auto|]. split.
  - intros j u Hj B. destruct (Nat.lt_ge_cases j (length row)) as [J|J].
    + rewrite nth_error_app1 in Hj by auto. eapply F; eauto.
    + rewrite nth_error_app2 in Hj by auto. destruct (j - length row) as [|i]; [|destruct i; discriminate]. injection Hj as ->.
      destruct H as [H|(q & c & E & I & Nb)]; [discriminate|]. injection E as ->. apply In_nth_error in I. destruct I as (i & I).
      specialize (F _ _ I). apply Nb. unfold beats in *. destruct (max_perf o); lra.
  - intros j u J Hj. rewrite nth_error_app1 in Hj by lia. eapply U; eauto.
Qed.
Lemma added_p o row v : row <> [] -> not_better o v row ->
  (abs_perf o = true \/ max_perf o = true \/ forall q, In (Some q) row -> ~ (q == 0)%Q) ->
  r_p (prelim_row o (row ++ [v])) = r_p (prelim_row o row).
Proof.
  intros N H C. assert (N' : row ++ [v] <> []) by (destruct row; discriminate).
  destruct (@row_best_p o row N) as [(k & b & _ & F & _ & P)|(A & _ & P)].
  - assert (D : abs_perf o = true \/ max_perf o = true \/ ~ (b == 0)%Q).
    { destruct C as [C|[C|C]]; auto. right. right. apply C. eapply nth_error_In. apply F. }
    rewrite P by tauto.
    destruct (@row_best_p o (row ++ [v]) N') as [(k' & b' & _ & F' & _ & P')|(A' & _)].
    + pose proof (first_best_added H F) as (G1 & G2 & G3). destruct F' as (F1 & F2 & F3).
      assert (k' = k).
      { destruct (Nat.lt_trichotomy k k') as [X|[X|X]]; auto; exfalso.
        - apply (G2 _ _ F1). eapply F3; eauto.
        - apply (F2 _ _ G1). eapply G3; eauto. }
      subst k'. rewrite F1 in G1. injection G1 as ->. apply P'. tauto.
    + exfalso. destruct F as (F & _). apply nth_error_In in F. specialize (A' (Some b)). rewrite in_app_iff in A'. discriminate A'. auto.
  - rewrite P. destruct (@row_best_p o (row ++ [v]) N') as [(k' & b' & _ & (F' & _) & _)|(_ & _ & P')]; auto.
    exfalso. apply nth_error_In in F'. apply in_app_or in F'. destruct F' as [F'|[F'|[]]]; [apply A in F'; discriminate|].
    destruct H as [H|(q & c & _ & I & _)]; [congruence|]. apply A in I. discriminate.
Qed.
