(** Lemmas about the unit and the direction of the performance measure. *)
From Coq Require Import Lqa.
From Verif Require Import Base BaseLemmas Num Ext FilterModel PrelimModel PrelimSpec PrelimProofs UnitsSpec.
Set Implicit Arguments.

Lemma ele_same a a' b b' : same_value a a' -> same_value b b' -> ele a b = ele a' b'.
Proof.
  destruct a, a', b, b'; simpl; try tauto. intros H K. apply eq_true_iff_eq. rewrite !Qle_bool_iff, H, K. tauto.
Qed.
Lemma one_minus_same a b : same_value a b -> same_value (one_minus a) (one_minus b).
Proof. destruct a, b; simpl; try tauto. intro H. rewrite H. reflexivity. Qed.
Lemma same_refl a : same_value a a.
Proof. destruct a; simpl; auto; reflexivity. Qed.

Section Convert.
  Variable f : Q -> Q.
  Variables o o' : popts.
  (** the image of a value of y_aux *)
  Definition image (e : ext) : ext := match e with Fin q => Fin (f q) | ENaN => ENaN | _ => y_aux o' None end.
  Lemma y_aux_image v : y_aux o' (option_map f v) = image (y_aux o v).
  Proof. destruct v; simpl; auto. destruct (max_perf o); reflexivity. Qed.
  Variable P : Q -> Prop.
  Hypothesis mono : forall a b, P a -> P b -> betterb o' (Fin (f a)) (Fin (f b)) = betterb o (Fin a) (Fin b).
  Definition ok (v : num) : Prop := forall q, v = Some q -> P q.
  Lemma better_image u v : ok u -> ok v -> betterb o' (image (y_aux o u)) (image (y_aux o v)) = betterb o (y_aux o u) (y_aux o v).
  Proof.
    intros Hu Hv. destruct u as [a|], v as [b|].
    - apply mono; [apply Hu|apply Hv]; auto.
    - unfold betterb, image. simpl. destruct (max_perf o), (max_perf o'); reflexivity.
    - unfold betterb, image. simpl. destruct (max_perf o), (max_perf o'); reflexivity.
    - unfold betterb, image. simpl. destruct (max_perf o), (max_perf o'); reflexivity.
  Qed.
  Lemma best_image row : Forall ok row -> best_of o' (convert f row) = let '(k, w) := best_of o row in (k, image w).
  Proof.
    intro F. unfold best_of, convert. rewrite map_map. destruct row as [|r row]; [reflexivity|]. simpl map.
    fold (betterb o) (betterb o'). apply Forall_cons_iff in F. destruct F as [F0 F]. rewrite y_aux_image.
    assert (G : forall l i bi u, ok u -> Forall ok l ->
      arg_best (betterb o') (map (fun x => y_aux o' (option_map f x)) l) i bi (image (y_aux o u)) =
      (let '(k, w) := arg_best (betterb o) (map (y_aux o) l) i bi (y_aux o u) in (k, image w))).
    { induction l as [|v l IH]; intros i bi u Hu Hl; simpl; auto. apply Forall_cons_iff in Hl. destruct Hl as [Hv Hl].
      rewrite y_aux_image, better_image by auto. destruct (betterb o (y_aux o v) (y_aux o u)); apply IH; auto. }
    apply G; auto.
  Qed.
End Convert.

Lemma best_present o row k w : best_of o row = (k, w) -> row <> [] -> exists v, In v row /\ w = y_aux o v.
Proof.
  intros E N. destruct (best_of_spec _ N E) as (H & _). apply nth_error_In in H. apply in_map_iff in H. destruct H as (v & <- & I). eauto.
Qed.
Lemma neqb_zero v : neqb v (Some 0%Q) = true <-> exists q, v = Some q /\ (q == 0)%Q.
Proof.
  destruct v as [q|]; simpl; split; try discriminate.
  - intro H. exists q. split; auto. apply Qeq_bool_iff. auto.
  - intros (p & E & H). injection E as <-. apply Qeq_bool_iff. auto.
  - intros (p & E & _). discriminate.
Qed.
(** what decides the verdict *)
Lemma verdict o o' row row' :
  length row' = length row -> (beta_threshold o' = beta_threshold o) ->
  r_bin (prelim_row o' row') = r_bin (prelim_row o row) ->
  fst (best_of o' row') = fst (best_of o row) ->
  map (fun v => eeq (of_num v) (r_best (prelim_row o' row'))) row' = map (fun v => eeq (of_num v) (r_best (prelim_row o row))) row ->
  same_verdict (prelim_row o' row') (prelim_row o row).
Proof.
  intros L B E K T. unfold same_verdict. split; auto. unfold prelim_row in *.
  destruct (best_of o row) as [k w], (best_of o' row') as [k' w']. cbn [fst r_bin r_best r_p r_good r_beta] in *. subst k'.
  rewrite E, T, L, B. auto.
Qed.

(* ------------------------------------------------------------------ scaling *)
Definition scale (c : Q) (e : ext) : ext := match e with Fin q => Fin (c * q) | _ => e end.
Lemma scale_le c a b : (0 < c)%Q -> Qle_bool (c * a) (c * b) = Qle_bool a b.
Proof.
  intro C. apply eq_true_iff_eq. rewrite !Qle_bool_iff. apply Qmult_le_l. auto.
Qed.
Lemma ele_scale c a b : (0 < c)%Q -> ele (scale c a) (scale c b) = ele a b.
Proof. intro C. destruct a, b; simpl; auto. apply scale_le. auto. Qed.
Lemma elt_scale c a b : (0 < c)%Q -> elt (scale c a) (scale c b) = elt a b.
Proof. intro C. unfold elt. pose proof (ele_scale b a C) as E. destruct a, b; simpl in *; auto; rewrite E; auto. Qed.
Lemma better_scale o c a b : (0 < c)%Q -> betterb o (scale c a) (scale c b) = betterb o a b.
Proof. intro C. unfold betterb. destruct (max_perf o); apply elt_scale; auto. Qed.
Lemma image_scale o c v : image (fun q => (c * q)%Q) o (y_aux o v) = scale c (y_aux o v).
Proof. destruct v; simpl; auto. destruct (max_perf o) eqn:E; simpl; rewrite E; reflexivity. Qed.
Lemma sign_scale c q : (0 < c)%Q -> sign (c * q) = sign q.
Proof.
  intro C. unfold sign, Qmult. simpl. rewrite Z.sgn_mul. unfold Qlt in C. simpl in C. rewrite (Z.sgn_pos (Qnum c)) by lia. lia.
Qed.
Lemma ediv_scale c a b : (0 < c)%Q -> same_value (ediv (scale c a) (scale c b)) (ediv a b).
Proof.
  intro C. destruct a as [x| | |], b as [y| | |]; simpl; auto; try reflexivity.
  - assert (E : Qeq_bool (c * y) 0 = Qeq_bool y 0).
    { apply eq_true_iff_eq. rewrite !Qeq_bool_iff. split; intro H; [|rewrite H; ring].
      apply Qmult_integral in H. destruct H; auto. lra. }
    rewrite E. destruct (Qeq_bool y 0) eqn:Y; [rewrite sign_scale by auto; apply same_refl|].
    simpl. apply Qeq_bool_neq in Y. field. split; auto. lra.
  - replace (Qle_bool 0 (c * y)) with (Qle_bool 0 y); [destruct (Qle_bool 0 y); simpl; auto|].
    apply eq_true_iff_eq. rewrite !Qle_bool_iff. assert (E : (0 == c * 0)%Q) by ring. rewrite E at 2. symmetry. apply Qmult_le_l. auto.
  - replace (Qle_bool 0 (c * y)) with (Qle_bool 0 y); [destruct (Qle_bool 0 y); simpl; auto|].
    apply eq_true_iff_eq. rewrite !Qle_bool_iff. assert (E : (0 == c * 0)%Q) by ring. rewrite E at 2. symmetry. apply Qmult_le_l. auto.
Qed.
Lemma scale_zero c q : (0 < c)%Q -> (c * q == 0)%Q -> (q == 0)%Q.
Proof. intros C H. apply Qmult_integral in H. destruct H; auto. lra. Qed.
Lemma best_scale o c row : (0 < c)%Q -> best_of o (convert (fun q => (c * q)%Q) row) = let '(k, w) := best_of o row in (k, scale c w).
Proof.
  intro C. rewrite (@best_image (fun q => (c * q)%Q) o o (fun _ => True)).
  - destruct (best_of o row) as [k w] eqn:E. destruct row as [|r row]; [unfold best_of in E; simpl in E; injection E as <- <-; reflexivity|].
    destruct (@best_present _ _ _ _ E) as (v & _ & ->); [discriminate|]. rewrite image_scale. reflexivity.
  - intros a b _ _. apply (@better_scale o c (Fin a) (Fin b) C).
  - apply Forall_forall. intros v _ q _. exact I.
Qed.

Lemma aux_scale o c row : map (y_aux o) (convert (fun q => (c * q)%Q) row) = map (fun v => scale c (y_aux o v)) row.
Proof. unfold convert. rewrite map_map. apply map_ext. intros [q|]; simpl; auto. destruct (max_perf o); reflexivity. Qed.
Lemma of_num_scale c v : of_num (option_map (fun q => (c * q)%Q) v) = scale c (of_num v).
Proof. destruct v; reflexivity. Qed.
Lemma eeq_scale c a b : (0 < c)%Q -> eeq (scale c a) (scale c b) = eeq a b.
Proof. intro C. unfold eeq. rewrite !ele_scale by auto. reflexivity. Qed.

(** relative performance, no performance 0 *)
Section Relative.
  Variable o : popts.
  Variable c : Q.
  Variable row : list num.
  Hypothesis R : abs_perf o = false.
  Hypothesis C : (0 < c)%Q.
  Hypothesis Z : forall q, In (Some q) row -> ~ (q == 0)%Q.
  Let row' := convert (fun q => (c * q)%Q) row.

  Lemma best_nonzero k w : best_of o row = (k, w) -> eeq w (Fin 0) = false /\ eeq (scale c w) (Fin 0) = false.
  Proof.
    intro E. assert (D : row = [] \/ row <> []) by (destruct row; [left|right; discriminate]; auto). destruct D as [D|D].
    - subst row. unfold best_of in E. simpl in E. injection E as <- <-. auto.
    - destruct (@best_present _ _ _ _ E D) as (v & I & ->). destruct v as [q|]; simpl; [|destruct (max_perf o); auto].
      assert (N := Z I). split; apply not_true_iff_false; intro H; apply eeq_fin in H; auto. apply N. eapply scale_zero; eauto.
  Qed.
  Lemma relative_best : r_best (prelim_row o row') = scale c (r_best (prelim_row o row)).
  Proof.
    unfold prelim_row, row'. rewrite best_scale by auto. destruct (best_of o row) as [k w] eqn:E. cbn [r_best]. rewrite R.
    destruct (best_nonzero E) as [-> ->]. reflexivity.
  Qed.
  Lemma relative_bin : r_bin (prelim_row o row') = r_bin (prelim_row o row).
  Proof.
    pose proof relative_best as B. unfold prelim_row, row' in *. rewrite best_scale in * by auto. destruct (best_of o row) as [k w] eqn:E. cbn [r_best r_bin] in *.
    rewrite R in *. rewrite B. rewrite aux_scale, !map_map. apply map_ext. intro v.
    destruct (max_perf o); (apply ele_same; [|apply same_refl]); apply one_minus_same, ediv_scale; auto.
  Qed.
  Lemma relative_y : Forall2 same_value (r_y (prelim_row o row')) (r_y (prelim_row o row)).
  Proof.
    pose proof relative_best as B. unfold prelim_row, row' in *. rewrite best_scale in * by auto. destruct (best_of o row) as [k w] eqn:E. cbn [r_best r_y] in *.
    rewrite R in *. rewrite B. unfold convert. rewrite !map_map. clear B E. revert Z. generalize row as l. induction l as [|v l IH]; intro Zl; constructor.
    - assert (N1 : neqb v (Some 0%Q) = false).
      { apply not_true_iff_false. intro H. apply neqb_zero in H. destruct H as (q & -> & H). apply (Zl q); simpl; auto. }
      assert (N2 : neqb (option_map (fun q => (c * q)%Q) v) (Some 0%Q) = false).
      { apply not_true_iff_false. intro H. apply neqb_zero in H. destruct H as (q & E & H). destruct v as [p|]; [|discriminate].
        injection E as <-. apply (Zl p); simpl; auto. eapply scale_zero; eauto. }
      rewrite N1, N2, of_num_scale. destruct (max_perf o); apply one_minus_same, ediv_scale; auto.
    - apply IH. intros q I. apply Zl. simpl. auto.
  Qed.
  Lemma relative_verdict : same_verdict (prelim_row o row') (prelim_row o row).
  Proof.
    apply verdict; auto.
    - unfold row', convert. apply map_length.
    - apply relative_bin.
    - unfold row'. rewrite best_scale by auto. destruct (best_of o row); reflexivity.
    - rewrite relative_best. unfold row', convert. rewrite map_map. apply map_ext. intro v. rewrite of_num_scale. apply eeq_scale. auto.
  Qed.
End Relative.

(** absolute performance, the threshold in the new unit *)
Section Absolute.
  Variable o : popts.
  Variable c : Q.
  Variable row : list num.
  Hypothesis R : abs_perf o = true.
  Hypothesis C : (0 < c)%Q.
  Let row' := convert (fun q => (c * q)%Q) row.
  Let o' := with_threshold (c * epsilon o) o.

  Lemma absolute_best_of : best_of o' row' = let '(k, w) := best_of o row in (k, scale c w).
  Proof. change (best_of o' row') with (best_of o row'). apply best_scale. auto. Qed.
  Lemma absolute_best : r_best (prelim_row o' row') = scale c (r_best (prelim_row o row)).
  Proof.
    unfold prelim_row. rewrite absolute_best_of. destruct (best_of o row) as [k w]. cbn [r_best].
    unfold o'. cbn [abs_perf with_threshold]. rewrite R. reflexivity.
  Qed.
  Lemma absolute_y : r_y (prelim_row o' row') = map (scale c) (r_y (prelim_row o row)).
  Proof.
    unfold prelim_row. rewrite absolute_best_of. destruct (best_of o row) as [k w]. cbn [r_y].
    unfold o'. cbn [abs_perf with_threshold]. rewrite R. unfold row', convert. rewrite !map_map. apply map_ext. apply of_num_scale.
  Qed.
  Lemma absolute_bin : r_bin (prelim_row o' row') = r_bin (prelim_row o row).
  Proof.
    unfold prelim_row. rewrite absolute_best_of. destruct (best_of o row) as [k w]. cbn [r_bin].
    change (map (y_aux o') row') with (map (y_aux o) row'). unfold row'. rewrite aux_scale, !map_map. apply map_ext. intro v.
    unfold o'. cbn [max_perf abs_perf epsilon with_threshold]. rewrite R.
    change (Fin (c * epsilon o)) with (scale c (Fin (epsilon o))). destruct (max_perf o); apply ele_scale; auto.
  Qed.
  Lemma absolute_verdict : same_verdict (prelim_row o' row') (prelim_row o row).
  Proof.
    apply verdict; auto.
    - unfold row', convert. apply map_length.
    - apply absolute_bin.
    - rewrite absolute_best_of. destruct (best_of o row); reflexivity.
    - rewrite absolute_best. unfold row', convert. rewrite map_map. apply map_ext. intro v. rewrite of_num_scale. apply eeq_scale. auto.
  Qed.
End Absolute.

(** absolute performance on any other scale that keeps the order *)
Section Monotone.
  Variable o : popts.
  Variable f : Q -> Q.
  Variable row : list num.
  Hypothesis R : abs_perf o = true.
  Let P (q : Q) : Prop := q = epsilon o \/ In (Some q) row.
  Hypothesis mono : forall a b, P a -> P b -> ((f a <= f b)%Q <-> (a <= b)%Q).
  Let row' := convert f row.
  Let o' := with_threshold (f (epsilon o)) o.
  Let move (e : ext) : ext := match e with Fin q => Fin (f q) | _ => e end.
  Let inside (e : ext) : Prop := forall q, e = Fin q -> P q.

  Lemma ele_move a b : inside a -> inside b -> ele (move a) (move b) = ele a b.
  Proof.
    intros A B. destruct a as [a| | |], b as [b| | |]; simpl; auto. apply eq_true_iff_eq. rewrite !Qle_bool_iff. apply mono; [apply A|apply B]; auto.
  Qed.
  Lemma inside_row v : In v row -> inside (y_aux o v) /\ inside (of_num v).
  Proof. intros I. split; intros q E; right; destruct v as [a|]; simpl in E; try (injection E as <-; exact I); try discriminate; destruct (max_perf o); discriminate. Qed.
  Lemma move_best : best_of o' row' = let '(k, w) := best_of o row in (k, move w).
  Proof.
    unfold row'. rewrite (@best_image f o o' P); [| |].
    - destruct row as [|r t] eqn:Er; [reflexivity|]. rewrite <- Er in *. destruct (best_of o row) as [k w] eqn:E.
      assert (N : row <> []) by (rewrite Er; discriminate). destruct (best_present _ E N) as (v & I & ->). f_equal.
      destruct v as [a|]; simpl; auto. destruct (max_perf o) eqn:M; simpl; rewrite M; reflexivity.
    - intros a b A B. unfold betterb. cbn [max_perf with_threshold o']. unfold elt. pose proof (@ele_move (Fin a) (Fin b)) as E1. pose proof (@ele_move (Fin b) (Fin a)) as E2.
      assert (Ia : inside (Fin a)) by (intros q E; injection E as <-; auto). assert (Ib : inside (Fin b)) by (intros q E; injection E as <-; auto).
      specialize (E1 Ia Ib). specialize (E2 Ib Ia). unfold move in E1, E2. unfold o'. cbn [max_perf with_threshold]. destruct (max_perf o); [rewrite E1|rewrite E2]; reflexivity.
    - apply Forall_forall. intros v I q ->. right. auto.
  Qed.
  Lemma order_verdict : same_verdict (prelim_row o' row') (prelim_row o row).
  Proof.
    apply verdict; auto.
    - unfold row', convert. apply map_length.
    - unfold prelim_row. rewrite move_best. destruct (best_of o row) as [k w]. cbn [r_bin].
      unfold row', convert. rewrite !map_map. apply map_ext_in. intros v I. unfold o'. cbn [max_perf abs_perf epsilon with_threshold]. rewrite R.
      assert (E : y_aux (with_threshold (f (epsilon o)) o) (option_map f v) = move (y_aux o v)).
      { destruct v as [a|]; simpl; auto. destruct (max_perf o); reflexivity. }
      rewrite E. assert (T : inside (Fin (epsilon o))) by (intros q Eq; injection Eq as <-; left; auto).
      pose proof (proj1 (inside_row v I)) as V. destruct (max_perf o); [exact (ele_move T V)|exact (ele_move V T)].
    - rewrite move_best. destruct (best_of o row); reflexivity.
    - assert (E : r_best (prelim_row o' row') = move (r_best (prelim_row o row))).
      { unfold prelim_row. rewrite move_best. destruct (best_of o row) as [k w]. cbn [r_best]. unfold o'. cbn [abs_perf with_threshold]. rewrite R. reflexivity. }
      rewrite E. unfold row', convert. rewrite map_map. apply map_ext_in. intros v I. assert (W : inside (r_best (prelim_row o row))).
      { unfold prelim_row. destruct (best_of o row) as [k w] eqn:Eb. cbn [r_best]. rewrite R.
        assert (N : row <> []) by (intros Z; rewrite Z in I; destruct I). destruct (best_present _ Eb N) as (u & J & ->). apply inside_row. auto. }
      assert (Ev : of_num (option_map f v) = move (of_num v)) by (destruct v; reflexivity). rewrite Ev. unfold eeq.
      pose proof (proj2 (inside_row v I)) as V. rewrite !ele_move; auto.
  Qed.
End Monotone.

(* ------------------------------------------------------------------ the other direction *)
Definition negate (e : ext) : ext := match e with Fin q => Fin (- q) | PInf => NInf | NInf => PInf | ENaN => ENaN end.
Lemma ele_negate a b : ele (negate a) (negate b) = ele b a.
Proof. destruct a, b; simpl; auto. apply eq_true_iff_eq. rewrite !Qle_bool_iff. split; intro; lra. Qed.
Lemma elt_negate a b : elt (negate a) (negate b) = elt b a.
Proof. unfold elt. pose proof (ele_negate b a) as E. destruct a, b; simpl in *; auto; rewrite E; auto. Qed.
Lemma of_num_negate v : of_num (option_map Qopp v) = negate (of_num v).
Proof. destruct v; reflexivity. Qed.

Section Negation.
  Variable o : popts.
  Variable row : list num.
  Hypothesis R : abs_perf o = true.
  Let row' := convert Qopp row.
  Let o' := with_direction (negb (max_perf o)) (with_threshold (- epsilon o) o).

  Lemma aux_negate v : y_aux o' (option_map Qopp v) = negate (y_aux o v).
  Proof. destruct v; simpl; auto. destruct (max_perf o); reflexivity. Qed.
  Lemma image_negate v : image Qopp o' (y_aux o v) = negate (y_aux o v).
  Proof. destruct v; simpl; auto. destruct (max_perf o) eqn:E; reflexivity. Qed.
  Lemma negation_best_of : best_of o' row' = let '(k, w) := best_of o row in (k, negate w).
  Proof.
    unfold row'. rewrite (@best_image Qopp o o' (fun _ => True)).
    - destruct (best_of o row) as [k w] eqn:E. destruct row as [|r t]; [unfold best_of in E; simpl in E; injection E as <- <-; reflexivity|].
      destruct (@best_present _ _ _ _ E) as (v & _ & ->); [discriminate|]. rewrite image_negate. reflexivity.
    - intros a b _ _. unfold betterb, o'. cbn [max_perf with_direction with_threshold]. destruct (max_perf o); cbn [negb].
      + apply (elt_negate (Fin a) (Fin b)).
      + apply (elt_negate (Fin b) (Fin a)).
    - apply Forall_forall. intros v _ q _. exact I.
  Qed.
  Lemma negation_best : r_best (prelim_row o' row') = negate (r_best (prelim_row o row)).
  Proof.
    unfold prelim_row. rewrite negation_best_of. destruct (best_of o row) as [k w]. cbn [r_best].
    unfold o'. cbn [abs_perf with_threshold with_direction]. rewrite R. reflexivity.
  Qed.
  Lemma negation_y : r_y (prelim_row o' row') = map negate (r_y (prelim_row o row)).
  Proof.
    unfold prelim_row. rewrite negation_best_of. destruct (best_of o row) as [k w]. cbn [r_y].
    unfold o'. cbn [abs_perf with_threshold with_direction]. rewrite R. unfold row', convert. rewrite !map_map. apply map_ext. apply of_num_negate.
  Qed.
  Lemma negation_bin : r_bin (prelim_row o' row') = r_bin (prelim_row o row).
  Proof.
    unfold prelim_row. rewrite negation_best_of. destruct (best_of o row) as [k w]. cbn [r_bin].
    unfold row', convert. rewrite !map_map. apply map_ext. intro v. rewrite aux_negate.
    unfold o'. cbn [max_perf abs_perf epsilon with_direction with_threshold]. rewrite R.
    change (Fin (- epsilon o)) with (negate (Fin (epsilon o))). destruct (max_perf o); cbn [negb]; apply ele_negate.
  Qed.
  Lemma negation_verdict : same_verdict (prelim_row o' row') (prelim_row o row).
  Proof.
    apply verdict; auto.
    - unfold row', convert. apply map_length.
    - apply negation_bin.
    - rewrite negation_best_of. destruct (best_of o row); reflexivity.
    - rewrite negation_best. unfold row', convert. rewrite map_map. apply map_ext. intro v. rewrite of_num_negate. unfold eeq.
      rewrite !ele_negate. apply andb_comm.
  Qed.
End Negation.

(** relative performance: a reward and its reciprocal, a cost *)
Lemma inv_pos q : (0 < q)%Q -> (0 < / q)%Q.
Proof. apply Qinv_lt_0_compat. Qed.
Lemma inv_le a b : (0 < a)%Q -> (0 < b)%Q -> (/ a <= / b <-> b <= a)%Q.
Proof.
  intros A B. assert (X : (/ a == b * / (a * b))%Q) by (field; lra). assert (Y : (/ b == a * / (a * b))%Q) by (field; lra).
  rewrite X, Y. apply Qmult_le_r. apply inv_pos. assert (a * b > 0)%Q by (apply Qmult_lt_0_compat; auto). auto.
Qed.
Section Reciprocal.
  Variable o : popts.
  Variable row : list num.
  Hypothesis R : abs_perf o = false.
  Hypothesis M : max_perf o = true.
  Hypothesis E1 : (epsilon o < 1)%Q.
  Hypothesis Pos : forall q, In (Some q) row -> (0 < q)%Q.
  Let row' := convert Qinv row.
  Let o' := with_direction false o.
  Definition recip (e : ext) : ext := match e with Fin q => Fin (/ q) | ENaN => ENaN | _ => PInf end.

  Lemma recip_aux v : y_aux o' (option_map Qinv v) = recip (y_aux o v).
  Proof. destruct v; simpl; auto. rewrite M. reflexivity. Qed.
  Lemma recip_best_of : best_of o' row' = let '(k, w) := best_of o row in (k, recip w).
  Proof.
    unfold row'. rewrite (@best_image Qinv o o' (fun q => 0 < q)%Q).
    - destruct (best_of o row) as [k w] eqn:E. destruct row as [|r t]; [unfold best_of in E; simpl in E; injection E as <- <-; reflexivity|].
      destruct (@best_present _ _ _ _ E) as (v & _ & ->); [discriminate|]. rewrite <- y_aux_image. rewrite recip_aux. reflexivity.
    - intros a b A B. unfold betterb, o'. cbn [max_perf with_direction]. rewrite M. unfold elt. f_equal. simpl.
      apply eq_true_iff_eq. rewrite !Qle_bool_iff. apply inv_le; auto.
    - apply Forall_forall. intros v I q ->. auto.
  Qed.
  (** the best value: positive, or missing *)
  Lemma best_cases k w : best_of o row = (k, w) -> (exists q, w = Fin q /\ (0 < q)%Q) \/ (w = NInf /\ row <> [] /\ forall v, In v row -> v = None) \/ row = [].
  Proof.
    intro E. assert (D : row = [] \/ row <> []) by (destruct row; [left|right; discriminate]; auto). destruct D as [D|D]; auto.
    destruct (@best_present _ _ _ _ E D) as (v & I & ->). destruct v as [q|]; simpl.
    - left. exists q. auto.
    - right. left. rewrite M. split; auto. split; auto. intros v Hv. destruct v as [q|]; auto. exfalso.
      destruct (best_of_spec _ D E) as (_ & B & _). apply In_nth_error in Hv. destruct Hv as (j & Hj).
      specialize (B j (Fin q)). change (NInf) with (if true then NInf else PInf) in B.
      assert (X := better_missing o q). rewrite B in X; [discriminate|]. apply (map_nth_error (y_aux o) _ _ Hj).
  Qed.
  Lemma best_kept k w : best_of o row = (k, w) -> eeq w (Fin 0) = false /\ eeq (recip w) (Fin 0) = false.
  Proof.
    intro E. destruct (best_cases E) as [(q & -> & P)|[(-> & _)|D]].
    - split; apply not_true_iff_false; intro H; apply eeq_fin in H; [|pose proof (inv_pos P)]; lra.
    - auto.
    - subst row. unfold best_of in E. simpl in E. injection E as <- <-. auto.
  Qed.
  Lemma recip_best : r_best (prelim_row o' row') = recip (r_best (prelim_row o row)).
  Proof.
    unfold prelim_row. rewrite recip_best_of. destruct (best_of o row) as [k w] eqn:E. cbn [r_best].
    unfold o'. cbn [abs_perf with_direction]. rewrite R. destruct (best_kept E) as [-> ->]. reflexivity.
  Qed.
  Lemma best_is k w : best_of o row = (k, w) -> r_best (prelim_row o row) = w.
  Proof. intro E. unfold prelim_row. rewrite E. cbn [r_best]. rewrite R. destruct (best_kept E) as [-> _]. reflexivity. Qed.
  Lemma recip_div v b : (0 < v)%Q -> (0 < b)%Q -> same_value (ediv (Fin (/ b)) (Fin (/ v))) (ediv (Fin v) (Fin b)).
  Proof.
    intros V B. pose proof (inv_pos V). simpl. destruct (Qeq_bool (/ v) 0) eqn:X; [apply Qeq_bool_iff in X; lra|].
    destruct (Qeq_bool b 0) eqn:Y; [apply Qeq_bool_iff in Y; lra|]. simpl. field. lra.
  Qed.
  Lemma recip_bin : r_bin (prelim_row o' row') = r_bin (prelim_row o row).
  Proof.
    pose proof recip_best as B. destruct (best_of o row) as [k w] eqn:E. rewrite (best_is E) in B. pose proof (best_is E) as Bw.
    unfold prelim_row in *. rewrite recip_best_of in *. rewrite E in *. cbn [r_best r_bin] in *. unfold o' in *. cbn [abs_perf max_perf epsilon with_direction] in *.
    rewrite R, M in *. rewrite B, Bw. unfold row', convert. rewrite !map_map. apply map_ext_in. intros v I.
    destruct (best_cases E) as [(b & -> & P)|[(-> & _ & N)|D]].
    - destruct v as [q|]; simpl option_map; cbn [y_aux].
      + apply ele_same; [|apply same_refl]. apply one_minus_same. apply recip_div; auto.
      + cbn [max_perf with_direction]. rewrite M. cbn [recip ediv one_minus]. assert (X : Qle_bool 0 b = true) by (apply Qle_bool_iff; lra). rewrite X.
        simpl. apply Qle_bool_false. lra.
    - rewrite (N v I). simpl. rewrite M. reflexivity.
    - subst row. destruct I.
  Qed.
  Lemma recip_y : Forall2 same_value (r_y (prelim_row o' row')) (r_y (prelim_row o row)).
  Proof.
    pose proof recip_best as B. destruct (best_of o row) as [k w] eqn:E. rewrite (best_is E) in B. pose proof (best_is E) as Bw.
    unfold prelim_row in *. rewrite recip_best_of in *. rewrite E in *. cbn [r_best r_y] in *. unfold o' in *. cbn [abs_perf max_perf epsilon with_direction] in *.
    rewrite R, M in *. rewrite B, Bw. unfold row', convert. rewrite !map_map.
    assert (G : forall l, incl l row -> Forall2 same_value
      (map (fun x => one_minus (ediv (recip w) (of_num (if neqb (option_map Qinv x) (Some 0%Q) then Some eps else option_map Qinv x)))) l)
      (map (fun x => one_minus (ediv (of_num (if neqb x (Some 0%Q) then Some eps else x)) w)) l)).
    { induction l as [|v l IH]; intro I; constructor; [|apply IH; intros x Hx; apply I; simpl; auto].
      assert (Iv : In v row) by (apply I; simpl; auto). apply one_minus_same. destruct v as [q|].
      - assert (Q := Pos _ Iv). pose proof (inv_pos Q). cbn [option_map].
        assert (N1 : neqb (Some (/ q)) (Some 0%Q) = false) by (apply not_true_iff_false; intro H1; apply neqb_zero in H1; destruct H1 as (z & X & Y); injection X as <-; lra).
        assert (N2 : neqb (Some q) (Some 0%Q) = false) by (apply not_true_iff_false; intro H1; apply neqb_zero in H1; destruct H1 as (z & X & Y); injection X as <-; lra).
        rewrite N1, N2. destruct (best_cases E) as [(b & -> & P)|[(-> & _ & N)|D]].
        + apply recip_div; auto.
        + specialize (N _ Iv). discriminate.
        + rewrite D in Iv. destruct Iv.
      - cbn [option_map neqb of_num]. destruct w; simpl; auto. }
    apply G. intros x H. exact H.
  Qed.
  Lemma recip_verdict : same_verdict (prelim_row o' row') (prelim_row o row).
  Proof.
    apply verdict; auto.
    - unfold row', convert. apply map_length.
    - apply recip_bin.
    - rewrite recip_best_of. destruct (best_of o row); reflexivity.
    - rewrite recip_best. destruct (best_of o row) as [k w] eqn:E. rewrite (best_is E). unfold row', convert. rewrite map_map. apply map_ext_in. intros v I.
      destruct (best_cases E) as [(b & -> & P)|[(-> & _ & N)|D]].
      + destruct v as [q|]; simpl; auto. assert (Q := Pos _ I). apply eq_true_iff_eq. rewrite !eeq_fin. split; intro H.
        * apply Qle_antisym; apply inv_le; auto; lra.
        * rewrite H. reflexivity.
      + rewrite (N v I). reflexivity.
      + rewrite D in I. destruct I.
  Qed.
End Reciprocal.
