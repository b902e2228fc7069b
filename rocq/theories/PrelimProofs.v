(** Lemmas for PrelimProps.v. *)
From Coq Require Import Lqa.
From Verif Require Import Base BaseLemmas Num Ext FilterModel PrelimModel PrelimSpec.
Set Implicit Arguments.

Definition real (a : ext) : Prop := a <> ENaN.

Lemma Qle_bool_false a b : Qle_bool a b = false <-> (b < a)%Q.
Proof.
  rewrite <- not_true_iff_false, Qle_bool_iff. split; intro H.
  - apply Qnot_le_lt. auto.
  - apply Qlt_not_le. auto.
Qed.

Lemma ele_total a b : real a -> real b -> ele a b = false -> ele b a = true.
Proof.
  unfold real. destruct a, b; simpl; try congruence. intros _ _ H.
  apply Qle_bool_false in H. apply Qle_bool_iff. lra.
Qed.
Lemma ele_trans a b c : ele a b = true -> ele b c = true -> ele a c = true.
Proof.
  destruct a, b, c; simpl; try congruence. rewrite !Qle_bool_iff. lra.
Qed.
Lemma elt_real a b : real a -> real b -> elt a b = negb (ele b a).
Proof. unfold real. destruct a, b; simpl; congruence. Qed.
Lemma ele_refl a : real a -> ele a a = true.
Proof. destruct a; unfold real; simpl; try congruence. intros _. apply Qle_bool_iff. lra. Qed.

Definition betterb (o : popts) : ext -> ext -> bool := if max_perf o then fun a b => elt b a else elt.

Lemma better_neg_trans o u v b : real u -> real v -> real b ->
  betterb o v b = true -> betterb o u b = false -> betterb o v u = true.
Proof.
  intros Ru Rv Rb. unfold betterb. destruct (max_perf o).
  - rewrite !elt_real by auto. rewrite !negb_true_iff, !negb_false_iff. intros H1 H2.
    destruct (ele v u) eqn:E; auto. rewrite (ele_trans _ _ _ E H2) in H1. discriminate.
  - rewrite !elt_real by auto. rewrite !negb_true_iff, !negb_false_iff. intros H1 H2.
    destruct (ele u v) eqn:E; auto. rewrite (ele_trans _ _ _ H2 E) in H1. discriminate.
Qed.
Lemma better_irrefl o a : real a -> betterb o a a = false.
Proof.
  intro R. unfold betterb. destruct (max_perf o); rewrite elt_real, ele_refl; auto.
Qed.
Lemma better_asym o a b : real a -> real b -> betterb o a b = true -> betterb o b a = false.
Proof.
  intros Ra Rb. unfold betterb. destruct (max_perf o); rewrite !elt_real by auto;
    rewrite negb_true_iff, negb_false_iff; intro H; apply ele_total; auto.
Qed.

Lemma arg_best_spec o : forall l pre bi bv k w,
  (forall v, In v (pre ++ l) -> real v) ->
  nth_error pre bi = Some bv ->
  (forall j v, nth_error pre j = Some v -> betterb o v bv = false) ->
  (forall j v, j < bi -> nth_error pre j = Some v -> betterb o bv v = true) ->
  arg_best (betterb o) l (length pre) bi bv = (k, w) ->
  nth_error (pre ++ l) k = Some w /\
  (forall j v, nth_error (pre ++ l) j = Some v -> betterb o v w = false) /\
  (forall j v, j < k -> nth_error (pre ++ l) j = Some v -> betterb o w v = true).
Proof.
  induction l as [|x l IH]; intros pre bi bv k w R H1 H2 H3 E; simpl in E.
  - injection E as <- <-. rewrite app_nil_r. auto.
  - replace (pre ++ x :: l) with ((pre ++ [x]) ++ l) in * by (rewrite <- app_assoc; auto).
    assert (Rx : real x) by (apply R; rewrite !in_app_iff; simpl; auto).
    assert (Rb : real bv) by (apply R; rewrite !in_app_iff; apply nth_error_In in H1; auto).
    assert (Lp : S (length pre) = length (pre ++ [x])) by (rewrite app_length; simpl; lia).
    assert (Rp : forall j v, nth_error pre j = Some v -> real v).
    { intros j v Hj. apply nth_error_In in Hj. apply R. rewrite !in_app_iff. auto. }
    assert (Sp : forall j v, nth_error (pre ++ [x]) j = Some v -> nth_error pre j = Some v \/ v = x /\ j = length pre).
    { intros j v Hj. destruct (Nat.lt_ge_cases j (length pre)) as [L|G].
      - rewrite nth_error_app1 in Hj by auto. auto.
      - rewrite nth_error_app2 in Hj by auto. destruct (j - length pre) as [|m] eqn:Em; simpl in Hj.
        + injection Hj as <-. right. split; auto. lia.
        + destruct m; discriminate. }
    destruct (betterb o x bv) eqn:B; rewrite Lp in E; eapply IH in E; auto.
    + rewrite nth_error_app2, Nat.sub_diag by auto. auto.
    + intros j v Hj. apply Sp in Hj. destruct Hj as [Hj|[-> _]].
      * apply better_asym; auto; [eauto|]. apply better_neg_trans with (b := bv); eauto.
      * apply better_irrefl; auto.
    + intros j v L Hj. apply Sp in Hj. destruct Hj as [Hj|[-> Hj]]; [|lia].
      apply better_neg_trans with (b := bv); eauto.
    + rewrite nth_error_app1; auto. apply nth_error_Some. congruence.
    + intros j v Hj. apply Sp in Hj. destruct Hj as [Hj|[-> _]]; eauto.
    + intros j v L Hj. apply Sp in Hj. destruct Hj as [Hj|[-> Hj]]; [eauto|].
      assert (bi < length pre) by (apply nth_error_Some; congruence). lia.
Qed.

Lemma y_aux_real o v : real (y_aux o v).
Proof. unfold real. destruct v; simpl; [discriminate|]. destruct (max_perf o); discriminate. Qed.

Lemma best_of_spec o row k w : row <> [] -> best_of o row = (k, w) ->
  nth_error (map (y_aux o) row) k = Some w /\
  (forall j v, nth_error (map (y_aux o) row) j = Some v -> betterb o v w = false) /\
  (forall j v, j < k -> nth_error (map (y_aux o) row) j = Some v -> betterb o w v = true).
Proof.
  intros N. unfold best_of. destruct row as [|r row]; [congruence|]. simpl map.
  fold (betterb o).
  intro E. change (y_aux o r :: map (y_aux o) row) with ([y_aux o r] ++ map (y_aux o) row).
  eapply arg_best_spec; try exact E.
  - intros v Hv. change ([y_aux o r] ++ map (y_aux o) row) with (map (y_aux o) (r :: row)) in Hv.
    apply in_map_iff in Hv. destruct Hv as (u & <- & _). apply y_aux_real.
  - reflexivity.
  - intros [|j] v H; [|destruct j; discriminate]. injection H as <-. apply better_irrefl, y_aux_real.
  - intros j v H. lia.
Qed.

Lemma better_fin o a b : betterb o (Fin a) (Fin b) = true <-> beats o a b.
Proof.
  unfold betterb, beats. destruct (max_perf o); simpl; rewrite negb_true_iff, Qle_bool_false; reflexivity.
Qed.
Lemma better_missing o a : betterb o (Fin a) (y_aux o None) = true.
Proof. unfold betterb, y_aux. destruct (max_perf o); reflexivity. Qed.
Lemma missing_best o w : real w -> betterb o w (y_aux o None) = false -> w = y_aux o None.
Proof.
  unfold betterb, y_aux, real. destruct (max_perf o), w; simpl; congruence.
Qed.

(** the best entry of a row *)
Lemma best_of_row o row k w : row <> [] -> best_of o row = (k, w) ->
  (exists b, w = Fin b /\ first_best o row k b) \/
  (w = y_aux o None /\ k = 0 /\ forall v, In v row -> v = None).
Proof.
  intros N E. destruct (@best_of_spec o row k w N E) as (H1 & H2 & H3).
  rewrite nth_error_map in H1. destruct (nth_error row k) as [[b|]|] eqn:Ek; simpl in H1; try discriminate;
    injection H1 as <-.
  - left. exists b. split; auto. split; auto. split.
    + intros j v Hj B. apply better_fin in B. rewrite (H2 j (Fin v)) in B; [discriminate|].
      rewrite nth_error_map, Hj. auto.
    + intros j v L Hj. apply better_fin. apply (H3 j); auto. rewrite nth_error_map, Hj. auto.
  - right. fold (y_aux o None) in *. split; auto.
    assert (A : forall j v, nth_error row j = Some v -> v = None).
    { intros j v Hj. assert (X : nth_error (map (y_aux o) row) j = Some (y_aux o v)) by (rewrite nth_error_map, Hj; auto).
      pose proof (H2 j _ X) as Y. destruct v as [q|]; auto. simpl y_aux in Y at 1.
      pose proof (better_missing o q) as Z. simpl in Y, Z. congruence. }
    split.
    + destruct k as [|k]; auto. exfalso. destruct row as [|r row]; [congruence|].
      pose proof (A 0 r eq_refl) as ->. pose proof (H3 0 (y_aux o None) ltac:(lia) eq_refl) as X.
      rewrite better_irrefl in X; [discriminate|]. apply y_aux_real.
    + intros v Hv. apply In_nth_error in Hv. destruct Hv as [j Hj]. eauto.
Qed.

(** position of the first true *)
Lemma first_true_at l k : nth_error l k = Some true -> (forall j, j < k -> nth_error l j = Some false) -> first_true l = k.
Proof.
  revert k. induction l as [|b l IH]; intros [|k] H1 H2; simpl in *; try discriminate.
  - injection H1 as ->. auto.
  - pose proof (H2 0 ltac:(lia)) as X. simpl in X. injection X as ->. f_equal.
    apply IH; auto. intros j Hj. apply (H2 (S j)). lia.
Qed.
Lemma count_true_zero l : (forall j, nth_error l j <> Some true) -> count_true l = 0.
Proof.
  unfold count_true. induction l as [|b l IH]; intro H; simpl; auto. destruct b.
  - exfalso. apply (H 0). auto.
  - apply IH. intro j. apply (H (S j)).
Qed.

Lemma eeq_fin a b : eeq (Fin a) (Fin b) = true <-> (a == b)%Q.
Proof. unfold eeq. simpl. rewrite andb_true_iff, !Qle_bool_iff. split; intros; lra. Qed.

Lemma eps_pos : (0 < eps)%Q.
Proof. reflexivity. Qed.

Section Row.
  Variable o : popts.
  Variable row : list num.
  Hypothesis N : row <> [].

  Lemma row_present k b : best_of o row = (k, Fin b) -> first_best o row k b.
  Proof.
    intro E. destruct (@best_of_row o row _ _ N E) as [(b' & Eb & F)|(Eb & _)].
    - injection Eb as <-. auto.
    - unfold y_aux in Eb. destruct (max_perf o); discriminate.
  Qed.

  (** what [prelim_row] reports as best and p *)
  Lemma row_best_p :
    (exists k b, best_of o row = (k, Fin b) /\ first_best o row k b /\
       r_best (prelim_row o row) = (if abs_perf o then Fin b else if Qeq_bool b 0 then Fin eps else Fin b) /\
       ((abs_perf o = true \/ max_perf o = true \/ ~ (b == 0)%Q \/
         length (filter (fun v => neqb v (Some eps)) row) <= 1) ->
        r_p (prelim_row o row) = S k)) \/
    ((forall v, In v row -> v = None) /\
     r_best (prelim_row o row) = (if max_perf o then NInf else PInf) /\ r_p (prelim_row o row) = 1).
  Proof.
    destruct (best_of o row) as [k w] eqn:E. destruct (@best_of_row o row _ _ N E) as [(b & -> & F)|(-> & -> & A)].
    - left. exists k, b. split; auto. split; auto.
      assert (Eq0 : eeq (Fin b) (Fin 0) = Qeq_bool b 0).
      { destruct (Qeq_bool b 0) eqn:X.
        - apply Qeq_bool_iff in X. apply eeq_fin. auto.
        - apply not_true_iff_false. rewrite eeq_fin. intro Y. apply Qeq_bool_iff in Y. congruence. }
      unfold prelim_row. rewrite E. cbn [r_best r_p]. rewrite Eq0. split; auto.
      destruct F as (F1 & F2 & F3).
      (* the ties are with [b] itself *)
      assert (Own : forall c, (b == c)%Q ->
        (if Nat.ltb 1 (count_true (map (fun v => eeq (of_num v) (Fin c)) row))
         then S (first_true (map (fun v => eeq (of_num v) (Fin c)) row)) else S k) = S k).
      { intros c Hc. destruct (Nat.ltb 1 _); auto. f_equal. apply first_true_at.
        - rewrite nth_error_map, F1. simpl. f_equal. apply eeq_fin. auto.
        - intros j Hj. assert (L : k < length row) by (apply nth_error_Some; congruence).
          destruct (nth_error row j) as [v|] eqn:Ej; [|apply nth_error_None in Ej; lia].
          rewrite nth_error_map, Ej. simpl. f_equal. destruct v as [v|]; auto. simpl.
          apply not_true_iff_false. rewrite eeq_fin. intro X. pose proof (F3 j v Hj Ej) as B.
          unfold beats in B. destruct (max_perf o); lra. }
      destruct (abs_perf o) eqn:Ea; [intros _; apply Own; lra|].
      destruct (Qeq_bool b 0) eqn:Eb; [|intros _; apply Own; lra].
      apply Qeq_bool_iff in Eb. intros [H|[H|[H|H]]]; try discriminate; try contradiction.
      + assert (C : count_true (map (fun v => eeq (of_num v) (Fin eps)) row) = 0).
        { apply count_true_zero. intros j X. rewrite nth_error_map in X.
          destruct (nth_error row j) as [[v|]|] eqn:Ej; simpl in X; try discriminate.
          injection X as X. apply eeq_fin in X. apply (F2 j v Ej). unfold beats. rewrite H.
          pose proof eps_pos. lra. }
        rewrite C. auto.
      + assert (C : count_true (map (fun v => eeq (of_num v) (Fin eps)) row) = length (filter (fun v => neqb v (Some eps)) row)).
        { unfold count_true. clear. induction row as [|v r IH]; simpl; auto.
          assert (X : eeq (of_num v) (Fin eps) = neqb v (Some eps)).
          { destruct v as [v|]; auto. simpl. destruct (Qeq_bool v eps) eqn:Y.
            - apply Qeq_bool_iff in Y. apply eeq_fin. auto.
            - apply not_true_iff_false. rewrite eeq_fin. intro Z. apply Qeq_bool_iff in Z. congruence. }
          rewrite X. destruct (neqb v (Some eps)); simpl; auto. }
        rewrite C. destruct (Nat.ltb_spec 1 (length (filter (fun v => neqb v (Some eps)) row))); auto. lia.
    - right. split; auto. unfold prelim_row. rewrite E. cbn [r_best r_p].
      assert (X : eeq (y_aux o None) (Fin 0) = false) by (unfold y_aux; destruct (max_perf o); auto).
      rewrite X. assert (Y : (if abs_perf o then y_aux o None else y_aux o None) = y_aux o None) by (destruct (abs_perf o); auto).
      rewrite Y. split; [unfold y_aux; auto|].
      rewrite count_true_zero; auto. intros j Z. rewrite nth_error_map in Z.
      destruct (nth_error row j) as [v|] eqn:Ej; [|discriminate]. apply nth_error_In in Ej. apply A in Ej.
      subst v. simpl in Z. injection Z as Z. unfold y_aux in Z. destruct (max_perf o); discriminate.
  Qed.

  Lemma good_at_iff f j : good_at (map f (map (y_aux o) row)) j <-> exists v, nth_error row j = Some v /\ f (y_aux o v) = true.
  Proof.
    unfold good_at. rewrite map_map, nth_error_map. destruct (nth_error row j) as [v|]; simpl.
    - split; [intro H; injection H as H; eauto|]. intros (v' & E & H). injection E as <-. congruence.
    - split; [discriminate|]. intros (v & E & _). discriminate.
  Qed.

  Lemma abs_good j : abs_perf o = true ->
    (good_at (r_bin (prelim_row o row)) j <->
     exists v, nth_error row j = Some (Some v) /\ (if max_perf o then epsilon o <= v else v <= epsilon o)%Q).
  Proof.
    intro Ea. unfold prelim_row. destruct (best_of o row) as [k w]. cbn [r_bin]. rewrite Ea.
    rewrite good_at_iff. split.
    - intros (v & E & H). destruct v as [v|].
      + exists v. split; auto. destruct (max_perf o); simpl in H; apply Qle_bool_iff; auto.
      + simpl in H. destruct (max_perf o); discriminate.
    - intros (v & E & H). exists (Some v). split; auto. simpl.
      destruct (max_perf o); apply Qle_bool_iff; auto.
  Qed.

  Lemma div_pos a b c : (0 < b)%Q -> ((1 - a / b <= c)%Q <-> ((1 - c) * b <= a)%Q).
  Proof.
    intro Hb. assert (E : (a == (a / b) * b)%Q) by (field; lra).
    split; intro H.
    - rewrite E. apply Qmult_le_compat_r; lra.
    - assert (X : (1 - c <= a / b)%Q) by (apply Qle_shift_div_l; auto). lra.
  Qed.
  Lemma div_neg a b c : (b < 0)%Q -> ((1 - a / b <= c)%Q <-> (a <= (1 - c) * b)%Q).
  Proof.
    intro Hb. assert (E : (a / b == (- a) / (- b))%Q) by (field; lra). rewrite E, div_pos by lra.
    split; intro; lra.
  Qed.

  (** what the code divides by *)
  Definition divisor (b : Q) : Q := if Qeq_bool b 0 then eps else b.
  Lemma divisor_best b : (if eeq (Fin b) (Fin 0) then Fin eps else Fin b) = Fin (divisor b).
  Proof.
    unfold divisor. destruct (Qeq_bool b 0) eqn:X.
    - apply Qeq_bool_iff in X. rewrite (proj2 (eeq_fin b 0) X). auto.
    - assert (Y : eeq (Fin b) (Fin 0) = false); [|rewrite Y; auto].
      apply not_true_iff_false. rewrite eeq_fin. intro Z. apply Qeq_bool_iff in Z. congruence.
  Qed.
  Lemma divisor_nz b : ~ (divisor b == 0)%Q.
  Proof.
    unfold divisor. destruct (Qeq_bool b 0) eqn:X; [pose proof eps_pos; lra|].
    intro Z. apply Qeq_bool_iff in Z. congruence.
  Qed.
  Lemma divisor_pos b : (0 < b)%Q -> divisor b = b.
  Proof. intro H. unfold divisor. destruct (Qeq_bool b 0) eqn:X; auto. apply Qeq_bool_iff in X. lra. Qed.
  Lemma divisor_neg b : (b < 0)%Q -> divisor b = b.
  Proof. intro H. unfold divisor. destruct (Qeq_bool b 0) eqn:X; auto. apply Qeq_bool_iff in X. lra. Qed.
  Lemma divisor_zero b : (b == 0)%Q -> divisor b = eps.
  Proof. intro H. unfold divisor. apply Qeq_bool_iff in H. rewrite H. auto. Qed.

  (** relative mode, values maximised, best [b] *)
  Lemma rel_max_good k b j : abs_perf o = false -> max_perf o = true -> best_of o row = (k, Fin b) ->
    (good_at (r_bin (prelim_row o row)) j <->
     (exists v, nth_error row j = Some (Some v) /\ (1 - v / divisor b <= epsilon o)%Q) \/
     (nth_error row j = Some None /\ (divisor b < 0)%Q)).
  Proof.
    intros Ea Em E. unfold prelim_row. rewrite E. cbn [r_bin]. rewrite Ea, Em, divisor_best, good_at_iff.
    pose proof (divisor_nz b) as Nz. set (c := divisor b) in *.
    assert (Zc : Qeq_bool c 0 = false).
    { apply not_true_iff_false. intro X. apply Qeq_bool_iff in X. contradiction. }
    split.
    - intros (v & Ej & H). destruct v as [v|].
      + left. exists v. split; auto. simpl in H. rewrite Zc in H. simpl in H. apply Qle_bool_iff. auto.
      + right. split; auto. simpl in H. rewrite Em in H. simpl in H.
        destruct (Qle_bool 0 c) eqn:X; simpl in H; try discriminate. apply Qle_bool_false. auto.
    - intros [(v & Ej & H)|[Ej H]].
      + exists (Some v). split; auto. simpl. rewrite Zc. simpl. apply Qle_bool_iff. auto.
      + exists None. split; auto. simpl. rewrite Em. simpl.
        apply Qle_bool_false in H. rewrite H. auto.
  Qed.

  (** relative mode, values minimised, best [b] *)
  Lemma rel_min_good k b j : abs_perf o = false -> max_perf o = false -> best_of o row = (k, Fin b) ->
    (good_at (r_bin (prelim_row o row)) j <->
     (exists v, nth_error row j = Some (Some v) /\ ~ (v == 0)%Q /\ (1 - divisor b / v <= epsilon o)%Q) \/
     (exists v, nth_error row j = Some (Some v) /\ (v == 0)%Q /\ (0 < divisor b)%Q) \/
     (nth_error row j = Some None /\ (1 <= epsilon o)%Q)).
  Proof.
    intros Ea Em E. unfold prelim_row. rewrite E. cbn [r_bin]. rewrite Ea, Em, divisor_best, good_at_iff.
    pose proof (divisor_nz b) as Nz. set (c := divisor b) in *.
    assert (Sg : inf_of_sign (sign c) = if Qle_bool 0 c then PInf else NInf).
    { unfold sign, inf_of_sign. destruct c as [[|p|p] d]; simpl in *; auto. exfalso. apply Nz. reflexivity. }
    split.
    - intros (v & Ej & H). destruct v as [v|]; simpl in H.
      + destruct (Qeq_bool v 0) eqn:X.
        * right. left. apply Qeq_bool_iff in X. exists v. split; auto. split; auto.
          rewrite Sg in H. destruct (Qle_bool 0 c) eqn:Y; simpl in H; try discriminate.
          apply Qle_bool_iff in Y. lra.
        * left. exists v. split; auto. split.
          -- intro Z. apply Qeq_bool_iff in Z. congruence.
          -- simpl in H. apply Qle_bool_iff. auto.
      + right. right. split; auto. rewrite Em in H. simpl in H. apply Qle_bool_iff in H. lra.
    - intros [(v & Ej & Nv & H)|[(v & Ej & Zv & H)|[Ej H]]].
      + exists (Some v). split; auto. simpl. destruct (Qeq_bool v 0) eqn:X; [apply Qeq_bool_iff in X; contradiction|].
        simpl. apply Qle_bool_iff. auto.
      + exists (Some v). split; auto. simpl. apply Qeq_bool_iff in Zv. rewrite Zv, Sg.
        assert (Y : Qle_bool 0 c = true) by (apply Qle_bool_iff; lra). rewrite Y. auto.
      + exists None. split; auto. simpl. rewrite Em. simpl. apply Qle_bool_iff. lra.
  Qed.

  (** all performances missing *)
  Lemma all_missing_good j : abs_perf o = false -> (forall v, In v row -> v = None) ->
    ~ good_at (r_bin (prelim_row o row)) j.
  Proof.
    intros Ea A. unfold prelim_row. destruct (best_of o row) as [k w] eqn:E. cbn [r_bin].
    destruct (@best_of_row o row _ _ N E) as [(b & -> & F & _)|(-> & _ & _)].
    - apply nth_error_In in F. apply A in F. discriminate.
    - rewrite Ea. rewrite good_at_iff. intros (v & Ej & H). apply nth_error_In in Ej. apply A in Ej. subst v.
      unfold y_aux in H. destruct (max_perf o); discriminate.
  Qed.

  Lemma row_counts :
    r_good (prelim_row o row) = length (filter (fun b => b) (r_bin (prelim_row o row))) /\
    length (r_bin (prelim_row o row)) = length row /\
    (r_beta (prelim_row o row) = true <->
     (beta_threshold o * inject_Z (Z.of_nat (length row)) < inject_Z (Z.of_nat (r_good (prelim_row o row))))%Q).
  Proof.
    unfold prelim_row. destruct (best_of o row) as [k w]. cbn [r_bin r_good r_beta]. split; auto.
    split; [rewrite !map_length; auto|]. rewrite negb_true_iff, Qle_bool_false. reflexivity.
  Qed.
End Row.

Lemma first_best_value o row k b k' b' : first_best o row k b -> first_best o row k' b' -> (b == b')%Q /\ k = k'.
Proof.
  intros (H1 & H2 & H3) (G1 & G2 & G3).
  assert (E : (b == b')%Q).
  { pose proof (H2 _ _ G1) as X. pose proof (G2 _ _ H1) as Y. unfold beats in *. destruct (max_perf o); lra. }
  split; auto. destruct (Nat.lt_trichotomy k k') as [C|[C|C]]; auto.
  - pose proof (G3 _ _ C H1) as X. unfold beats in X. destruct (max_perf o); lra.
  - pose proof (H3 _ _ C G1) as X. unfold beats in X. destruct (max_perf o); lra.
Qed.
