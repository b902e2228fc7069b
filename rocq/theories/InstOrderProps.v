(** Property C125: the order of the instances in the metadata. *)
From Coq Require Import Permutation Lqa.
From Verif Require Import Base BaseLemmas Num Ext FilterModel FilterProofs PreprocModel PreprocSpec PreprocProofs PrelimModel PrelimSpec PrelimProofs PrelimBound
  HandOnModel EndModel EndProofs SiftedModel SiftedProofs InstOrderSpec InstOrderProofs.
Set Implicit Arguments.
Open Scope nat_scope.
Open Scope list_scope.

Lemma select_map {A B} (p : A -> bool) (f : A -> B) l : select (map p l) (map f l) = map f (filter p l).
Proof. induction l as [|a l IH]; simpl; auto. destruct (p a); simpl; rewrite IH; auto. Qed.
Lemma filter_perm {A} (p : A -> bool) l l' : Permutation l l' -> Permutation (filter p l) (filter p l').
Proof.
  induction 1 as [|a l l' P IH|a b l|l m n P IH P' IH']; simpl; auto.
  - destruct (p a); auto.
  - destruct (p a), (p b); auto. constructor.
  - eapply Permutation_trans; eauto.
Qed.
Lemma combine_map {A B C} (f : A -> B) (g : A -> C) l : combine (map f l) (map g l) = map (fun a => (f a, g a)) l.
Proof. induction l; simpl; auto. rewrite IHl. auto. Qed.
Lemma filter_all {A} (p : A -> bool) l : existsb (fun b => b) (map (fun a => negb (p a)) l) = false -> filter p l = l.
Proof. induction l as [|a l IH]; simpl; auto. destruct (p a); simpl; [|discriminate]. intro H. rewrite IH; auto. Qed.

Lemma count_map {A B} (p : B -> bool) (f : A -> B) l : count p (map f l) = length (filter (fun a => p (f a)) l).
Proof. unfold count. induction l as [|a l IH]; simpl; auto. destruct (p (f a)); simpl; rewrite IH; auto. Qed.

Section Order.
  Variables L S : Type.
  Notation instance := (instance L S).
  Variables fnames anames : list string.

  (** PREPROCESSING: the same features, the same algorithms and the same instances, in the order in which
      they are given; or no instance is left in both cases. *)
  Definition preprocess (feats algos : option (list string)) (l : list instance) : res perr (preproc_out L S) :=
    preproc_run (map (@i_features L S) l) (map (@i_performances L S) l) fnames anames feats algos
      (Some (map (@i_source L S) l)) (map (@i_label L S) l).
  (** the output describes these instances *)
  Definition describes (o : preproc_out L S) (l : list instance) : Prop :=
    p_inst o = map (@i_label L S) l /\ p_s o = Some (map (@i_source L S) l) /\
    p_x o = map (@i_features L S) l /\ p_y o = map (@i_performances L S) l /\
    p_x_raw o = map (@i_features L S) l /\ p_y_raw o = map (@i_performances L S) l.

  Definition on_rows (f g : list num -> list num) (r : instance) : instance :=
    {| i_label := i_label r; i_source := i_source r; i_features := f (i_features r); i_performances := g (i_performances r) |}.
  Definition has_data (r : instance) : bool := negb (forallb isnan (i_features r) || forallb isnan (i_performances r)).
  Definition dropped (k : list instance) (c : nat) : bool :=
    Nat.leb (length k) (5 * length (filter (fun r => isnan (nth c (i_features r) None)) k)) && negb (Nat.eqb (length k) 0).

  Lemma select_columns_rows m labels req : exists f : list num -> list num, exists labels',
    select_columns m labels req = (map f m, labels') /\ forall m', select_columns m' labels req = (map f m', labels').
  Proof.
    unfold select_columns. destruct req as [req|]; [|exists (fun r => r), labels; split; [|intro]; rewrite map_id; auto].
    destruct (nonempty (filter (fun l => mem string_dec l req) labels)).
    - eexists. exists (filter (fun l => mem string_dec l req) labels). split; [|intro]; reflexivity.
    - exists (fun r => r), labels. split; [|intro]; rewrite map_id; auto.
  Qed.
  Lemma remove_missing_records (l : list instance) fl :
    let k := filter has_data l in
    remove_missing (map (@i_features L S) l) (map (@i_performances L S) l) (Some (map (@i_source L S) l)) fl (length fl) (map (@i_label L S) l) =
    if Nat.eqb (length k) 0 then Err EZeroDiv
    else
      let drop := map (dropped k) (seq 0 (length fl)) in
      let cut := fun A (r : list A) => if existsb (fun b => b) drop then select (map negb drop) r else r in
      Ok (map (cut num) (map (@i_features L S) k), map (@i_performances L S) k, map (@i_label L S) k, cut string fl, Some (map (@i_source L S) k)).
  Proof.
    intro k. unfold remove_missing.
    assert (Ei : map (fun p => forallb isnan (fst p) || forallb isnan (snd p)) (combine (map (@i_features L S) l) (map (@i_performances L S) l))
                 = map (fun r => negb (has_data r)) l).
    { rewrite combine_map, map_map. apply map_ext. intro r. unfold has_data. rewrite negb_involutive. auto. }
    rewrite Ei.
    assert (En : map negb (map (fun r => negb (has_data r)) l) = map has_data l).
    { rewrite map_map. apply map_ext. intro. apply negb_involutive. }
    rewrite En.
    assert (X : (if existsb (fun b => b) (map (fun r => negb (has_data r)) l)
       then (select (map has_data l) (map (@i_features L S) l), select (map has_data l) (map (@i_performances L S) l),
             select (map has_data l) (map (@i_label L S) l), option_map (select (map has_data l)) (Some (map (@i_source L S) l)))
       else (map (@i_features L S) l, map (@i_performances L S) l, map (@i_label L S) l, Some (map (@i_source L S) l)))
      = (map (@i_features L S) k, map (@i_performances L S) k, map (@i_label L S) k, Some (map (@i_source L S) k))).
    { destruct (existsb _ _) eqn:E.
      - cbn [option_map]. rewrite !select_map. auto.
      - unfold k. rewrite (filter_all _ _ E). auto. }
    rewrite X. rewrite map_length.
    assert (D : map (fun c => Nat.leb (length k) (5 * count isnan (column None (map (@i_features L S) k) c)) && negb (Nat.eqb (length k) 0)) (seq 0 (length fl))
                = map (dropped k) (seq 0 (length fl))).
    { apply map_ext. intro c. unfold dropped. do 3 f_equal. unfold column. rewrite map_map. apply count_map. }
    rewrite D. destruct (existsb (fun b => b) (map (dropped k) (seq 0 (length fl)))); destruct (Nat.eqb (length k) 0); auto.
    rewrite map_id. auto.
  Qed.

  Theorem C125_preprocessing :
    forall feats algos (l l' : list instance), Permutation l l' ->
      match preprocess feats algos l, preprocess feats algos l' with
      | Ok o, Ok o' => p_feat o' = p_feat o /\ p_algo o' = p_algo o /\
          exists k k', Permutation k k' /\ describes o k /\ describes o' k'
      | Err _, Err _ => True
      | _, _ => False
      end.
  Proof.
    intros feats algos l l' P. unfold preprocess, preproc_run.
    destruct (select_columns_rows (map (@i_features L S) l) fnames feats) as (f & fl & _ & Ef).
    destruct (select_columns_rows (map (@i_performances L S) l) anames algos) as (g & al & _ & Eg).
    rewrite !Ef, !Eg.
    assert (R : forall k, remove_missing (map f (map (@i_features L S) k)) (map g (map (@i_performances L S) k)) (Some (map (@i_source L S) k)) fl (length fl) (map (@i_label L S) k)
       = remove_missing (map (@i_features L S) (map (on_rows f g) k)) (map (@i_performances L S) (map (on_rows f g) k))
           (Some (map (@i_source L S) (map (on_rows f g) k))) fl (length fl) (map (@i_label L S) (map (on_rows f g) k))).
    { intro k. rewrite !map_map. auto. }
    rewrite !R, !remove_missing_records. cbv zeta.
    assert (P1 : Permutation (filter has_data (map (on_rows f g) l)) (filter has_data (map (on_rows f g) l'))) by (apply filter_perm, Permutation_map; auto).
    set (k := filter has_data (map (on_rows f g) l)) in *. set (k' := filter has_data (map (on_rows f g) l')) in *.
    assert (D : forall c, dropped k' c = dropped k c).
    { intro c. unfold dropped. rewrite (Permutation_length P1).
      rewrite (Permutation_length (filter_perm (fun r => isnan (nth c (i_features r) None)) P1)). auto. }
    rewrite (map_ext (dropped k') (dropped k) D). rewrite <- (Permutation_length P1).
    destruct (Nat.eqb (length k) 0); auto.
    set (drop := map (dropped k) (seq 0 (length fl))). cbn [p_feat p_algo].
    split; auto. split; auto.
    set (cut := fun r : list num => if existsb (fun b => b) drop then select (map negb drop) r else r).
    exists (map (on_rows cut (fun r => r)) k), (map (on_rows cut (fun r => r)) k'). split; [apply Permutation_map; auto|].
    unfold describes. cbn [p_inst p_s p_x p_y p_x_raw p_y_raw]. rewrite !map_map. cbn [on_rows i_label i_source i_features i_performances]. auto 20.
  Qed.

  (** PRELIM: an instance gets the same data and the same verdicts wherever it stands. *)
  Variable transform : list Q -> list num.
  Definition prelim_data (o : popts) (l : list instance) : inst_data L S :=
    prelim o transform (length fnames) (length anames) (map (@i_label L S) l) (Some (map (@i_source L S) l))
      (map (@i_features L S) l) (map (@i_performances L S) l) (map (@i_features L S) l) (map (@i_performances L S) l).

  Lemma perm_concat {A} (c c' : list (list A)) : Forall2 (@Permutation A) c c' -> Permutation (concat c) (concat c').
  Proof. induction 1; simpl; auto. apply Permutation_app; auto. Qed.

  Lemma prelim_y_same (Blind : order_blind transform) o (l l' : list (list num)) i i' row na j : Permutation l l' ->
    nth_error l i = Some row -> nth_error l' i' = Some row -> j < na ->
    same_number (to_num (nth i (nth j (prelim_y o transform na l) []) ENaN)) (to_num (nth i' (nth j (prelim_y o transform na l') []) ENaN)).
  Proof.
    intros P Hi Hi' Hj. unfold prelim_y. destruct (norm o).
    2:{ rewrite !columns_of_nth by auto.
        erewrite (nth_error_nth (map _ (map r_y (map (prelim_row o) l)))) by (rewrite !nth_error_map, Hi; reflexivity).
        erewrite (nth_error_nth (map _ (map r_y (map (prelim_row o) l')))) by (rewrite !nth_error_map, Hi'; reflexivity). apply same_refl. }
    set (g := fun j row => nth j (r_y_inplace (prelim_row o row)) None).
    assert (Ec : forall l, columns_of None na (map r_y_inplace (map (prelim_row o) l)) = map (fun j => map (g j) l) (seq 0 na)).
    { intro m. unfold columns_of. apply map_ext. intro c. rewrite !map_map. auto. }
    rewrite !Ec. unfold normalise_perf.
    assert (Pc : Permutation (concat (map (fun j => map (g j) l) (seq 0 na))) (concat (map (fun j => map (g j) l') (seq 0 na)))).
    { apply perm_concat. generalize (seq 0 na). induction l0; simpl; constructor; auto. apply Permutation_map. auto. }
    set (C := concat (map (fun j => map (g j) l) (seq 0 na))) in *. set (C' := concat (map (fun j => map (g j) l') (seq 0 na))) in *.
    assert (Ei : forall n, nth_error (map (fun j => map (g j) n) (seq 0 na)) j = Some (map (g j) n)).
    { intro n. rewrite nth_error_map, (nth_error_nth' _ 0), seq_nth by (rewrite ?seq_length; auto). reflexivity. }
    assert (Hc : forall n D, nth j (map (map of_num) (map (normalise_column transform D eps) (map (fun j => map (g j) n) (seq 0 na)))) [] = map of_num (normalise_column transform D eps (map (g j) n))).
    { intros n D. apply nth_error_nth. rewrite !nth_error_map, (nth_error_nth' _ 0), seq_nth by (rewrite ?seq_length; auto). reflexivity. }
    rewrite !Hc.
    assert (Back : forall c p, to_num (nth p (map of_num c) ENaN) = nth p c None).
    { induction c as [|[v|] c IH]; intros [|p]; simpl; auto. }
    rewrite !Back.
    assert (Sub : forall v, In v (map (g j) l) -> In v C).
    { intros v Hv. apply in_concat. exists (map (g j) l). split; auto. eapply nth_error_In; apply Ei. }
    assert (Pj : Permutation (map (g j) l) (map (g j) l')) by (apply Permutation_map; auto).
    destruct (missing_or_all C) as [M|(q & Eq)].
    - assert (M' : In None C') by (eapply Permutation_in; eauto).
      rewrite !normalise_missing by (unfold nmin; rewrite (proj2 (finite_none _)); auto).
      assert (K : forall (c : list num) p, nth p (map (fun _ : num => None : num) c) None = None) by (clear; induction c; intros [|p]; simpl; auto).
      rewrite !K. exact I.
    - assert (F : exists u, map (g j) l = map Some u).
      { destruct (missing_or_all (map (g j) l)) as [Z|]; auto. apply Sub in Z. rewrite Eq in Z. apply in_map_iff in Z. destruct Z as (? & ? & _). discriminate. }
      destruct F as (u & Eu). rewrite Eu in Pj. destruct (perm_map_some u Pj) as (u' & Eu' & Pu).
      rewrite Eq in Pc. destruct (perm_map_some q Pc) as (q' & Eq' & Pq). rewrite Eq, Eq', Eu, Eu'.
      assert (Hv : nth_error (map (g j) l) i = Some (g j row)) by (rewrite nth_error_map, Hi; reflexivity).
      assert (Hv' : nth_error (map (g j) l') i' = Some (g j row)) by (rewrite nth_error_map, Hi'; reflexivity).
      rewrite Eu, nth_error_map in Hv. rewrite Eu', nth_error_map in Hv'.
      destruct (nth_error u i) as [a|] eqn:Ea; [|discriminate]. destruct (nth_error u' i') as [b|] eqn:Eb; [|discriminate].
      cbn [option_map] in Hv, Hv'. assert (a = b) by congruence. subst b.
      pose proof (nmin_reordered (reordered_perm Pq)) as Mm.
      assert (Nq : q <> []).
      { intros ->. assert (Z : In (Some a) C) by (apply Sub; rewrite Eu; apply in_map; eapply nth_error_In; eauto). rewrite Eq in Z. destruct Z. }
      assert (Nq' : q' <> []) by (intros ->; apply Permutation_length in Pq; destruct q; [congruence|discriminate]).
      destruct (nmin_finite Nq) as (m & Em & _). destruct (nmin_finite Nq') as (m' & Em' & _). rewrite Em, Em' in *.
      eapply normalise_same; eauto; [apply reordered_perm; auto|reflexivity].
  Qed.

  Theorem C125_prelim :
    order_blind transform ->
    forall o (l l' : list instance) i i' (r : instance), Permutation l l' ->
      nth_error l i = Some r -> nth_error l' i' = Some r ->
      let d := prelim_data o l in let d' := prelim_data o l' in
      (forall c, c < length fnames -> same_number (cell (d_x d) i c) (cell (d_x d') i' c)) /\
      (forall j, j < length anames -> same_number (cell (d_y d) i j) (cell (d_y d') i' j)) /\
      nth_error (d_bin d) i = nth_error (d_bin d') i' /\ nth_error (d_beta d) i = nth_error (d_beta d') i' /\
      nth_error (d_good d) i = nth_error (d_good d') i' /\ nth_error (d_best d) i = nth_error (d_best d') i' /\
      nth_error (d_p d) i = nth_error (d_p d') i' /\
      nth_error (d_x_raw d) i = Some (i_features r) /\ nth_error (d_x_raw d') i' = Some (i_features r) /\
      nth_error (d_y_raw d) i = Some (map (raw_after o) (i_performances r)) /\
      nth_error (d_y_raw d') i' = Some (map (raw_after o) (i_performances r)) /\
      nth_error (d_labels d) i = Some (i_label r) /\ nth_error (d_labels d') i' = Some (i_label r).
  Proof.
    intros Blind o l l' i i' r P Hi Hi' d d'. unfold d, d', prelim_data, prelim.
    cbn [d_x d_y d_bin d_beta d_good d_best d_p d_x_raw d_y_raw d_labels].
    assert (Li : i < length l) by (apply nth_error_Some; congruence). assert (Li' : i' < length l') by (apply nth_error_Some; congruence).
    split; [|split; [|rewrite !nth_error_map, Hi, Hi'; cbn [option_map]; rewrite inplace_raw; auto 20]].
    - intros c Hc. unfold cell. rewrite !map_length, !rows_of_nth by auto.
      assert (N : forall m p, nth c (map (fun q : list num => nth p q None) (map (feature_column o transform) (columns_of None (length fnames) (map (@i_features L S) m)))) None
                  = nth p (feature_column o transform (map (fun r => nth c (i_features r) None) m)) None).
      { intros m p. apply nth_error_nth. rewrite !nth_error_map. unfold columns_of. rewrite nth_error_map, (nth_error_nth' _ 0), seq_nth by (rewrite ?seq_length; auto).
        cbn [option_map]. rewrite map_map. reflexivity. }
      rewrite !N. apply feature_column_same with (v := nth c (i_features r) None); auto.
      + apply Permutation_map. auto.
      + rewrite nth_error_map, Hi. auto.
      + rewrite nth_error_map, Hi'. auto.
    - intros j Hj. unfold cell.
      assert (N : forall m p, p < length m ->
        nth j (nth p (map (map to_num) (rows_of ENaN (length (map (@i_performances L S) m)) (prelim_y o transform (length anames) (map (@i_performances L S) m)))) []) None
        = to_num (nth p (nth j (prelim_y o transform (length anames) (map (@i_performances L S) m)) []) ENaN)).
      { intros m p Hp. change (@nil num) with (map to_num []) at 1. rewrite map_nth, rows_of_nth by (rewrite map_length; auto).
        change None with (to_num ENaN) at 1. rewrite map_nth. f_equal.
        destruct (nth_error (prelim_y o transform (length anames) (map (@i_performances L S) m)) j) as [c|] eqn:E.
        - rewrite (nth_error_nth _ _ _ E). apply nth_error_nth. rewrite nth_error_map, E. reflexivity.
        - pose proof E as E2. apply nth_error_None in E2. rewrite (nth_overflow _ []) by auto. rewrite nth_overflow by (rewrite map_length; auto). destruct p; auto. }
      rewrite !N by auto. eapply prelim_y_same; eauto.
      + apply Permutation_map. eauto.
      + rewrite nth_error_map, Hi. reflexivity.
      + rewrite nth_error_map, Hi'. reflexivity.
  Qed.

  (** SIFTED: if the features need not be clustered, the same features are kept. *)
  Variable pearson : list (Q * Q) -> num * num.
  Variable order : list (list Q) -> nat -> list nat.
  Variable sil : list nat -> list Q.
  Variable km_labels : list nat -> list nat.
  Variable best : list nat -> list Z.
  Definition sift (l : list instance) threshold k dense stype md :=
    sifted pearson order sil km_labels best (map (@i_features L S) l) (map (@i_performances L S) l) fnames (length anames) threshold k dense stype md.

  Theorem C125_sifted :
    (forall u v, Permutation u v -> pearson u = pearson v) ->
    forall l l' threshold k dense stype md out, Permutation l l' ->
      sift l threshold k dense stype md = Ok out -> so_clustered out = false ->
      exists out', sift l' threshold k dense stype md = Ok out' /\
        so_labels out' = so_labels out /\ so_selvars out' = so_selvars out /\ so_clustered out' = false /\
        (length fnames > 3 -> forall i i' r, nth_error l i = Some r -> nth_error l' i' = Some r ->
           nth_error (so_x out') i' = nth_error (so_x out) i).
  Proof.
    intros Hp l l' threshold k dense stype md out P H Hc. unfold sift, sifted in *.
    destruct (Nat.leb_spec (length fnames) 1) as [A|A]; [discriminate|].
    destruct (Nat.leb_spec (length fnames) 3) as [B|B].
    { injection H as <-. eexists. split; [reflexivity|]. cbn [so_labels so_selvars so_clustered]. repeat (split; auto). lia. }
    assert (E : correlations pearson (map (@i_features L S) l') (map (@i_performances L S) l') (length fnames) (length anames)
              = correlations pearson (map (@i_features L S) l) (map (@i_performances L S) l) (length fnames) (length anames)).
    { unfold correlations. f_equal. apply map_ext. intro i. f_equal. apply map_ext. intro j.
      assert (V : Permutation (valid_pairs (column None (map (@i_features L S) l) i) (column None (map (@i_performances L S) l) j))
                              (valid_pairs (column None (map (@i_features L S) l') i) (column None (map (@i_performances L S) l') j))).
      { unfold valid_pairs, column. rewrite !map_map, !combine_map. apply Permutation_flat_map, Permutation_map. auto. }
      unfold corr_pair. pose proof (Permutation_length V) as Ln.
      destruct (valid_pairs (column None (map (@i_features L S) l) i) _) as [|a [|b u]], (valid_pairs (column None (map (@i_features L S) l') i) _) as [|a' [|b' u']];
        simpl in Ln; try discriminate; auto. f_equal. symmetry. apply Hp. auto. }
    rewrite E. destruct (correlations _ _ _ _ _) as [rp|e]; [|discriminate].
    cbv zeta in *. set (sv := where_true _) in *. destruct (Nat.leb (length sv) 1); [discriminate|].
    destruct (Nat.leb (length sv) 3 || Nat.leb (length sv) k).
    - injection H as <-. eexists. split; [reflexivity|]. cbn [so_labels so_selvars so_clustered so_x]. repeat (split; auto).
      intros _ i i' r Hi Hi'. unfold take_columns. rewrite !nth_error_map, Hi, Hi'. auto.
    - destruct (evaluate_cluster _ _ _); [|discriminate]. destruct (decode_selvars _ _ _ _); [|discriminate].
      destruct dense as [[[dx dy] db]|]; [destruct (filter_instance _ _ _ _ _ _ _); discriminate|]. injection H as <-. discriminate.
  Qed.
End Order.

(** Selecting instances by density depends on the order. *)
Theorem C125_selection_by_density_refuted :
  ~ forall (l l' : list (instance nat nat)) md kept kept' d d' v v', Permutation l l' ->
      let purify m := filter_instance (map (@i_features _ _) m) (map (@i_performances _ _) m) (map (fun _ => [true]) m) 1 1 md "Ftr" in
      purify l = Ok (kept, d, v) -> purify l' = Ok (kept', d', v') ->
      Permutation (select (map negb kept) (map (@i_label _ _) l)) (select (map negb kept') (map (@i_label _ _) l')).
Proof.
  intro H. set (r := fun n q => {| i_label := n; i_source := n; i_features := [Some q]; i_performances := [Some 1%Q] |} : instance nat nat).
  assert (P : Permutation [r 0 0%Q; r 1 1%Q; r 2 2%Q] [r 1 1%Q; r 0 0%Q; r 2 2%Q]) by constructor.
  specialize (H _ _ 1%Q _ _ _ _ _ _ P eq_refl eq_refl). vm_compute in H. apply Permutation_length in H. discriminate.
Qed.

(** Three instances, one without features; one of four feature values is an outlier and bounded. *)
Definition r125 n (f p : list num) : instance nat nat := {| i_label := n; i_source := 10 + n; i_features := f; i_performances := p |}.
Definition q (n : Z) : num := Some (inject_Z n).
Definition l125 := [r125 0 [q 1; q 5] [q 3; q 4]; r125 1 [None; None] [q 1; q 1]; r125 2 [q 2; q 7] [q 0; q 9]].
Example C125_met : Permutation l125 (rev l125) /\
  (exists o, preprocess ["a"; "b"]%string ["u"; "v"]%string None None l125 = Ok o /\ p_inst o = [0; 2]) /\
  exists o, preprocess ["a"; "b"]%string ["u"; "v"]%string None None (rev l125) = Ok o /\ p_inst o = [2; 0].
Proof. split; [apply Permutation_rev|]. split; eexists; (split; [vm_compute; reflexivity|reflexivity]). Qed.
(** a transformation that is blind to the order: the distance from the first of the sorted values *)
Example C125_blind : order_blind (fun l => map (fun v => Some (v - nth 0 (qsort l) 0)%Q) l).
Proof.
  split; [intro; apply map_length|]. intros l l' i i' v v' R Hi Hi' E.
  set (f := fun l v => Some (v - nth 0 (qsort l) 0)%Q).
  change (same_number (nth i (map (f l) l) None) (nth i' (map (f l') l') None)).
  rewrite (nth_error_nth _ _ _ (map_nth_error (f l) _ _ Hi)), (nth_error_nth _ _ _ (map_nth_error (f l') _ _ Hi')).
  unfold f. cbn [same_number]. rewrite E, (f2_nth 0 (qsort_reordered R)). reflexivity.
Qed.

Print Assumptions C125_preprocessing.
Print Assumptions C125_prelim.
Print Assumptions C125_sifted.
Print Assumptions C125_selection_by_density_refuted.
