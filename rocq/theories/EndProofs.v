(** Lemmas for EndProps.v. *)
From Coq Require Import Sorted Lqa.
From Verif Require Import BaseLemmas Mat Ext PreprocModel PreprocSpec PreprocProofs PreprocProps PrelimModel PrelimSpec PrelimProofs PrelimProps
  HandOnModel EndModel.
From Verif Require SiftedModel SiftedProofs SiftedProps PilotModel PythiaModel PythiaProofs.
Set Implicit Arguments.
Open Scope nat_scope.
Open Scope list_scope.

Lemma in_take l idx i : In i (take_at 0 l idx) -> (forall p, In p idx -> p < length l) -> In i l.
Proof. unfold take_at. intros H B. apply in_map_iff in H. destruct H as (p & <- & Hp). apply nth_In. auto. Qed.
Lemma sorted_nth l : increasing l -> forall i j, i < j -> j < length l -> nth i l 0 < nth j l 0.
Proof.
  induction 1 as [|a l S IH F]; intros i j Hij Hj; [simpl in Hj; lia|]. destruct j as [|j]; [lia|]. simpl in Hj. destruct i as [|i].
  - simpl. rewrite Forall_forall in F. apply F. apply nth_In. lia.
  - simpl. apply IH; lia.
Qed.
Lemma increasing_take l idx : increasing l -> increasing idx -> (forall p, In p idx -> p < length l) -> increasing (take_at 0 l idx).
Proof.
  intros Hl. induction 1 as [|a idx S IH F]; intro B; [constructor|]. simpl. constructor.
  - apply IH. intros. apply B. right. auto.
  - apply Forall_forall. intros v Hv. apply in_map_iff in Hv. destruct Hv as (p & <- & Hp). rewrite Forall_forall in F.
    apply sorted_nth; auto. apply B. right. auto.
Qed.
Lemma restricted_map A (f : nat -> A) kept idx l' :
  restricted_to idx (map f kept) l' -> (forall p, In p idx -> p < length kept) -> l' = map f (take_at 0 kept idx).
Proof.
  unfold restricted_to. revert l'. induction idx as [|p idx IH]; intros l' H B.
  - destruct l'; [auto|discriminate].
  - destruct l' as [|a l']; [discriminate|]. simpl in H. injection H as H1 H2. simpl. f_equal.
    + rewrite nth_error_map, (nth_error_nth' kept 0) in H1 by (apply B; left; auto). injection H1 as ->. auto.
    + apply IH; auto. intros. apply B. right. auto.
Qed.
Lemma restricted_length A idx (l l' : list A) : restricted_to idx l l' -> length l' = length idx.
Proof. unfold restricted_to. intro H. apply (f_equal (@length _)) in H. rewrite !map_length in H. auto. Qed.
Lemma restricted_nth A (d : A) idx l l' k : restricted_to idx l l' -> k < length idx -> nth k l' d = nth (nth k idx 0) l d.
Proof.
  unfold restricted_to. intros H Hk. assert (E := f_equal (fun m => nth_error m k) H). cbv beta in E. rewrite !nth_error_map in E.
  rewrite (nth_error_nth' idx 0) in E by auto. simpl in E.
  destruct (nth_error l' k) as [v|] eqn:V; [|apply nth_error_None in V; apply restricted_length in H; lia].
  simpl in E. injection E as E. symmetry in E. erewrite nth_error_nth by eauto. symmetry. apply nth_error_nth. auto.
Qed.
Lemma subtable_map m rows cols : subtable m rows cols = map (fun i => map (cell m i) cols) rows.
Proof. reflexivity. Qed.

Lemma rows_of_length A (d : A) n cols : length (rows_of d n cols) = n.
Proof. unfold rows_of. rewrite map_length, seq_length. auto. Qed.
Lemma rows_of_nth A (d : A) n cols i : i < n -> nth i (rows_of d n cols) [] = map (fun c => nth i c d) cols.
Proof. intro H. apply nth_error_nth. unfold rows_of. rewrite nth_error_map, (nth_error_nth' _ 0), seq_nth by (rewrite ?seq_length; auto). reflexivity. Qed.
Lemma columns_of_nth A (d : A) n m j : j < n -> nth j (columns_of d n m) [] = map (fun r => nth j r d) m.
Proof. intro H. apply nth_error_nth. unfold columns_of. rewrite nth_error_map, (nth_error_nth' _ 0), seq_nth by (rewrite ?seq_length; auto). reflexivity. Qed.
Lemma columns_of_length A (d : A) n m : length (columns_of d n m) = n.
Proof. unfold columns_of. rewrite map_length, seq_length. auto. Qed.

(** SIFTED's x has as many columns as features are selected *)
Lemma sifted_width pearson order sil km_labels best x y labels nalgos threshold k dense stype md out :
  SiftedModel.sifted pearson order sil km_labels best x y labels nalgos threshold k dense stype md = Ok out ->
  Forall (fun r => length r = length labels) x ->
  Forall (fun r => length r = length (SiftedModel.so_selvars out)) (SiftedModel.so_x out).
Proof.
  intros H W. apply SiftedProps.run_cases in H.
  assert (T : forall sv, Forall (fun r => length r = length sv) (SiftedModel.take_columns x sv)).
  { intro sv. apply Forall_forall. intros r Hr. apply in_map_iff in Hr. destruct Hr as (r0 & <- & _). rewrite map_length. auto. }
  destruct H as [(_ & _ & ->)|(rp & _ & _ & _ & [(_ & ->)|(_ & _ & _ & _ & sel & _ & ->)])];
    cbn [SiftedModel.so_x SiftedModel.so_selvars]; auto. rewrite seq_length. auto.
Qed.

(** no relative performance is infinite *)
Lemma row_y_not_infinite o row v : In v (r_y (prelim_row o row)) -> exists a, v = of_num a.
Proof.
  intro H. assert (N : row <> []).
  { intros ->. unfold prelim_row in H. destruct (best_of o []). cbn [r_y] in H. destruct (abs_perf o), (max_perf o); destruct H. }
  assert (B := C37_best_performance_and_algorithm o N). rewrite eps_value in B. revert H B. unfold prelim_row. destruct (best_of o row) as [k w].
  cbn [r_y r_best r_p]. destruct (abs_perf o) eqn:A.
  { intros H _. apply in_map_iff in H. destruct H as (a & <- & _). eauto. }
  set (bst := if eeq w (Fin 0) then Fin eps else w). intros H B. apply in_map_iff in H. destruct H as (a & <- & Ha).
  apply in_map_iff in Ha. destruct Ha as (u & <- & Hu). destruct B as [(k' & b & F & E & _)|(M & _)].
  - assert (P : exists b', bst = Fin b' /\ ~ (b' == 0)%Q).
    { rewrite E. destruct (Qeq_bool b 0) eqn:Z; eexists; (split; [reflexivity|]).
      - intro X. assert (Y := eps_pos). lra.
      - intro X. apply Qeq_bool_iff in X. congruence. }
    destruct P as (b' & -> & NZ). assert (Eb : Qeq_bool b' 0 = false) by (destruct (Qeq_bool b' 0) eqn:Z; auto; apply Qeq_bool_iff in Z; contradiction).
    destruct u as [q|]; [|exists None; destruct (max_perf o); reflexivity]. simpl neqb.
    assert (W : exists q', (if Qeq_bool q 0 then Some eps else Some q) = Some q' /\ Qeq_bool q' 0 = false).
    { destruct (Qeq_bool q 0) eqn:Z; eexists; (split; [reflexivity|]); auto. }
    destruct W as (q' & W & NZ'). destruct (max_perf o).
    + exists (Some (1 - q' / b')%Q). simpl in *. destruct (Qeq_bool q 0); injection W as <-; simpl; rewrite Eb; reflexivity.
    + exists (Some (1 - b' / q')%Q). simpl in *. destruct (Qeq_bool q 0) eqn:Z; injection W as <-; simpl; rewrite ?Z, ?NZ'; reflexivity.
  - apply M in Hu. subst. exists None. destruct (max_perf o); [reflexivity|]. simpl. destruct bst; reflexivity.
Qed.

Lemma inplace_raw o row : r_y_inplace (prelim_row o row) = map (raw_after o) row.
Proof.
  unfold prelim_row. destruct (best_of o row) as [bi bv]. cbn [r_y_inplace]. unfold raw_after. rewrite eps_value.
  destruct (abs_perf o); [symmetry; apply map_id|]. apply map_ext. intros [q|]; reflexivity.
Qed.
