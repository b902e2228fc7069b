(** Property C123: what the model of an algorithm depends on; the stage-level form of C83. *)
From Coq Require Import Lqa.
From Verif Require Import BaseLemmas Mat PreprocSpec CloisterModel PilotProofs CloisterProofs PythiaModel PythiaSpec PythiaProofs PythiaWeights PythiaProps.
Set Implicit Arguments.
Open Scope nat_scope.
Open Scope list_scope.

(** Everything the output says about the model of algorithm i: its column of the cross-validated
    and the final predictions and probabilities, its hyper-parameters, scores and confusion matrix. *)
Definition about (out : pythia_out) (i : nat) :=
  ((column false (o_y_sub out) i, column false (o_y_hat out) i, column None (o_pr0_sub out) i, column None (o_pr0_hat out) i),
   (nth_error (o_box_consnt out) i, nth_error (o_k_scale out) i),
   (nth_error (o_accuracy out) i, nth_error (o_precision out) i, nth_error (o_recall out) i, nth_error (o_cvcmat out) i)).
(** The first n entries of a list *)
Definition entries {A} (d : A) (n : nat) (l : list A) : list A := map (fun k => nth k l d) (seq 0 n).
(** What it says if that model is [r], trained for the measured column [t] *)
Definition of_model (t : list bool) (r : svm_res) :=
  let n := length t in
  ((entries false n (r_ysub r), entries false n (r_yhat r), entries None n (r_psub r), entries None n (r_phat r)),
   (Some (r_c r), Some (r_g r)),
   (Some (accuracy_score t (r_yhat r)), Some (precision_score t (r_yhat r)), Some (recall_score t (r_yhat r)),
    Some (tn t (r_ysub r), fp t (r_ysub r), fn t (r_ysub r), tp t (r_ysub r)))).

Lemma column_of_columns A (d : A) n cols i c : nth_error cols i = Some c -> column d (of_columns d n cols) i = entries d n c.
Proof.
  intros H. unfold column, of_columns, entries. rewrite map_map. apply map_ext_in. intros k _.
  assert (Hi : i < length cols) by (apply nth_error_Some; congruence).
  rewrite (nth_map_in (fun c0 => nth k c0 d) cols (i := i) c d) by auto. rewrite (nth_error_nth _ _ c H). auto.
Qed.
Lemma nth_error_scored A B (f : list bool * svm_res -> B) (g : A -> list bool) l rs i a r : nth_error l i = Some a -> nth_error rs i = Some r ->
  nth_error (map f (combine (map g l) rs)) i = Some (f (g a, r)).
Proof.
  intros Ha Hr. rewrite nth_error_map.
  enough (X : nth_error (combine (map g l) rs) i = Some (g a, r)) by (rewrite X; auto).
  revert rs i Ha Hr. induction l as [|u l IH]; intros [|v rs] [|i]; simpl; try discriminate; auto; congruence.
Qed.
Lemma column_length A (d : A) m j : length (column d m j) = length m.
Proof. apply map_length. Qed.
Lemma unit_column n k i : i < k -> column None (unit_weights n k) i = repeat (Some 1%Q) n.
Proof.
  intros H. unfold unit_weights, column. induction n as [|n IH]; simpl; auto. f_equal; auto. apply nth_repeat_in; auto.
Qed.

Section Separate.
  Variable fit : nat -> hyper -> list bool -> list num -> res pyerr svm_res.
  Variables round3 root : num -> num.

  (** Each model is the result of one training, on the algorithm's own column of measured labels and
      of weights, with the hyper-parameters given for it, if they are given in the right shape. *)
  Theorem C83_each_model_has_its_own_training :
    forall y y_bin y_best labels nalgos use_weights par out i,
      pythia fit round3 root y y_bin y_best labels nalgos use_weights par = Ok out -> i < nalgos ->
      exists h r, fit i h (column false y_bin i) (column None (o_w out) i) = Ok r /\
        about out i = of_model (column false y_bin i) r /\
        (forall a, par = Some a -> pa_shape a = [nalgos; 2] -> h = Precalculated (nth 0 (pa_row a i) 0%Q) (nth 1 (pa_row a i) 0%Q)) /\
        ((par = None \/ exists a, par = Some a /\ pa_shape a <> [nalgos; 2]) -> h = Generated i).
  Proof.
    intros y y_bin y_best labels nalgos uw par out i H Hi.
    destruct (@pythia_inv _ _ _ _ _ _ _ _ _ _ _ H) as (N & _ & w & rs & Ew & Eo & L & F & R). cbv zeta in R.
    destruct R as (Eh & Es & Ea & Ep & Er & Ec & _ & _ & Eb & Ek & Ps & Ph & _).
    destruct (nth_error rs i) as [r|] eqn:E; [|apply nth_error_None in E; lia].
    destruct (F i r E) as (_ & G & _). exists (param_space par nalgos i), r. rewrite Eo. split; auto. split.
    - assert (Hs : nth_error (seq 0 nalgos) i = Some i) by (rewrite (nth_error_nth' _ 0) by (rewrite seq_length; auto); rewrite seq_nth; auto).
      unfold about, of_model. rewrite Eh, Es, Ps, Ph, Ea, Ep, Er, Ec, Eb, Ek, column_length.
      rewrite !(fun f => @nth_error_scored nat _ f (column false y_bin) (seq 0 nalgos) rs i i r Hs E).
      rewrite !nth_error_map, E. cbn [option_map fst snd].
      rewrite (column_of_columns false (length y_bin) (map r_ysub rs) i (c := r_ysub r)) by (rewrite nth_error_map, E; auto).
      rewrite (column_of_columns false (length y_bin) (map r_yhat rs) i (c := r_yhat r)) by (rewrite nth_error_map, E; auto).
      rewrite (column_of_columns None (length y_bin) (map r_psub rs) i (c := r_psub r)) by (rewrite nth_error_map, E; auto).
      rewrite (column_of_columns None (length y_bin) (map r_phat rs) i (c := r_phat r)) by (rewrite nth_error_map, E; auto).
      reflexivity.
    - apply (C83_given_parameters par nalgos i).
  Qed.

  (** Without weights, what is said about an algorithm depends on its own measured labels and its
      position only: performances, the other algorithms, their number and all labels may differ. *)
  Theorem C123_own_labels_only :
    forall y y_bin y_best labels n out y' y_bin' y_best' labels' n' out' i,
      pythia fit round3 root y y_bin y_best labels n false None = Ok out ->
      pythia fit round3 root y' y_bin' y_best' labels' n' false None = Ok out' ->
      i < n -> i < n' -> column false y_bin' i = column false y_bin i ->
      about out' i = about out i.
  Proof.
    intros y y_bin y_best labels n out y' y_bin' y_best' labels' n' out' i H H' Hn Hn' E.
    destruct (@C83_each_model_has_its_own_training _ _ _ _ _ _ _ _ _ H Hn) as (h & r & F & A & _ & G).
    destruct (@C83_each_model_has_its_own_training _ _ _ _ _ _ _ _ _ H' Hn') as (h' & r' & F' & A' & _ & G').
    rewrite G in F by auto. rewrite G' in F' by auto. rewrite A, A', E. f_equal.
    assert (L : length y_bin' = length y_bin) by (rewrite <- (column_length false y_bin' i), E, column_length; auto).
    destruct (@pythia_inv _ _ _ _ _ _ _ _ _ _ _ H) as (_ & _ & w & _ & Ew & Eo & _). injection Ew as <-.
    destruct (@pythia_inv _ _ _ _ _ _ _ _ _ _ _ H') as (_ & _ & w' & _ & Ew' & Eo' & _). injection Ew' as <-.
    rewrite Eo, unit_column in F by auto. rewrite Eo', unit_column, E, L in F' by auto. congruence.
  Qed.
  (** With given hyper-parameters the position does not matter either (if the training uses its
      number for nothing but the random values). *)
  Theorem C123_position_is_irrelevant_for_given_parameters :
    (forall i j c g t w, fit i (Precalculated c g) t w = fit j (Precalculated c g) t w) ->
    forall y y_bin y_best labels n a out y' y_bin' y_best' labels' n' a' out' i j,
      pythia fit round3 root y y_bin y_best labels n false (Some a) = Ok out ->
      pythia fit round3 root y' y_bin' y_best' labels' n' false (Some a') = Ok out' ->
      pa_shape a = [n; 2] -> pa_shape a' = [n'; 2] -> i < n -> j < n' ->
      column false y_bin' j = column false y_bin i -> pa_row a' j = pa_row a i ->
      about out' j = about out i.
  Proof.
    intros I y y_bin y_best labels n a out y' y_bin' y_best' labels' n' a' out' i j H H' Sh Sh' Hn Hn' E Ep.
    destruct (@C83_each_model_has_its_own_training _ _ _ _ _ _ _ _ _ H Hn) as (h & r & F & A & G & _).
    destruct (@C83_each_model_has_its_own_training _ _ _ _ _ _ _ _ _ H' Hn') as (h' & r' & F' & A' & G' & _).
    rewrite (G a) in F by auto. rewrite (G' a') in F' by auto. rewrite A, A', E. f_equal.
    assert (L : length y_bin' = length y_bin) by (rewrite <- (column_length false y_bin' j), E, column_length; auto).
    destruct (@pythia_inv _ _ _ _ _ _ _ _ _ _ _ H) as (_ & _ & w & _ & Ew & Eo & _). injection Ew as <-.
    destruct (@pythia_inv _ _ _ _ _ _ _ _ _ _ _ H') as (_ & _ & w' & _ & Ew' & Eo' & _). injection Ew' as <-.
    rewrite Eo, unit_column in F by auto. rewrite Eo', unit_column, E, L, Ep, (I j i) in F' by auto. congruence.
  Qed.

  (** Adding an algorithm as the last one changes nothing that is said about the others; where it is
      not predicted good, selection0 stays the same too. *)
  Theorem C123_adding_an_algorithm :
    forall y y_bin y_best labels n out y' y_bin' y_best' labels' out',
      pythia fit round3 root y y_bin y_best labels n false None = Ok out ->
      pythia fit round3 root y' y_bin' y_best' labels' (S n) false None = Ok out' ->
      (forall i, i < n -> column false y_bin' i = column false y_bin i) ->
      (forall i, i < n -> about out' i = about out i) /\
      forall k, k < length y_bin -> flag (o_y_hat out') k n = false ->
        nth k (o_selection0 out') 0 = nth k (o_selection0 out) 0.
  Proof.
    intros y y_bin y_best labels n out y' y_bin' y_best' labels' out' H H' E.
    assert (A : forall i, i < n -> about out' i = about out i) by (intros i Hi; eapply C123_own_labels_only; eauto).
    split; auto. intros k Hk Fk.
    destruct (@pythia_inv _ _ _ _ _ _ _ _ _ _ _ H) as (N & _ & _ & _ & _).
    assert (L : length y_bin' = length y_bin) by (rewrite <- (column_length false y_bin' 0), E, column_length; auto; lia).
    assert (Hk' : k < length y_bin') by lia.
    assert (C : forall j, candidate out' (S n) k j <-> candidate out n k j).
    { intros j. unfold candidate. destruct (Nat.eq_dec j n) as [->|Nj]; [rewrite Fk; split; [intros (_ & X & _); discriminate|intros (X & _); lia]|].
      destruct (Nat.lt_ge_cases j n) as [Hj|Hj]; [|split; intros (X & _); lia].
      pose proof (A j Hj) as Aj. unfold about in Aj. injection Aj as _ Ah _ _ _ _ _ Ap _ _.
      assert (Ef : flag (o_y_hat out') k j = flag (o_y_hat out) k j).
      { unfold flag. apply (f_equal (fun l => nth k l false)) in Ah. unfold column in Ah.
        destruct (@run_shapes _ _ _ _ _ _ _ _ _ _ _ H) as (_ & _ & _ & _ & Ly & _).
        destruct (@run_shapes _ _ _ _ _ _ _ _ _ _ _ H') as (_ & _ & _ & _ & Ly' & _).
        rewrite (nth_map_in (fun r => nth j r false) (o_y_hat out') (i := k) [] false) in Ah by lia.
        rewrite (nth_map_in (fun r => nth j r false) (o_y_hat out) (i := k) [] false) in Ah by lia. auto. }
      rewrite Ef. assert (Eq : nth j (o_precision out') 0%Q = nth j (o_precision out) 0%Q).
      { destruct (nth_error (o_precision out) j) as [q|] eqn:Eq1.
        - rewrite (nth_error_nth _ _ 0%Q Eq1), (nth_error_nth _ _ 0%Q Ap). auto.
        - apply nth_error_None in Eq1, Ap. rewrite !nth_overflow by auto. auto. }
      rewrite Eq. split; intros (X & Y & Z); repeat split; auto; lia. }
    assert (P : forall j, j < n -> nth j (o_precision out') 0%Q = nth j (o_precision out) 0%Q).
    { intros j Hj. pose proof (A j Hj) as Aj. unfold about in Aj. injection Aj as _ _ _ _ _ _ _ Ap _ _.
      destruct (nth_error (o_precision out) j) as [q|] eqn:Eq1.
      - rewrite (nth_error_nth _ _ 0%Q Eq1), (nth_error_nth _ _ 0%Q Ap). auto.
      - apply nth_error_None in Eq1, Ap. rewrite !nth_overflow by auto. auto. }
    destruct (@C48_selection_is_the_best_candidate _ _ _ _ _ _ _ _ _ _ out H k Hk) as [B1 B2].
    destruct (@C48_selection_is_the_best_candidate _ _ _ _ _ _ _ _ _ _ out' H' k Hk') as [B1' B2'].
    set (s := nth k (o_selection0 out) 0) in *. set (s' := nth k (o_selection0 out') 0) in *.
    assert (D : (exists j, j < n /\ flag (o_y_hat out) k j = true /\ Qle_bool (nth j (o_precision out) 0%Q) 0 = false) \/
                ~ exists j, candidate out n k j).
    { clear - n. unfold candidate.
      assert (X : forall m, (exists j, j < m /\ flag (o_y_hat out) k j = true /\ Qle_bool (nth j (o_precision out) 0%Q) 0 = false) \/
         ~ exists j, j < m /\ flag (o_y_hat out) k j = true /\ (0 < nth j (o_precision out) 0)%Q); [|apply X].
      induction m as [|m [(j & IH1 & IH2)|IH]].
      - right. intros (j & Hj & _). lia.
      - left. exists j. split; [lia|auto].
      - destruct (flag (o_y_hat out) k m) eqn:Fm; [destruct (Qle_bool (nth m (o_precision out) 0%Q) 0) eqn:Q|].
        + right. intros (j & Hj & Fj & Pj). apply Qle_bool_iff in Q. destruct (Nat.eq_dec j m) as [->|]; [lra|]. apply IH. exists j. repeat split; auto; lia.
        + left. exists m. repeat split; auto.
        + right. intros (j & Hj & Fj & Pj). destruct (Nat.eq_dec j m) as [->|]; [congruence|]. apply IH. exists j. repeat split; auto; lia. }
    destruct D as [(j & Hj & Fj & Pj)|D].
    - assert (Cj : candidate out n k j).
      { repeat split; auto. apply Qnot_le_lt. intros X. apply Qle_bool_iff in X. congruence. }
      destruct (B1 (ex_intro _ j Cj)) as (C1 & M1 & F1). destruct (B1' (ex_intro _ j (proj2 (C j) Cj))) as (C1' & M1' & F1').
      pose proof (proj1 (C s') C1') as C2. pose proof (proj2 (C s) C1) as C2'.
      assert (Es : nth s (o_precision out') 0%Q = nth s (o_precision out) 0%Q) by (apply P; apply C1).
      assert (Es' : nth s' (o_precision out') 0%Q = nth s' (o_precision out) 0%Q) by (apply P; apply C2).
      destruct (Nat.lt_trichotomy s' s) as [T|[T|T]]; auto; exfalso.
      + specialize (F1 s' T C2). specialize (M1' s C2'). rewrite Es, Es' in M1'. lra.
      + specialize (F1' s T C2'). specialize (M1 s' C2). rewrite Es, Es' in F1'. lra.
    - rewrite B2 by auto. apply B2'. intros (j & Hj). apply D. exists j. apply C; auto.
  Qed.
End Separate.

(* ------------------------------------------------------------ what does matter *)
(** a training whose prediction depends on the generated values and on the weights *)
Definition sep_fit (i : nat) (h : hyper) (t : list bool) (w : list num) : res pyerr svm_res :=
  Ok {| r_ysub := t; r_psub := w; r_yhat := t; r_phat := w;
        r_c := match h with Generated k => Some (inject_Z (Z.of_nat k)) | Precalculated c _ => Some c end;
        r_g := match h with Generated k => Some (inject_Z (Z.of_nat k)) | Precalculated _ g => Some g end |}.
(** "Exchanging two algorithms exchanges their models": no, the generated hyper-parameters stay. *)
Theorem C123_order_of_algorithms_is_irrelevant_refuted :
  exists fit round3 root y y_bin y_best labels out y' y_bin' labels' out',
    (forall i j h t w, fit i h t w = fit j h t w) /\ fit_shape fit /\
    pythia fit round3 root y y_bin y_best labels 2 false None = Ok out /\
    pythia fit round3 root y' y_bin' y_best labels' 2 false None = Ok out' /\
    y' = map (@rev num) y /\ y_bin' = map (@rev bool) y_bin /\ labels' = rev labels /\
    about out' 0 <> about out 1.
Proof.
  exists sep_fit, (fun v => v), (fun v => v), ex_y, ex_bin, [Some 1; Some 2; Some 3; Some 4]%Q, ["a"; "b"]%string.
  eexists. do 3 eexists. eexists. split; [reflexivity|]. split; [intros i h t w r X; injection X as <-; auto|].
  split; [vm_compute; reflexivity|]. split; [|split; [reflexivity|split; [reflexivity|split; [reflexivity|]]]].
  - vm_compute. reflexivity.
  - vm_compute. discriminate.
Qed.
(** "The model of an algorithm depends on that algorithm's data only": not with weights, where the
    performances of all algorithms enter. *)
Theorem C123_own_data_only_refuted :
  exists fit round3 root y y_bin y_best labels out y' out',
    fit_shape fit /\
    pythia fit round3 root y y_bin y_best labels 2 true None = Ok out /\
    pythia fit round3 root y' y_bin y_best labels 2 true None = Ok out' /\
    column None y' 0 = column None y 0 /\
    about out' 0 <> about out 0.
Proof.
  exists sep_fit, (fun v => v), (fun v => v), ex_y, ex_bin, [Some 1; Some 2; Some 3; Some 4]%Q, ["a"; "b"]%string.
  eexists. exists [[Some 1; Some 50]; [Some 2; Some 60]; [Some 7; Some 3]; [Some 8; Some 4]]%Q. eexists.
  split; [intros i h t w r X; injection X as <-; auto|].
  split; [vm_compute; reflexivity|]. split; [vm_compute; reflexivity|]. split; [reflexivity|].
  vm_compute. discriminate.
Qed.

(* ------------------------------------------------------------ the hypotheses are met *)
Example C123_met :
  exists out out',
    pythia sep_fit (fun v => v) (fun v => v) ex_y ex_bin [Some 1; Some 2; Some 3; Some 4]%Q ["a"; "b"]%string 2 false None = Ok out /\
    pythia sep_fit (fun v => v) (fun v => v) (map (fun r => r ++ [Some 9%Q]) ex_y) (map (fun p => fst p ++ [snd p]) (combine ex_bin [true; false; false; false]))
      [Some 1; Some 2; Some 3; Some 4]%Q ["a"; "b"; "c"]%string 3 false None = Ok out' /\
    flag (o_y_hat out') 1 2 = false /\ o_selection0 out' = [0; 0; 1; 1].
Proof. do 2 eexists. split; [vm_compute; reflexivity|]. split; [vm_compute; reflexivity|]. split; reflexivity. Qed.
Example C123_met_given :
  exists out,
    pythia sep_fit (fun v => v) (fun v => v) ex_y ex_bin [Some 1; Some 2; Some 3; Some 4]%Q ["a"; "b"]%string 2 false
      (Some {| pa_shape := [2; 2]; pa_row := fun i => if Nat.eqb i 0 then [1; 2]%Q else [3; 4]%Q |}) = Ok out /\
    o_box_consnt out = [Some 1; Some 3]%Q.
Proof. eexists. split; [vm_compute; reflexivity|]. reflexivity. Qed.

Print Assumptions C83_each_model_has_its_own_training.
Print Assumptions C123_own_labels_only.
Print Assumptions C123_position_is_irrelevant_for_given_parameters.
Print Assumptions C123_adding_an_algorithm.
Print Assumptions C123_order_of_algorithms_is_irrelevant_refuted.
Print Assumptions C123_own_data_only_refuted.
