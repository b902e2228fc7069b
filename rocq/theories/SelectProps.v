(** C134: what PYTHIA's selection of algorithms depends on. *)
From Coq Require Import Lqa Permutation.
From Verif Require Import BaseLemmas Mat PreprocSpec PythiaModel PythiaSpec PythiaProofs PythiaProps.
Set Implicit Arguments.
Open Scope nat_scope.
Open Scope list_scope.

(** Column j of [m'] is column [nth j s] of [m], for n instances. *)
Definition reordered (s : list nat) (n : nat) (m m' : list (list bool)) : Prop :=
  forall i j, i < n -> j < length s -> flag m' i j = flag m i (nth j s 0).
(** Algorithm j is the only candidate of largest precision for instance i. *)
Definition clear_winner (out : pythia_out) (nalgos i j : nat) : Prop :=
  candidate out nalgos i j /\
  forall k, candidate out nalgos i k -> k <> j -> (nth k (o_precision out) 0 < nth j (o_precision out) 0)%Q.
(** Algorithm d is good for more instances than any other. *)
Definition clear_default (y_bin : list (list bool)) (nalgos d : nat) : Prop :=
  d < nalgos /\ forall j, j < nalgos -> j <> d ->
    how_many (length y_bin) (fun i => flag y_bin i j) < how_many (length y_bin) (fun i => flag y_bin i d).

Lemma share_unique a a' b c : share a b c -> share a' b c -> (a == a')%Q.
Proof.
  intros [H Z] [H' Z']. destruct c as [|c]; [rewrite Z, Z' by auto; reflexivity|].
  assert (P := @inject_nat_pos (S c) ltac:(lia)). apply (Qmult_inj_r _ _ (inject_Z (Z.of_nat (S c)))); [lra|]. rewrite H, H'. reflexivity.
Qed.

Section Two.
  Variables fit fit' : nat -> hyper -> list bool -> list num -> res pyerr svm_res.
  Variables round3 root round3' root' : num -> num.
  Variables y y' : list (list num).
  Variables y_bin y_bin' : list (list bool).
  Variables y_best y_best' : list num.
  Variables labels labels' : list string.
  Variable n : nat.
  Variables w w' : bool.
  Variables par par' : option params.
  Variables out out' : pythia_out.
  Hypothesis FS : fit_shape fit.
  Hypothesis FS' : fit_shape fit'.
  Hypothesis H : pythia fit round3 root y y_bin y_best labels n w par = Ok out.
  Hypothesis H' : pythia fit' round3' root' y' y_bin' y_best' labels' n w' par' = Ok out'.
  Hypothesis L : length y_bin' = length y_bin.
  Variable s : list nat.
  Hypothesis P : Permutation s (seq 0 n).
  Hypothesis B : reordered s (length y_bin) y_bin y_bin'.
  Hypothesis Y : reordered s (length y_bin) (o_y_hat out) (o_y_hat out').

  Lemma s_length : length s = n.
  Proof. rewrite (Permutation_length P), seq_length. auto. Qed.
  Lemma s_range j : j < n -> nth j s 0 < n.
  Proof. intro Hj. assert (I : In (nth j s 0) (seq 0 n)) by (eapply Permutation_in; [exact P|]; apply nth_In; rewrite s_length; auto). apply in_seq in I. lia. Qed.
  Lemma s_onto k : k < n -> exists j, j < n /\ nth j s 0 = k.
  Proof.
    intro Hk. assert (I : In k s) by (eapply Permutation_in; [apply Permutation_sym; exact P|]; apply in_seq; lia).
    apply In_nth with (d := 0) in I. rewrite s_length in I. exact I.
  Qed.
  Lemma s_inj j k : j < n -> k < n -> nth j s 0 = nth k s 0 -> j = k.
  Proof.
    intros Hj Hk E. assert (N : NoDup s) by (eapply Permutation_NoDup; [apply Permutation_sym; exact P|apply seq_NoDup]).
    apply (proj1 (NoDup_nth s 0) N); rewrite ?s_length; auto.
  Qed.
  Lemma precision_reordered j : j < n -> (nth j (o_precision out') 0 == nth (nth j s 0%nat) (o_precision out) 0)%Q.
  Proof.
    intro Hj. destruct (@C78_scores_of_the_final_models _ _ _ _ _ _ _ _ _ _ FS _ H _ (s_range Hj)) as (_ & A & _).
    destruct (@C78_scores_of_the_final_models _ _ _ _ _ _ _ _ _ _ FS' _ H' _ Hj) as (_ & A' & _). cbv zeta in *. rewrite L in A'.
    rewrite (@how_many_ext (length y_bin) (fun i => flag y_bin' i j && flag (o_y_hat out') i j)
       (fun i => flag y_bin i (nth j s 0) && flag (o_y_hat out) i (nth j s 0))) in A'.
    2:{ intros i Hi. rewrite (B Hi), (Y Hi) by (rewrite s_length; auto). auto. }
    rewrite (@how_many_ext (length y_bin) (fun i => flag (o_y_hat out') i j) (fun i => flag (o_y_hat out) i (nth j s 0))) in A'.
    2:{ intros i Hi. rewrite (Y Hi) by (rewrite s_length; auto). auto. }
    eapply share_unique; eauto.
  Qed.
  Lemma candidate_reordered i j : i < length y_bin -> j < n -> (candidate out' n i j <-> candidate out n i (nth j s 0)).
  Proof.
    intros Hi Hj. unfold candidate. rewrite (Y Hi) by (rewrite s_length; auto). assert (R := s_range Hj). assert (E := precision_reordered Hj).
    split; intros (_ & A & C); (split; [auto|]); (split; [auto|]); lra.
  Qed.
  Lemma some_candidate i : i < length y_bin -> ((exists j, candidate out' n i j) <-> exists j, candidate out n i j).
  Proof.
    intro Hi. split; intros (j & C).
    - exists (nth j s 0). apply candidate_reordered; auto. apply C.
    - destruct (s_onto (proj1 C)) as (k & Hk & E). exists k. apply candidate_reordered; auto. rewrite E. auto.
  Qed.

  (** The order of the algorithms does not matter where there is a clear winner, or no candidate and a
      clear default; without a candidate, selection0 names the first algorithm in either order. *)
  Theorem C134_order_of_algorithms :
    forall i, i < length y_bin ->
      (forall j, clear_winner out n i j ->
         nth i (o_selection0 out) 0 = j /\ nth i (o_selection1 out) 0 = j /\
         nth (nth i (o_selection0 out') 0) s 0 = j /\ nth (nth i (o_selection1 out') 0) s 0 = j) /\
      (~ (exists j, candidate out n i j) ->
         nth i (o_selection0 out) 0 = 0 /\ nth i (o_selection0 out') 0 = 0 /\
         forall d, clear_default y_bin n d ->
           nth i (o_selection1 out) 0 = d /\ nth (nth i (o_selection1 out') 0) s 0 = d).
  Proof.
    intros i Hi. assert (Hi' : i < length y_bin') by lia.
    destruct (@C48_selection_is_the_best_candidate _ _ _ _ _ _ _ _ _ _ _ H _ Hi) as [A0 N0]. destruct (@C48_selection_is_the_best_candidate _ _ _ _ _ _ _ _ _ _ _ H' _ Hi') as [A0' N0'].
    destruct (@C49_fallback_selection _ _ _ _ _ _ _ _ _ _ _ H _ Hi) as [A1 N1]. destruct (@C49_fallback_selection _ _ _ _ _ _ _ _ _ _ _ H' _ Hi') as [A1' N1'].
    split.
    - intros j [Cj W]. assert (X : exists j, candidate out n i j) by eauto. assert (X' : exists j, candidate out' n i j) by (apply some_candidate; auto).
      rewrite A1, A1' by auto. destruct (A0 X) as (C & M & _). destruct (A0' X') as (C' & M' & _).
      assert (E : nth i (o_selection0 out) 0 = j).
      { destruct (Nat.eq_dec (nth i (o_selection0 out) 0) j) as [|Ne]; auto. exfalso. specialize (W _ C Ne). specialize (M _ Cj). lra. }
      assert (E' : nth (nth i (o_selection0 out') 0) s 0 = j).
      { set (k := nth i (o_selection0 out') 0) in *. assert (Hk := proj1 C'). apply (candidate_reordered Hi Hk) in C'.
        destruct (Nat.eq_dec (nth k s 0) j) as [|Ne]; auto. exfalso. specialize (W _ C' Ne). destruct (s_onto (proj1 Cj)) as (q & Hq & Eq).
        assert (Cq : candidate out' n i q) by (apply candidate_reordered; auto; rewrite Eq; auto).
        specialize (M' _ Cq). assert (E1 := precision_reordered Hq). assert (E2 := precision_reordered Hk). rewrite Eq in E1. lra. }
      auto.
    - intros X. assert (X' : ~ exists j, candidate out' n i j) by (rewrite some_candidate; auto).
      split; [auto|]. split; [auto|]. intros d [Hd W]. destruct (N1 X) as [R1 M1]. destruct (N1' X') as [R1' M1']. split.
      + destruct (Nat.eq_dec (nth i (o_selection1 out) 0) d) as [|Ne]; auto. exfalso.
        specialize (W _ R1 Ne). destruct (M1 d Hd) as [Q _]. lia.
      + set (k := nth i (o_selection1 out') 0) in *. destruct (Nat.eq_dec (nth k s 0) d) as [|Ne]; auto. exfalso.
        specialize (W _ (s_range R1') Ne). destruct (s_onto Hd) as (q & Hq & Eq). destruct (M1' q Hq) as [Q _]. rewrite L in Q.
        rewrite (@how_many_ext (length y_bin) (fun i => flag y_bin' i q) (fun i => flag y_bin i d)) in Q.
        2:{ intros a Ha. rewrite (B Ha) by (rewrite s_length; auto). rewrite Eq. auto. }
        rewrite (@how_many_ext (length y_bin) (fun i => flag y_bin' i k) (fun i => flag y_bin i (nth k s 0))) in Q.
        2:{ intros a Ha. rewrite (B Ha) by (rewrite s_length; auto). auto. }
        lia.
  Qed.
End Two.

(** Measured labels and predictions decide: the performances, the weights, the hyper-parameters, the
    labels and the training matter only through the predictions. *)
Theorem C134_only_labels_and_predictions :
  forall fit fit' round3 root round3' root' y y' y_bin y_best y_best' labels labels' n w w' par par' out out',
    fit_shape fit -> fit_shape fit' ->
    pythia fit round3 root y y_bin y_best labels n w par = Ok out ->
    pythia fit' round3' root' y' y_bin y_best' labels' n w' par' = Ok out' ->
    o_y_hat out' = o_y_hat out ->
    o_selection0 out' = o_selection0 out /\ o_selection1 out' = o_selection1 out.
Proof.
  intros fit fit' r3 rt r3' rt' y y' y_bin yb yb' labels labels' n w w' par par' out out' FS FS' H H' E.
  destruct (@run_shapes _ _ _ _ _ _ _ _ _ _ _ H) as (N & Lp & _ & _ & _ & _ & L0 & L1 & S0 & S1).
  destruct (@run_shapes _ _ _ _ _ _ _ _ _ _ _ H') as (_ & Lp' & _ & _ & _ & _ & L0' & L1' & S0' & S1').
  assert (Q : forall j, j < n -> (nth j (o_precision out') 0 == nth j (o_precision out) 0)%Q).
  { intros j Hj. destruct (@C78_scores_of_the_final_models _ _ _ _ _ _ _ _ _ _ FS _ H _ Hj) as (_ & A & _). destruct (@C78_scores_of_the_final_models _ _ _ _ _ _ _ _ _ _ FS' _ H' _ Hj) as (_ & A' & _).
    cbv zeta in *. rewrite E in A'. eapply share_unique; eauto. }
  assert (C : forall i j, candidate out' n i j <-> candidate out n i j).
  { intros i j. unfold candidate. rewrite E. split; intros (Hj & A & C); (split; [auto|]); (split; [auto|]); specialize (Q j Hj); lra. }
  assert (M : forall i a b, best_candidate out' n i a -> best_candidate out n i b -> a = b).
  { intros i a b (Ca & Ma & Fa) (Cb & Mb & Fb). pose proof (Q a (proj1 Ca)) as Qa. pose proof (Q b (proj1 Cb)) as Qb.
    destruct (Nat.lt_trichotomy a b) as [T|[T|T]]; auto; exfalso.
    - specialize (Fb a T (proj1 (C i a) Ca)). specialize (Ma b (proj2 (C i b) Cb)). lra.
    - specialize (Fa b T (proj2 (C i b) Cb)). specialize (Mb a (proj1 (C i a) Ca)). lra. }
  assert (D : forall i, i < length y_bin -> {exists j, candidate out n i j} + {~ exists j, candidate out n i j}).
  { intros i Hi. destruct (existsb (fun j => flag (o_y_hat out) i j && negb (Qle_bool (nth j (o_precision out) 0%Q) 0)) (seq 0 n)) eqn:X.
    - left. apply existsb_exists in X. destruct X as (j & Hj & X). apply in_seq in Hj. apply andb_true_iff in X. destruct X as [X1 X2].
      exists j. split; [lia|]. split; auto. apply Qnot_le_lt. intro Z. apply Qle_bool_iff in Z. rewrite Z in X2. discriminate.
    - right. intros (j & Hj & X1 & X2). assert (T : existsb (fun j => flag (o_y_hat out) i j && negb (Qle_bool (nth j (o_precision out) 0%Q) 0)) (seq 0 n) = true).
      { apply existsb_exists. exists j. split; [apply in_seq; lia|]. rewrite X1. simpl. destruct (Qle_bool _ 0) eqn:Z; auto. apply Qle_bool_iff in Z. lra. }
      congruence. }
  assert (S : forall i, i < length y_bin -> nth i (o_selection0 out') 0 = nth i (o_selection0 out) 0 /\ nth i (o_selection1 out') 0 = nth i (o_selection1 out) 0).
  { intros i Hi. destruct (@C48_selection_is_the_best_candidate _ _ _ _ _ _ _ _ _ _ _ H _ Hi) as [A0 N0]. destruct (@C48_selection_is_the_best_candidate _ _ _ _ _ _ _ _ _ _ _ H' _ Hi) as [A0' N0'].
    destruct (@C49_fallback_selection _ _ _ _ _ _ _ _ _ _ _ H _ Hi) as [A1 N1]. destruct (@C49_fallback_selection _ _ _ _ _ _ _ _ _ _ _ H' _ Hi) as [A1' N1'].
    destruct (D i Hi) as [X|X].
    - assert (X' : exists j, candidate out' n i j) by (destruct X as [j X]; exists j; apply C; auto).
      assert (Z : nth i (o_selection0 out') 0 = nth i (o_selection0 out) 0) by (apply (M i); auto). split; auto. rewrite A1, A1' by auto. auto.
    - assert (X' : ~ exists j, candidate out' n i j) by (intros [j Y]; apply X; exists j; apply C; auto).
      split; [rewrite N0, N0' by auto; auto|]. destruct (N1 X) as [R F]. destruct (N1' X') as [R' F'].
      set (a := nth i (o_selection1 out') 0) in *. set (b := nth i (o_selection1 out) 0) in *.
      destruct (Nat.lt_trichotomy a b) as [T|[T|T]]; auto; exfalso.
      + destruct (F a R') as [_ G]. specialize (G T). destruct (F' b R) as [G' _]. lia.
      + destruct (F' b R) as [_ G]. specialize (G T). destruct (F a R') as [G' _]. lia. }
  split; apply nth_ext with (d := 0) (d' := 0); try congruence; intros i Hi; [rewrite L0' in Hi|rewrite L1' in Hi]; apply S; auto.
Qed.

(* ------------------------------------------------------------ ties, and nothing predicted *)
(** A training that predicts what was measured, except "bad" throughout for an algorithm good once only and
    "good" throughout for one good three times. *)
Definition echo (i : nat) (h : hyper) (t : list bool) (w : list num) : res pyerr svm_res :=
  let c := length (filter (fun b => b) t) in
  let p := if Nat.eqb c 1 then map (fun _ => false) t else if Nat.eqb c 3 then map (fun _ => true) t else t in
  Ok {| r_ysub := t; r_psub := w; r_yhat := p; r_phat := w; r_c := Some 1%Q; r_g := Some 1%Q |}.
Lemma echo_shape : fit_shape echo.
Proof. intros i h t w r X. injection X as <-. simpl. destruct (Nat.eqb _ 1); [rewrite map_length; auto|]. destruct (Nat.eqb _ 3); rewrite ?map_length; auto. Qed.
Definition sel_y := [[Some 1; Some 5]; [Some 2; Some 6]; [Some 7; Some 3]; [Some 8; Some 4]]%Q : list (list num).
Definition sel_best := [Some 1; Some 2; Some 3; Some 4]%Q : list num.
Notation sel_run y bin labels := (pythia echo (fun v => v) (fun v => v) y bin sel_best labels 2 false None).

(** "Exchanging the two algorithms selects the same algorithm for every instance": not where they are
    equally precise. *)
Theorem C134_ties_refuted :
  exists bin out out' i, fit_shape echo /\
    sel_run sel_y bin ["a"; "b"]%string = Ok out /\
    sel_run (map (@rev num) sel_y) (map (@rev bool) bin) ["b"; "a"]%string = Ok out' /\
    reordered [1; 0] 4 bin (map (@rev bool) bin) /\ reordered [1; 0] 4 (o_y_hat out) (o_y_hat out') /\
    (exists j, candidate out 2 i j) /\ i < 4 /\
    nth (nth i (o_selection0 out) 0) ["a"; "b"]%string ""%string = "a"%string /\
    nth (nth i (o_selection0 out') 0) ["b"; "a"]%string ""%string = "b"%string.
Proof.
  exists [[true; true]; [true; true]; [false; false]; [false; false]]. do 2 eexists. exists 0. split; [apply echo_shape|].
  split; [vm_compute; reflexivity|]. split; [vm_compute; reflexivity|].
  split; [intros [|[|[|[|i]]]] [|[|j]] Hi Hj; simpl in *; auto; lia|].
  split; [intros [|[|[|[|i]]]] [|[|j]] Hi Hj; simpl in *; auto; lia|].
  split; [exists 0; split; [lia|]; split; [reflexivity|reflexivity]|]. split; [lia|]. split; reflexivity.
Qed.
(** "Where no algorithm is predicted good, selection0 does not depend on the order": it names whichever
    algorithm is listed first. *)
Theorem C134_nothing_predicted_refuted :
  exists bin out out' i, fit_shape echo /\
    sel_run sel_y bin ["a"; "b"]%string = Ok out /\
    sel_run (map (@rev num) sel_y) (map (@rev bool) bin) ["b"; "a"]%string = Ok out' /\
    reordered [1; 0] 4 bin (map (@rev bool) bin) /\ reordered [1; 0] 4 (o_y_hat out) (o_y_hat out') /\
    clear_default bin 2 0 /\ (forall j, ~ candidate out 2 i j) /\ i < 4 /\
    nth (nth i (o_selection0 out) 0) ["a"; "b"]%string ""%string = "a"%string /\
    nth (nth i (o_selection0 out') 0) ["b"; "a"]%string ""%string = "b"%string /\
    nth (nth i (o_selection1 out) 0) ["a"; "b"]%string ""%string = "a"%string /\
    nth (nth i (o_selection1 out') 0) ["b"; "a"]%string ""%string = "a"%string.
Proof.
  exists [[true; false]; [true; false]; [false; true]; [false; false]]. do 2 eexists. exists 2. split; [apply echo_shape|].
  split; [vm_compute; reflexivity|]. split; [vm_compute; reflexivity|].
  split; [intros [|[|[|[|i]]]] [|[|j]] Hi Hj; simpl in *; auto; lia|].
  split; [intros [|[|[|[|i]]]] [|[|j]] Hi Hj; simpl in *; auto; lia|].
  split; [split; [lia|]; intros [|[|j]] Hj Ne; [lia|vm_compute; lia|lia]|].
  split; [intros [|[|j]] (Hj & A & _); [discriminate A|discriminate A|lia]|]. split; [lia|]. repeat split.
Qed.
(** A clear winner among two candidates, found in both orders. *)
Example C134_met : exists out out', let bin := [[true; true]; [true; true]; [false; true]; [false; false]] in
  fit_shape echo /\ sel_run sel_y bin ["a"; "b"]%string = Ok out /\
  sel_run (map (@rev num) sel_y) (map (@rev bool) bin) ["b"; "a"]%string = Ok out' /\ Permutation [1; 0] (seq 0 2) /\
  reordered [1; 0] 4 bin (map (@rev bool) bin) /\ reordered [1; 0] 4 (o_y_hat out) (o_y_hat out') /\
  candidate out 2 0 1 /\ clear_winner out 2 0 0 /\ nth 0 (o_selection0 out') 0 = 1.
Proof.
  do 2 eexists. cbv zeta. split; [apply echo_shape|]. split; [vm_compute; reflexivity|]. split; [vm_compute; reflexivity|].
  split; [constructor|]. split; [intros [|[|[|[|i]]]] [|[|j]] Hi Hj; simpl in *; auto; lia|].
  split; [intros [|[|[|[|i]]]] [|[|j]] Hi Hj; simpl in *; auto; lia|].
  split; [split; [lia|]; split; reflexivity|]. split; [|reflexivity]. split; [split; [lia|]; split; reflexivity|].
  intros [|[|k]] (Hk & A & _) Ne; [congruence|reflexivity|lia].
Qed.

Print Assumptions C134_order_of_algorithms.
Print Assumptions C134_only_labels_and_predictions.
Print Assumptions C134_ties_refuted.
Print Assumptions C134_nothing_predicted_refuted.
