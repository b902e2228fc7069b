(** Property C124: what SIFTED reports beside the selection. *)
From Coq Require Import Lqa Qabs.
From Verif Require Import Base BaseLemmas Num FilterModel FilterProofs PreprocModel PreprocSpec PreprocProofs
  SiftedModel SiftedSpec SiftedProofs SiftedProps SiftedOutModel.
Set Implicit Arguments.
Open Scope nat_scope.
Open Scope list_scope.

(** KMeans gives every feature a label below the number of clusters. *)
Definition labels_features (kmeans : nat -> bool -> nat -> list nat -> option (list nat)) : Prop :=
  forall n auto seed features l, kmeans n auto seed features = Some l -> length l = length features /\ forall c, In c l -> c < n.

Lemma upd_count i f : forall m, length (filter (fun b => b) (upd i f m)) <= S (length (filter (fun b : bool => b) m)).
Proof.
  induction i as [|i IH]; intros [|a m]; simpl; auto.
  - destruct (f a), a; simpl; lia.
  - specialize (IH m). destruct a; simpl; lia.
Qed.
Lemma decode_count labels genes : forall mask m, decode labels genes mask = Some m ->
  length (filter (fun b => b) m) <= length (filter (fun b => b) mask) + length genes.
Proof.
  induction genes as [|[c g] t IH]; intros mask m H; simpl in H.
  - injection H as <-. simpl. lia.
  - destruct (pick labels c g) as [f|]; [|discriminate]. apply IH in H. pose proof (upd_count f (fun _ => true) mask). simpl. lia.
Qed.
Lemma select_count A (m : list bool) : forall l : list A, length (select m l) <= length (filter (fun b => b) m).
Proof. induction m as [|[] m IH]; intros [|a l]; simpl; auto; try lia. specialize (IH l). lia. Qed.
Lemma no_true n : filter (fun b => b) (repeat false n) = [].
Proof. induction n; simpl; auto. Qed.

Section Out.
  Variable pearson : list (Q * Q) -> num * num.
  Variable order : list (list Q) -> nat -> list nat.
  Variable draw : nat -> nat.
  Variable kmeans : nat -> bool -> nat -> list nat -> option (list nat).
  Variable silhouette : list nat -> list nat -> option Q.
  Variable ga : nat -> nat -> list nat -> list (list bool) -> list Z.
  Variables x y : list (list num).
  Variable labels : list string.
  Variable nalgos : nat.
  Variable threshold : Q.
  Variable k : nat.
  Definition full := sifted_full pearson order draw kmeans silhouette ga x y labels nalgos threshold k.

  (** everything that is known of a completed run *)
  Lemma full_inv out : full = Ok out ->
    (length labels <= 3 /\ fo_rho out = None /\ fo_pval out = None /\ fo_silhouette out = None /\ fo_clust out = None /\
     so_clustered (fo_sift out) = false) \/
    exists rp, 4 <= length labels /\ correlations pearson x y (length labels) nalgos = Ok rp /\
      fo_rho out = Some (map (map clean_rho) rp) /\ fo_pval out = Some (map (map snd) rp) /\
      let rho := map (map clean_rho) rp in
      let sv := where_true (perf_mask rho (order rho) threshold (length labels) nalgos) in
      (so_clustered (fo_sift out) = false /\ so_selvars (fo_sift out) = sv /\ fo_silhouette out = None /\ fo_clust out = None) \/
      (so_clustered (fo_sift out) = true /\ 3 < length sv /\ k < length sv /\
       exists sc km, scores draw kmeans silhouette sv = Ok sc /\ kmeans k false (draw (length sv - 2)) sv = Some km /\
         fo_silhouette out = Some sc /\ fo_clust out = Some (clust_matrix km k) /\
         decode_selvars km k (ga (draw (length sv - 1)) (draw (length sv)) sv (clust_matrix km k)) sv = Ok (so_selvars (fo_sift out))).
  Proof.
    unfold full, sifted_full. destruct (Nat.leb_spec (length labels) 1) as [A|A]; [discriminate|].
    destruct (Nat.leb_spec (length labels) 3) as [B|B].
    { intro H. injection H as <-. left. auto 10. }
    destruct (correlations pearson x y (length labels) nalgos) as [rp|e]; [|discriminate].
    intro H. right. exists rp. split; [lia|]. split; auto. cbv zeta in *.
    set (sv := where_true _) in *.
    destruct (Nat.leb_spec (length sv) 1) as [C|C]; [discriminate|].
    destruct (Nat.leb_spec (length sv) 3) as [D|D]; simpl in H.
    { injection H as <-. auto 10. }
    destruct (Nat.leb_spec (length sv) k) as [E|E]; simpl in H.
    { injection H as <-. auto 10. }
    destruct (scores draw kmeans silhouette sv) as [sc|e]; [|discriminate].
    destruct (evaluate_cluster sc k (length sv)) as [[]|e]; [|discriminate].
    destruct (kmeans k false (draw (length sv - 2)) sv) as [km|] eqn:K; [|discriminate].
    destruct (decode_selvars km k _ sv) as [sel|e] eqn:Ds; [|discriminate].
    injection H as <-. split; auto. split; auto. right. split; auto. split; auto. split; auto. exists sc, km. auto.
  Qed.
  (** The selection is that of SiftedModel.v, to which C42-C67 apply. *)
  Lemma same_selection out stype md : full = Ok out ->
    exists sil km best, sifted pearson order sil km best x y labels nalgos threshold k None stype md = Ok (fo_sift out).
  Proof.
    intros H. exists (fun sv => match scores draw kmeans silhouette sv with Ok l => l | Err _ => [] end),
      (fun sv => match kmeans k false (draw (length sv - 2)) sv with Some l => l | None => [] end),
      (fun sv => ga (draw (length sv - 1)) (draw (length sv)) sv (clust_matrix (match kmeans k false (draw (length sv - 2)) sv with Some l => l | None => [] end) k)).
    revert H. unfold full, sifted_full, sifted. destruct (Nat.leb (length labels) 1); [discriminate|].
    destruct (Nat.leb (length labels) 3); [intro H; injection H as <-; auto|].
    destruct (correlations pearson x y (length labels) nalgos) as [rp|e]; [|discriminate]. cbv zeta.
    set (sv := where_true _). destruct (Nat.leb (length sv) 1); [discriminate|].
    destruct (Nat.leb (length sv) 3 || Nat.leb (length sv) k); [intro H; injection H as <-; auto|].
    destruct (scores draw kmeans silhouette sv) as [sc|e]; [|discriminate].
    destruct (evaluate_cluster sc k (length sv)) as [[]|e]; [|discriminate].
    destruct (kmeans k false (draw (length sv - 2)) sv) as [km|]; [|discriminate].
    destruct (decode_selvars km k _ sv) as [sel|e]; [|discriminate]. intro H. injection H as <-. auto.
  Qed.

  (** Correlations are reported if more than three features were given, one row for each of those
      (not only the selected ones).  A coefficient is reported as zero if it is undefined or its p-value
      is above 0.05; the p-values are reported as they are. *)
  Theorem C124_reported_correlations :
    forall out, full = Ok out -> length x = length y ->
      (length labels <= 3 -> fo_rho out = None /\ fo_pval out = None) /\
      (3 < length labels -> exists rho pval, fo_rho out = Some rho /\ fo_pval out = Some pval /\
         PreprocSpec.table (length labels) nalgos rho /\ PreprocSpec.table (length labels) nalgos pval /\
         forall i j, i < length labels -> j < nalgos ->
           let measured := match common x y i j with [] => (None, None) | _ => pearson (common_values x y i j) end in
           effective measured (corr rho i j) /\ cell pval i j = snd measured).
  Proof.
    intros out H L. destruct (full_inv H) as [(A & R & P & _)|(rp & A & C & R & P & _)]; [split; [auto|lia]|].
    split; [lia|]. intros _. exists (map (map clean_rho) rp), (map (map snd) rp). split; auto. split; auto.
    assert (T : forall B (f : num * num -> B), PreprocSpec.table (length labels) nalgos (map (map f) rp)).
    { intros B f. unfold correlations in C. destruct (@all_ok_nth _ _ _ _ C) as [Lr Nr]. rewrite map_length, seq_length in Lr.
      split; [rewrite map_length; auto|]. apply Forall_forall. intros r Hr. apply in_map_iff in Hr. destruct Hr as (row & <- & Hr).
      apply In_nth_error in Hr. destruct Hr as (i & Hr). pose proof (nth_error_Some rp i) as S. rewrite Hr, Lr in S.
      assert (Hi : i < length labels) by (apply S; discriminate).
      apply Nr in Hr. rewrite nth_error_map, (nth_error_nth' (seq 0 (length labels)) 0), seq_nth in Hr by (rewrite ?seq_length; auto).
      cbn [option_map plus] in Hr. injection Hr as Hr. destruct (@all_ok_nth _ _ _ _ Hr) as [L2 _].
      rewrite map_length, L2, map_length, seq_length. auto. }
    split; [apply T|]. split; [apply T|]. intros i j Hi Hj. cbv zeta.
    destruct (@C67_correlation_of_common_instances _ _ _ _ _ _ L C i j Hi Hj) as (row & Er & Ej).
    set (measured := match common x y i j with [] => (None, None) | _ => pearson (common_values x y i j) end) in *. split.
    - unfold corr. erewrite (nth_error_nth (map (map clean_rho) rp)) by (rewrite nth_error_map, Er; reflexivity).
      erewrite (nth_error_nth (map clean_rho row)) by (rewrite nth_error_map, Ej; reflexivity).
      destruct measured as [r q]. unfold effective; cbn [fst snd]. destruct r as [r|]; [|right; split; auto].
      destruct q as [q|].
      + simpl. destruct (Qle_bool q (5 # 100)) eqn:E.
        * apply Qle_bool_iff in E. left. split; auto. intros (q' & X & Y). injection X as <-. lra.
        * right. split; auto. right. exists q. split; auto. apply Qnot_le_lt. intro X. apply Qle_bool_iff in X. congruence.
      + simpl. left. split; auto. intros (q' & X & _). discriminate.
    - unfold cell.
      assert (E1 : nth i (map (map snd) rp) [] = map snd row) by (apply nth_error_nth; rewrite nth_error_map, Er; reflexivity).
      etransitivity; [exact (f_equal (fun r => nth j r None) E1)|]. apply nth_error_nth. rewrite nth_error_map, Ej. reflexivity.
  Qed.

  (** Scores and clusters are reported iff the features were clustered.  They are about the features
      selected by correlation.  The score for n clusters is that of a clustering made for the score, with
      its own random number; the clusters come from another clustering, with the next random number. *)
  Theorem C124_reported_scores_and_clusters :
    forall out, full = Ok out ->
      (so_clustered (fo_sift out) = false -> fo_silhouette out = None /\ fo_clust out = None) /\
      (so_clustered (fo_sift out) = true ->
       exists features sc km clust, fo_silhouette out = Some sc /\ fo_clust out = Some clust /\
         increasing features /\ (forall f, In f features -> f < length labels) /\ 3 < length features /\ k < length features /\
         length sc = length features - 2 /\
         (forall n, 2 <= n < length features ->
            exists l, kmeans n true (draw (n - 2)) features = Some l /\ silhouette features l = nth_error sc (n - 2)) /\
         kmeans k false (draw (length features - 2)) features = Some km /\
         PreprocSpec.table (length km) k clust /\
         (forall r c, r < length km -> c < k -> nth c (nth r clust []) false = Nat.eqb c (nth r km 0))).
  Proof.
    intros out H. destruct (full_inv H) as [(A & R & P & S & C & F)|(rp & A & C & R & P & D)].
    { split; auto. congruence. }
    cbv zeta in D. set (sv := where_true _) in D. destruct D as [(F & E & S & K)|(F & W & Wk & sc & km & Es & Ek & S & K & _)].
    { split; auto. congruence. }
    split; [congruence|]. intros _. exists sv, sc, km, (clust_matrix km k). split; auto. split; auto.
    split; [apply where_true_increasing|]. split.
    { intros f Hf. apply where_true_in in Hf. rewrite perf_mask_length in Hf. apply Hf. }
    split; auto. split; auto. unfold scores in Es. destruct (@all_ok_nth _ _ _ _ Es) as [Lr Nr]. rewrite map_length, seq_length in Lr.
    split; auto. split.
    { intros n Hn. destruct (nth_error sc (n - 2)) as [q|] eqn:Eq; [|apply nth_error_None in Eq; lia].
      apply Nr in Eq. rewrite nth_error_map, (nth_error_nth' (seq 2 (length sv - 2)) 0), seq_nth in Eq by (rewrite ?seq_length; lia).
      cbn [option_map] in Eq. replace (2 + (n - 2)) with n in Eq by lia. injection Eq as Eq. unfold score_of in Eq.
      destruct (kmeans n true (draw (n - 2)) sv) as [l|]; [|discriminate]. exists l. split; auto.
      destruct (silhouette sv l); congruence. }
    split; auto. split.
    { split; [apply map_length|]. apply Forall_forall. intros r Hr. apply in_map_iff in Hr. destruct Hr as (c & <- & _). rewrite map_length, seq_length. auto. }
    intros r c Hr Hc. unfold clust_matrix.
    rewrite (nth_indep _ [] (map (fun c => Nat.eqb c 0) (seq 0 k))) by (rewrite map_length; auto).
    rewrite (map_nth (fun l => map (fun c => Nat.eqb c l) (seq 0 k))).
    rewrite (nth_indep _ false (Nat.eqb 0 (nth r km 0))) by (rewrite map_length, seq_length; auto).
    rewrite (map_nth (fun c => Nat.eqb c (nth r km 0))), seq_nth; auto.
  Qed.

  (** The rows of clust are the features selected by correlation, each in exactly one cluster; there are
      more of them than features in the result. *)
  Theorem C124_clusters_are_of_more_features_than_returned :
    labels_features kmeans -> forall out clust, full = Ok out -> fo_clust out = Some clust ->
      length (so_selvars (fo_sift out)) <= k /\ k < length clust /\
      forall r, r < length clust -> exists c, c < k /\ forall c', c' < k -> (nth c' (nth r clust []) false = true <-> c' = c).
  Proof.
    intros HK out clust H Hc. destruct (C124_reported_scores_and_clusters H) as [N Y].
    destruct (so_clustered (fo_sift out)) eqn:F; [|destruct N as [_ N]; [auto|congruence]].
    destruct (Y eq_refl) as (fs & sc & km & cl & _ & Ec & Inc & _ & _ & Kf & _ & _ & Ek & T & B).
    rewrite Hc in Ec. injection Ec as <-. destruct (HK _ _ _ _ _ Ek) as [Lk Bk]. destruct T as [Tl _].
    destruct (full_inv H) as [(_ & _ & _ & _ & X & _)|(rp & A & C & R & P & D)]; [congruence|]. cbv zeta in D.
    destruct D as [(G & _)|(_ & W & Wk & sc' & km' & _ & Ek' & _ & Ec' & Ds)]; [congruence|].
    set (sv := where_true _) in *.
    split; [|split; [unfold num in *; lia|]].
    - unfold decode_selvars in Ds. destruct (decode km' (genes_of k _) (repeat false (length sv))) as [m|] eqn:E; [|discriminate].
      injection Ds as Ds. rewrite <- Ds. pose proof (select_count m sv) as X. apply decode_count in E. rewrite no_true in E. unfold genes_of in E.
      rewrite combine_length, seq_length in E. simpl in E. lia.
    - intros r Hr. rewrite Tl in Hr. exists (nth r km 0). split; [apply Bk, nth_In; auto|].
      intros c' Hc'. rewrite B by auto. apply Nat.eqb_eq.
  Qed.
End Out.

(** ** A run: five features of six are selected, then three of them by clustering *)
Definition ex_pearson (l : list (Q * Q)) : num * num :=
  match l with
  | (a, _) :: _ => if Qeq_bool a 1 then (Some 0%Q, Some 1%Q) else (Some (9 # 10), Some (1 # 100))
  | [] => (None, None)
  end.
Definition ex_order (rho : list (list Q)) (_ : nat) : list nat := seq 1 (length rho - 1) ++ [0].
Definition ex_draw (i : nat) : nat := i.
(** by remainder, from an offset that depends on the seed *)
Definition ex_kmeans (n : nat) (auto : bool) (seed : nat) (features : list nat) : option (list nat) :=
  if Nat.eqb n 0 then None else Some (map (fun p => Nat.modulo (p + (if auto then 0 else 1)) n) (seq 0 (length features))).
Definition ex_silhouette (features l : list nat) : option Q := Some (inject_Z (Z.of_nat (nth 0 l 0))).
Definition ex_ga (_ _ : nat) (_ : list nat) (_ : list (list bool)) : list Z := [0; 0; 0]%Z.
Definition ex_x : list (list num) := [map Some [1; 2; 2; 2; 2; 1]%Q; map Some [3; 4; 5; 6; 7; 8]%Q].
Definition ex_y : list (list num) := [[Some 1%Q]; [Some 2%Q]].
Definition ex_run := full ex_pearson ex_order ex_draw ex_kmeans ex_silhouette ex_ga ex_x ex_y ["a"; "b"; "c"; "d"; "e"; "f"]%string 1 (1 # 2) 3.
Example ex_runs : exists out, ex_run = Ok out /\ so_selvars (fo_sift out) = [1; 2; 3] /\
  fo_rho out = Some [[0]; [9 # 10]; [9 # 10]; [9 # 10]; [9 # 10]; [0]]%Q /\
  fo_clust out = Some [[false; true; false]; [false; false; true]; [true; false; false]; [false; true; false]; [false; false; true]].
Proof. eexists. split; [vm_compute; reflexivity|]. repeat split. Qed.
Lemma ex_labels : labels_features ex_kmeans.
Proof.
  intros n auto seed fs l H. unfold ex_kmeans in H. destruct (Nat.eqb_spec n 0) as [E|E]; [discriminate|].
  injection H as <-. split; [rewrite map_length, seq_length; auto|].
  intros c Hc. apply in_map_iff in Hc. destruct Hc as (p & <- & _). apply Nat.mod_upper_bound. auto.
Qed.

(** The score reported for the number of clusters asked for is not that of the clusters reported. *)
Theorem C124_score_of_the_reported_clusters_refuted :
  ~ forall pearson order draw kmeans silhouette ga x y labels nalgos threshold k out sc km,
      labels_features kmeans ->
      full pearson order draw kmeans silhouette ga x y labels nalgos threshold k = Ok out ->
      fo_silhouette out = Some sc -> fo_clust out = Some (clust_matrix km k) ->
      exists features, silhouette features km = nth_error sc (k - 2).
Proof.
  intro H. destruct (H ex_pearson ex_order ex_draw ex_kmeans ex_silhouette ex_ga ex_x ex_y ["a"; "b"; "c"; "d"; "e"; "f"]%string 1 (1 # 2)%Q 3
    _ _ [1; 2; 0; 1; 2] ex_labels eq_refl eq_refl eq_refl) as [fs X]. discriminate.
Qed.

Print Assumptions C124_reported_correlations.
Print Assumptions C124_reported_scores_and_clusters.
Print Assumptions C124_clusters_are_of_more_features_than_returned.
Print Assumptions C124_score_of_the_reported_clusters_refuted.
