(** Lemmas about the PYTHIA model. *)
From Coq Require Import Lqa.
From Verif Require Import BaseLemmas Mat PreprocSpec CloisterModel CloisterSpec PilotSpec PilotProofs CloisterProofs PythiaModel PythiaSpec.
Set Implicit Arguments.
Open Scope nat_scope.
Open Scope list_scope.

(* ------------------------------------------------------------------ lists *)
Lemma nth_seq_map A (f : nat -> A) n i d : i < n -> nth i (map f (seq 0 n)) d = f i.
Proof.
  intro H. rewrite (nth_indep _ d (f 0)) by (rewrite map_length, seq_length; auto). rewrite map_nth, seq_nth by auto. auto.
Qed.
Lemma nth_map_in A B (f : A -> B) l i d e : i < length l -> nth i (map f l) e = f (nth i l d).
Proof. intro H. rewrite (nth_indep _ e (f d)) by (rewrite map_length; auto). apply map_nth. Qed.
Lemma nth_combine A B (l : list A) (m : list B) i a b : length l = length m -> i < length l ->
  nth i (combine l m) (a, b) = (nth i l a, nth i m b).
Proof. intros. apply combine_nth. auto. Qed.
Lemma nth_combine_map A B C (f : A * B -> C) (l : list A) (m : list B) i a b e : length l = length m -> i < length l ->
  nth i (map f (combine l m)) e = f (nth i l a, nth i m b).
Proof.
  intros L H. rewrite (nth_map_in f (combine l m) (a, b)) by (rewrite combine_length; lia). rewrite combine_nth by auto. auto.
Qed.
Lemma of_columns_length A (d : A) n cols : length (of_columns d n cols) = n.
Proof. unfold of_columns. rewrite map_length, seq_length. auto. Qed.
Lemma of_columns_row A (d : A) n cols i : i < n -> nth i (of_columns d n cols) [] = map (fun c => nth i c d) cols.
Proof. intro H. unfold of_columns. rewrite nth_seq_map by auto. auto. Qed.
Lemma flag_columns n cols i j : i < n -> j < length cols -> flag (of_columns false n cols) i j = nth i (nth j cols []) false.
Proof. intros Hi Hj. unfold flag. rewrite of_columns_row by auto. rewrite (nth_map_in _ cols []) by auto. auto. Qed.

(* ------------------------------------------------------------------ counting *)
Lemma count2_nth f : forall t p, length t = length p ->
  count2 f t p = how_many (length t) (fun i => f (nth i t false) (nth i p false)).
Proof.
  unfold count2, how_many. intros t p L.
  assert (E : combine t p = map (fun i => (nth i t false, nth i p false)) (seq 0 (length t))).
  { apply (@list_eq_nth _ (false, false)); [rewrite combine_length, map_length, seq_length; lia|].
    rewrite combine_length. intros i Hi. rewrite nth_combine by (auto; lia). rewrite nth_seq_map by lia. auto. }
  rewrite E. generalize (seq 0 (length t)). induction l as [|a l IH]; auto. simpl. destruct (f _ _); simpl; auto.
Qed.
Lemma how_many_ext n f g : (forall i, i < n -> f i = g i) -> how_many n f = how_many n g.
Proof.
  intro H. unfold how_many. f_equal. apply filter_ext_in. intros i Hi. apply in_seq in Hi. apply H. lia.
Qed.
Lemma how_many_split n f g : how_many n f = how_many n (fun i => f i && g i) + how_many n (fun i => f i && negb (g i)).
Proof.
  unfold how_many. induction (seq 0 n) as [|a l IH]; auto. simpl. destruct (f a), (g a); simpl; lia.
Qed.
Lemma how_many_all n : how_many n (fun _ => true) = n.
Proof.
  unfold how_many. rewrite (proj2 (filter_In_all _ _)) || idtac.
  assert (E : forall l : list nat, filter (fun _ => true) l = l) by (induction l; simpl; congruence). rewrite E. apply seq_length.
Qed.
Lemma how_many_pos n f : 0 < how_many n f <-> exists i, i < n /\ f i = true.
Proof.
  unfold how_many. split.
  - intro H. destruct (filter f (seq 0 n)) as [|i l] eqn:E; [simpl in H; lia|].
    assert (X : In i (filter f (seq 0 n))) by (rewrite E; left; auto). apply filter_In in X. destruct X as [X Y]. apply in_seq in X. exists i. split; auto; lia.
  - intros (i & Hi & F). assert (X : In i (filter f (seq 0 n))) by (apply filter_In; split; auto; apply in_seq; lia).
    destruct (filter f (seq 0 n)); [contradiction|simpl; lia].
Qed.
Lemma inject_nat_pos n : 0 < n -> (0 < inject_Z (Z.of_nat n))%Q.
Proof. intro H. unfold Qlt. simpl. lia. Qed.
Lemma ratio_share a b : a <= b -> share (ratio a b) a b.
Proof.
  intro H. unfold share, ratio. destruct b as [|b].
  - assert (a = 0) by lia. subst. split; [reflexivity|]. intros _. reflexivity.
  - pose proof (@inject_nat_pos (S b) ltac:(lia)) as P. split; [field; lra|lia].
Qed.
Lemma ratio_pos a b : 0 < a -> 0 < b -> (0 < ratio a b)%Q.
Proof.
  intros Ha Hb. unfold ratio. apply Qlt_shift_div_l; [apply inject_nat_pos; auto|]. rewrite Qmult_0_l. apply inject_nat_pos; auto.
Qed.
Lemma ratio_nonneg a b : (0 <= ratio a b)%Q.
Proof.
  destruct a; [unfold ratio; simpl; destruct (Z.of_nat b); unfold Qdiv, Qle; simpl; lia|].
  destruct b; [unfold ratio, Qle; simpl; lia|]. apply Qlt_le_weak. apply ratio_pos; lia.
Qed.
Lemma ratio_mono a b n : 0 < n -> ((ratio a n <= ratio b n)%Q <-> a <= b) /\ ((ratio a n < ratio b n)%Q <-> a < b).
Proof.
  intro Hn. pose proof (inject_nat_pos Hn) as P. unfold ratio.
  assert (L : forall u v, (inject_Z (Z.of_nat u) / inject_Z (Z.of_nat n) <= inject_Z (Z.of_nat v) / inject_Z (Z.of_nat n))%Q <-> u <= v).
  { intros u v. split; intro H.
    - apply (Qmult_le_compat_r _ _ (inject_Z (Z.of_nat n))) in H; [|lra]. unfold Qdiv in H. rewrite <- !Qmult_assoc, !(Qmult_comm (/ _)), !Qmult_inv_r, !Qmult_1_r in H by lra.
      unfold Qle in H. simpl in H. lia.
    - apply Qle_shift_div_l; auto. unfold Qdiv. rewrite <- Qmult_assoc, (Qmult_comm (/ _)), Qmult_inv_r, Qmult_1_r by lra. unfold Qle. simpl. lia. }
  split; [apply L|]. split; intro H.
  - destruct (Nat.lt_ge_cases a b) as [|G]; auto. apply L in G. lra.
  - destruct (Qlt_le_dec (inject_Z (Z.of_nat a) / inject_Z (Z.of_nat n)) (inject_Z (Z.of_nat b) / inject_Z (Z.of_nat n))) as [|G]; auto.
    apply L in G. lia.
Qed.

(* ------------------------------------------------------------------ selection *)
Lemma weighted_nth pr yh j : length yh = length pr -> j < length yh ->
  nth_error (weighted pr yh) j = Some (Some (if nth j yh false then nth j pr 0%Q else 0%Q)).
Proof.
  intros L Hj. unfold weighted. rewrite nth_error_map, (nth_error_nth' (combine yh pr) (false, 0%Q)) by (rewrite combine_length; lia).
  rewrite combine_nth by auto. reflexivity.
Qed.
Lemma weighted_length pr yh : length yh = length pr -> length (weighted pr yh) = length yh.
Proof. intro L. unfold weighted. rewrite map_length, combine_length. lia. Qed.
Lemma weighted_finite pr yh : ~ In None (weighted pr yh).
Proof. unfold weighted. intro H. apply in_map_iff in H. destruct H as (p & E & _). discriminate. Qed.
Lemma select_one_spec pr yh none : length yh = length pr -> 0 < length yh ->
  let cand j := j < length yh /\ nth j yh false = true /\ (0 < nth j pr 0)%Q in
  ((exists j, cand j) -> let s := select_one pr none yh in cand s /\
     (forall j, cand j -> (nth j pr 0 <= nth s pr 0)%Q) /\ (forall j, j < s -> cand j -> (nth j pr 0 < nth s pr 0)%Q)) /\
  (~ (exists j, cand j) -> select_one pr none yh = none).
Proof.
  intros L H0. cbv zeta. unfold select_one.
  assert (LW := weighted_length _ _ L). assert (FW := weighted_finite pr yh).
  assert (NW : weighted pr yh <> []) by (intro X; rewrite X in LW; simpl in LW; lia).
  destruct (col_max_spec NW FW) as (mx & Em & Im & Am). rewrite Em in *.
  assert (V : forall j, j < length yh -> (0 < if nth j yh false then nth j pr 0 else 0)%Q -> nth j yh false = true /\ (0 < nth j pr 0)%Q).
  { intros j Hj. destruct (nth j yh false); [auto|intro X; lra]. }
  assert (W : forall j, j < length yh -> (((if nth j yh false then nth j pr 0 else 0) <= mx)%Q)).
  { intros j Hj. destruct (Am (Some (if nth j yh false then nth j pr 0 else 0)%Q)) as (w & Ew & Lw).
    - eapply nth_error_In. apply weighted_nth; auto.
    - injection Ew as <-. auto. }
  destruct (nle (Some mx) (Some 0%Q)) eqn:E; simpl in E.
  - apply Qle_bool_iff in E. split; auto. intros (j & Hj & Hy & Hp). exfalso. specialize (W j Hj). rewrite Hy in W. lra.
  - assert (P : (0 < mx)%Q) by (apply Qnot_le_lt; intro X; apply Qle_bool_iff in X; congruence).
    destruct (nargmax_spec NW) as (Hs & B & _). specialize (B FW). set (s := nargmax (weighted pr yh)) in *. rewrite LW in Hs.
    assert (Sv := weighted_nth pr yh L Hs).
    apply In_nth_error in Im. destruct Im as (m & Im). destruct (B m mx Im) as (b & Eb & Lb & _).
    rewrite Sv in Eb. injection Eb as Eb. rewrite <- Eb in Lb.
    assert (Cs : nth s yh false = true /\ (0 < nth s pr 0)%Q) by (apply V; auto; lra).
    destruct Cs as [C1 C2]. rewrite C1 in *. split.
    + intros _. split; [auto|]. split.
      * intros j (Hj & Hy & Hp). assert (Wj := weighted_nth pr yh L Hj). rewrite Hy in Wj.
        destruct (B j _ Wj) as (b' & Eb' & Lb' & _). rewrite Sv in Eb'. injection Eb' as <-. auto.
      * intros j Hjs (Hj & Hy & Hp). assert (Wj := weighted_nth pr yh L Hj). rewrite Hy in Wj.
        destruct (B j _ Wj) as (b' & Eb' & _ & Lb'). rewrite Sv in Eb'. injection Eb' as <-. auto.
    + intro X. exfalso. apply X. exists s. auto.
Qed.
Lemma rate_how_many y_bin j : rate (column false y_bin j) = ratio (how_many (length y_bin) (fun i => flag y_bin i j)) (length y_bin).
Proof.
  unfold rate, column, how_many, flag. rewrite map_length. f_equal.
  assert (E : map (fun r => nth j r false) y_bin = map (fun i => nth j (nth i y_bin []) false) (seq 0 (length y_bin))).
  { apply (@list_eq_nth _ false); [rewrite !map_length, seq_length; auto|]. rewrite map_length. intros i Hi.
    rewrite nth_seq_map by auto. apply (nth_map_in (fun r => nth j r false)); auto. }
  rewrite E. generalize (seq 0 (length y_bin)). induction l as [|a l IH]; auto. simpl.
  destruct (nth j (nth a y_bin []) false); simpl; auto.
Qed.
Lemma default_spec y_bin nalgos : 0 < nalgos -> y_bin <> [] -> most_often_good y_bin nalgos (default_selection y_bin nalgos).
Proof.
  intros Hn Hy. unfold default_selection, most_often_good. set (l := map _ (seq 0 nalgos)).
  assert (Ll : length l = nalgos) by (unfold l; rewrite map_length, seq_length; auto).
  assert (Nl : l <> []) by (intro X; rewrite X in Ll; simpl in Ll; lia).
  assert (Fl : ~ In None l) by (unfold l; intro X; apply in_map_iff in X; destruct X as (j & E & _); discriminate).
  assert (El : forall j, j < nalgos -> nth_error l j = Some (Some (rate (column false y_bin j)))).
  { intros j Hj. unfold l. rewrite nth_error_map, (nth_error_nth' (seq 0 nalgos) 0), seq_nth by (rewrite ?seq_length; auto). reflexivity. }
  destruct (nargmax_spec Nl) as (Hd & B & _). unfold num in *. rewrite Ll in Hd. split; auto. specialize (B Fl).
  intros j Hj. destruct (B j _ (El j Hj)) as (b & Eb & L1 & L2). rewrite El in Eb by auto. injection Eb as <-.
  rewrite !rate_how_many in L1, L2. assert (0 < length y_bin) as Hp by (destruct y_bin; [congruence|simpl; lia]).
  split; [apply (ratio_mono _ _ Hp); auto|]. intro H. apply (ratio_mono _ _ Hp); auto.
Qed.

(* ------------------------------------------------------------------ the stage *)
Section Stage.
  Variable fit : nat -> hyper -> list bool -> list num -> res pyerr svm_res.
  Variables round3 root : num -> num.
  Variable y : list (list num).
  Variable y_bin : list (list bool).
  Variable y_best : list num.
  Variable algo_labels : list string.
  Variable nalgos : nat.
  Variable use_weights : bool.
  Variable par : option params.

  (** everything that is known of a completed run *)
  Lemma pythia_inv out : pythia fit round3 root y y_bin y_best algo_labels nalgos use_weights par = Ok out ->
    1 < nalgos /\ length algo_labels = nalgos /\
    exists w rs, (if use_weights then weights y else Ok (unit_weights (length y_bin) nalgos)) = Ok w /\ o_w out = w /\
      length rs = nalgos /\
      (forall i r, nth_error rs i = Some r -> i < nalgos /\
         fit i (param_space par nalgos i) (column false y_bin i) (column None w i) = Ok r /\
         two_labels (column false y_bin i ++ r_ysub r) = true) /\
      let cols := map (column false y_bin) (seq 0 nalgos) in
      let score f := map (fun tr => f (fst tr) (r_yhat (snd tr))) (combine cols rs) in
      o_y_hat out = of_columns false (length y_bin) (map r_yhat rs) /\
      o_y_sub out = of_columns false (length y_bin) (map r_ysub rs) /\
      o_accuracy out = score accuracy_score /\ o_precision out = score precision_score /\ o_recall out = score recall_score /\
      o_cvcmat out = map (fun tr => let t := fst tr in let p := r_ysub (snd tr) in (tn t p, fp t p, fn t p, tp t p)) (combine cols rs) /\
      o_selection0 out = map (select_one (o_precision out) 0) (o_y_hat out) /\
      o_selection1 out = map (select_one (o_precision out) (default_selection y_bin nalgos)) (o_y_hat out) /\
      o_box_consnt out = map r_c rs /\ o_k_scale out = map r_g rs /\
      o_pr0_sub out = of_columns None (length y_bin) (map r_psub rs) /\
      o_pr0_hat out = of_columns None (length y_bin) (map r_phat rs) /\
      generate_summary round3 root 1 nalgos algo_labels y (o_y_hat out) y_bin y_best (o_selection0 out) (o_selection1 out)
        (o_accuracy out) (o_precision out) (o_recall out) (o_box_consnt out) (o_k_scale out) = Ok (o_summary out, o_y out).
  Proof.
    intro H. unfold pythia in H.
    destruct (if use_weights then weights y else Ok (unit_weights (length y_bin) nalgos)) as [w|e] eqn:Ew; [|discriminate].
    destruct (sequence (map (train_one fit y_bin w par algo_labels nalgos) (seq 0 nalgos))) as [rs|e] eqn:Es; [|discriminate].
    destruct (sequence_ok _ Es) as [Ls Ns]. rewrite map_length, seq_length in Ls.
    destruct (Nat.eq_dec nalgos 0) as [E0|N0]; [rewrite E0 in H; discriminate|].
    assert (M : forall T (a b c : T) n, n <> 0 -> match n with O => a | S _ => b end = c -> b = c) by (intros ? ? ? ? [|?]; congruence).
    apply M in H; auto. clear M.
    destruct (generate_summary round3 root (sel_ndim nalgos) nalgos algo_labels y _ y_bin y_best _ _ _ _ _ _ _) as [[s y']|e] eqn:G; [|discriminate].
    assert (N1 : 1 < nalgos /\ length algo_labels = nalgos).
    { unfold generate_summary in G. destruct (Nat.ltb_spec 2 (sel_ndim nalgos + 1)) as [|A]; [discriminate|].
      destruct (Nat.eqb_spec (length algo_labels) nalgos) as [B|]; [|discriminate]. split; auto.
      unfold sel_ndim in A. destruct (Nat.ltb_spec 1 nalgos); [auto|lia]. }
    destruct N1 as [N1 NL]. split; auto. split; auto. exists w, rs.
    assert (Nd : sel_ndim nalgos = 1) by (unfold sel_ndim; destruct (Nat.ltb_spec 1 nalgos); [auto|lia]).
    rewrite Nd in G. unfold determine_selections in G, H. cbn [fst snd] in G, H.
    injection H as <-. cbn [o_w o_y_hat o_y_sub o_accuracy o_precision o_recall o_cvcmat o_selection0 o_selection1 o_box_consnt o_k_scale o_pr0_sub o_pr0_hat o_summary o_y].
    split; auto. split; auto. split; auto. split.
    { intros i r Hr. assert (Hi : i < nalgos) by (rewrite <- Ls; apply nth_error_Some; congruence). split; auto.
      apply Ns in Hr. rewrite nth_error_map, (nth_error_nth' (seq 0 nalgos) 0), seq_nth in Hr by (rewrite ?seq_length; auto).
      cbn [option_map plus] in Hr. injection Hr as Hr. unfold train_one in Hr.
      destruct (fit i _ _ _) as [r'|e] eqn:F; [|discriminate].
      destruct (two_labels _) eqn:T; [|discriminate]. destruct (Nat.ltb i (length algo_labels)); [|discriminate]. injection Hr as <-. auto. }
    cbv zeta. repeat (split; [reflexivity|]). exact G.
  Qed.

  Lemma score_length (f : list bool -> list bool -> Q) rs : length rs = nalgos ->
    length (map (fun tr => f (fst tr) (r_yhat (snd tr))) (combine (map (column false y_bin) (seq 0 nalgos)) rs)) = nalgos.
  Proof. intro L. rewrite map_length, combine_length, map_length, seq_length. lia. Qed.
  Lemma score_nth (f : list bool -> list bool -> Q) rs j r d : length rs = nalgos -> nth_error rs j = Some r ->
    nth j (map (fun tr => f (fst tr) (r_yhat (snd tr))) (combine (map (column false y_bin) (seq 0 nalgos)) rs)) d =
    f (column false y_bin j) (r_yhat r).
  Proof.
    intros L E. assert (Hj : j < nalgos) by (rewrite <- L; apply nth_error_Some; congruence).
    rewrite (nth_combine_map (fun tr => f (fst tr) (r_yhat (snd tr))) (map (column false y_bin) (seq 0 nalgos)) rs (i := j) [] r)
      by (rewrite map_length, seq_length; auto).
    cbn [fst snd]. rewrite nth_seq_map by auto. rewrite (nth_error_nth _ _ r E). auto.
  Qed.
End Stage.
