(** Property C92: the rest of PYTHIA's summary table. *)
From Coq Require Import Lqa Lia.
From Verif Require Import BaseLemmas Mat PreprocSpec CloisterModel PilotProofs CloisterProofs PythiaModel PythiaSpec PythiaProofs PythiaWeights PythiaProps.
Set Implicit Arguments.
Open Scope nat_scope.
Open Scope list_scope.

(** the mean of some values, missing if there are none *)
Definition mean_of (vals : list Q) (m : num) : Prop :=
  (vals = [] /\ m = None) \/
  (vals <> [] /\ exists q, m = Some q /\ (q * inject_Z (Z.of_nat (length vals)) == fold_right Qplus 0 vals)%Q).
(** their variance *)
Definition variance_of (vals : list Q) (v : num) : Prop :=
  (vals = [] /\ v = None) \/
  (exists m, mean_of vals (Some m) /\ mean_of (map (fun x => (x - m) * (x - m))%Q vals) v).
(** the performances of algorithm j that are present, over the instances selected by [keep] *)
Definition perfs (y : list (list num)) (keep : nat -> bool) (j : nat) : list Q :=
  flat_map (fun i => match cell y i j with Some q => if keep i then [q] else [] | None => [] end) (seq 0 (length y)).

Lemma nanmean_is_mean l : mean_of (present l) (nanmean l).
Proof.
  unfold mean_of, nanmean. destruct (present l) as [|a t] eqn:E; [left; auto|right]. split; [discriminate|].
  eexists. split; [reflexivity|]. unfold qsum, qlen.
  assert (N : ~ (inject_Z (Z.of_nat (length (a :: t))) == 0)%Q).
  { intro X. change 0%Q with (inject_Z 0) in X. apply (proj1 (inject_Z_injective _ _)) in X. simpl in X. lia. }
  field. exact N.
Qed.
Lemma present_squares l m : present (map (fun v => nsq (nsub v (Some m))) l) = map (fun x => (x - m) * (x - m))%Q (present l).
Proof. unfold present. induction l as [|[a|] l IH]; simpl; auto. f_equal. auto. Qed.
Lemma nanstd_is_root root l : exists v, nanstd root l = root v /\ variance_of (present l) v.
Proof.
  unfold nanstd. eexists. split; [reflexivity|]. unfold variance_of.
  destruct (nanmean_is_mean l) as [[E M]|[E (q & M & _)]].
  - left. split; auto. unfold nanmean at 1. rewrite M.
    assert (X : present (map (fun v => nsq (nsub v None)) l) = []) by (clear; unfold present; induction l as [|[a|] l IH]; simpl; auto).
    change num with (option Q) in *. rewrite X. reflexivity.
  - right. exists q. rewrite M. split; [rewrite <- M; apply nanmean_is_mean|].
    rewrite <- present_squares. apply nanmean_is_mean.
Qed.
Lemma column_perfs y j : present (column None y j) = perfs y (fun _ => true) j.
Proof.
  unfold perfs, column, cell, present.
  assert (G : forall l, flat_map (fun a : num => match a with Some q => [q] | None => [] end) (map (fun r => nth j r None) l) =
     flat_map (fun r : list num => match nth j r None with Some q => [q] | None => [] end) l).
  { induction l; simpl; auto. f_equal. auto. }
  rewrite G. assert (M : y = map (fun i => nth i y []) (seq 0 (length y))).
  { apply (@list_eq_nth _ []); [rewrite map_length, seq_length; auto|]. intros i Hi. rewrite nth_seq_map by auto. auto. }
  rewrite M at 1. rewrite flat_map_concat_map, map_map, <- flat_map_concat_map. reflexivity.
Qed.
Lemma kept_perfs y mask n j : length mask = length y -> j < n ->
  (forall r, In r y -> length r = n) -> (forall i, i < length mask -> length (nth i mask []) = n) ->
  present (column None (keep_where mask y) j) = perfs y (fun i => flag mask i j) j.
Proof.
  intros L Hj Ly Lm. assert (Lk : length (keep_where mask y) = length y) by (unfold keep_where; rewrite map_length, combine_length; lia).
  rewrite column_perfs. unfold perfs. rewrite Lk.
  rewrite !flat_map_concat_map. f_equal. apply map_ext_in. intros i Hi. apply in_seq in Hi.
  assert (C : cell (keep_where mask y) i j = if flag mask i j then cell y i j else None).
  { unfold cell, keep_where, flag. rewrite (nth_combine_map _ y mask (i := i) [] []) by lia. cbn [fst snd].
    rewrite (nth_combine_map _ (nth i y []) (nth i mask []) (i := j) None false).
    - reflexivity.
    - rewrite Lm by lia. unfold num in *. rewrite (Ly (nth i y [])); [auto|apply nth_In; lia].
    - unfold num in *. rewrite (Ly (nth i y [])); [auto|apply nth_In; lia]. }
  rewrite C. destruct (flag mask i j); auto. destruct (cell y i j); auto.
Qed.

Lemma how_many_le n f : how_many n f <= n.
Proof. unfold how_many. rewrite <- (seq_length n 0) at 2. generalize (seq 0 n) as l. induction l as [|a l IH]; simpl; [lia|destruct (f a); simpl; lia]. Qed.
Lemma onehot_exists (row : list bool) s :
  existsb (fun b => b) (map (fun p : bool * bool => fst p && snd p) (combine row (map (fun c => Nat.eqb s (c + 1)) (seq 0 (length row))))) =
  match s with O => false | S k => nth k row false end.
Proof.
  assert (G : forall (row : list bool) b s, existsb (fun b => b) (map (fun p : bool * bool => fst p && snd p) (combine row (map (fun c => Nat.eqb s (c + 1)) (seq b (length row))))) =
     if Nat.ltb b s then nth (s - b - 1) row false else false).
  { clear. induction row as [|v row IH]; intros b s; simpl.
    - destruct (Nat.ltb b s); auto. destruct (s - b - 1); auto.
    - rewrite IH. destruct (Nat.eqb_spec s (b + 1)) as [E|E].
      + subst. destruct (Nat.ltb_spec b (b + 1)); [|lia]. destruct (Nat.ltb_spec (S b) (b + 1)); [lia|].
        replace (b + 1 - b - 1) with 0 by lia. rewrite andb_true_r, orb_false_r. auto.
      + rewrite andb_false_r. simpl. destruct (Nat.ltb_spec b s), (Nat.ltb_spec (S b) s); auto; try lia.
        replace (s - b - 1) with (S (s - S b - 1)) by lia. auto. }
  rewrite G. destruct s; auto. simpl. rewrite Nat.sub_0_r. auto.
Qed.
Lemma selector_rate y_bin sel n : length sel = length y_bin -> (forall r, In r y_bin -> length r = n) ->
  rate (map (fun bs => existsb (fun b => b) (map (fun p : bool * bool => fst p && snd p) (combine (fst bs) (snd bs))))
            (combine y_bin (sel_matrix sel n))) =
  ratio (how_many (length y_bin) (fun i => match nth i sel 0 with O => false | S k => flag y_bin i k end)) (length y_bin).
Proof.
  intros L R. set (m := map _ _).
  assert (E : m = map (fun i => match nth i sel 0 with O => false | S k => flag y_bin i k end) (seq 0 (length y_bin))).
  { apply (@list_eq_nth _ false); unfold m; [rewrite !map_length, combine_length, seq_length; unfold sel_matrix; rewrite map_length; lia|].
    rewrite map_length, combine_length. unfold sel_matrix. rewrite map_length. intros i Hi. rewrite nth_seq_map by lia.
    rewrite (nth_combine_map _ y_bin (map (fun s => map (fun c => Nat.eqb s (c + 1)) (seq 0 n)) sel) (i := i) [] []) by (rewrite ?map_length; lia).
    cbn [fst snd]. rewrite (nth_map_in _ sel 0) by lia.
    rewrite <- (R (nth i y_bin [])) by (apply nth_In; lia). rewrite onehot_exists. reflexivity. }
  rewrite E. unfold rate. rewrite map_length, seq_length. f_equal. unfold how_many. generalize (seq 0 (length y_bin)) as l.
  induction l as [|i l IH]; auto. simpl. destruct (match nth i sel 0 with O => false | S k => flag y_bin i k end); simpl; auto.
Qed.
(** what is left of a matrix when one entry per row is kept *)
Lemma present_kept (y : list (list num)) sel n : length sel = length y -> (forall r, In r y -> length r = n) ->
  present (concat (keep_where (sel_matrix sel n) y)) =
  present (map (fun i => match nth i sel 0 with O => None | S k => cell y i k end) (seq 0 (length y))).
Proof.
  intros L1 Lr.
  assert (M : map (fun i => match nth i sel 0 with O => None | S k => cell y i k end) (seq 0 (length y)) =
              map (fun rs => match snd rs with O => None | S k => nth k (fst rs) None end) (combine y sel)).
  { apply (@list_eq_nth _ None); [rewrite !map_length, combine_length, seq_length; lia|]. rewrite map_length, seq_length. intros i Hi.
    rewrite nth_seq_map by auto. rewrite (nth_combine_map _ y sel (i := i) [] 0) by lia. reflexivity. }
  rewrite M. clear M. unfold keep_where, sel_matrix. revert sel L1. induction y as [|row l IH]; intros [|s sel] L1; try discriminate L1; auto.
  cbn [map combine concat fst snd]. rewrite present_app, IH by (try (intros; apply Lr; right; auto); simpl in L1; lia).
  assert (Lrow : n = length row) by (symmetry; apply Lr; left; auto). rewrite Lrow, present_single.
  rewrite <- present_app. reflexivity.
Qed.

(** counting over a matrix of one-hot rows *)
Lemma count2_app f a b c d : length a = length b -> count2 f (a ++ c) (b ++ d) = count2 f a b + count2 f c d.
Proof.
  unfold count2. revert b. induction a as [|x a IH]; intros [|z b] L; try discriminate L; auto. simpl in *.
  destruct (f x z); simpl; rewrite IH by lia; auto.
Qed.
Lemma onehot_from (row : list bool) s b : s <= b + length row ->
  let hot := map (fun c => Nat.eqb s (c + 1)) (seq b (length row)) in
  (tp row hot = (if Nat.ltb b s then if nth (s - b - 1) row false then 1 else 0 else 0)) /\
  (tp row hot + fp row hot = if Nat.ltb b s then 1 else 0) /\
  tp row hot + fn row hot = length (filter (fun v => v) row).
Proof.
  revert b. induction row as [|v row IH]; intros b H; simpl in H.
  - simpl. destruct (Nat.ltb_spec b s); [lia|]. auto.
  - cbv zeta. cbn [length seq map]. destruct (IH (S b) ltac:(lia)) as (A & B & C).
    unfold tp, fp, fn, count2 in *. cbn [combine filter fst snd]. set (hot := map _ _) in *.
    destruct (Nat.eqb_spec s (b + 1)) as [E|E].
    + subst. replace (b + 1 - b - 1) with 0 by lia. destruct (Nat.ltb_spec b (b + 1)); [|lia].
      destruct (Nat.ltb_spec (S b) (b + 1)); [lia|]. destruct v; cbn [andb negb nth length]; repeat split; lia.
    + assert (X : Nat.ltb b s = Nat.ltb (S b) s) by (destruct (Nat.ltb_spec b s), (Nat.ltb_spec (S b) s); auto; lia).
      rewrite X. destruct (Nat.ltb_spec (S b) s) as [Y|Y].
      * replace (s - b - 1) with (S (s - S b - 1)) by lia. destruct v; cbn [andb negb nth length]; repeat split; auto; lia.
      * destruct v; cbn [andb negb nth length]; repeat split; auto; lia.
Qed.
Lemma how_many_S n f : how_many (S n) f = (if f 0 then 1 else 0) + how_many n (fun i => f (S i)).
Proof.
  unfold how_many. simpl. assert (G : forall l, length (filter f (map S l)) = length (filter (fun i => f (S i)) l)).
  { clear. induction l as [|a l IH]; simpl; auto. destruct (f (S a)); simpl; auto. }
  rewrite <- seq_shift. destruct (f 0); simpl; rewrite G; auto.
Qed.
Lemma onehot_matrix (y_bin : list (list bool)) sel n : length sel = length y_bin -> (forall r, In r y_bin -> length r = n) ->
  (forall s, In s sel -> s <= n) ->
  let t := concat y_bin in let p := concat (sel_matrix sel n) in
  (tp t p = how_many (length y_bin) (fun i => match nth i sel 0 with O => false | S k => flag y_bin i k end)) /\
  (tp t p + fp t p = how_many (length y_bin) (fun i => negb (Nat.eqb (nth i sel 0) 0))) /\
  tp t p + fn t p = length (filter (fun v => v) (concat y_bin)).
Proof.
  cbv zeta. revert sel. induction y_bin as [|row m IH]; intros [|s sel] L R S; try discriminate L; auto.
  unfold sel_matrix in *. cbn [map concat length]. rewrite !how_many_S. cbn [nth].
  destruct (IH sel) as (A & B & C); [simpl in L; lia|intros; apply R; right; auto|intros; apply S; right; auto|].
  assert (Lr : n = length row) by (symmetry; apply R; left; auto).
  destruct (@onehot_from row s 0) as (A1 & B1 & C1); [specialize (S s); rewrite <- Lr; simpl; apply S; left; auto|].
  rewrite <- Lr in A1, B1, C1.
  assert (Lh : length row = length (map (fun c => Nat.eqb s (c + 1)) (seq 0 n))) by (rewrite map_length, seq_length; auto).
  unfold tp, fp, fn in *. rewrite !count2_app by auto. rewrite filter_app, app_length.
  split; [|split].
  - rewrite A, A1. unfold flag. f_equal. destruct s as [|k]; auto. simpl. rewrite Nat.sub_0_r. auto.
  - assert (X : (if Nat.ltb 0 s then 1 else 0) = if negb (Nat.eqb s 0) then 1 else 0) by (destruct s; auto).
    rewrite X in B1. rewrite <- B, <- B1. lia.
  - rewrite <- C, <- C1. lia.
Qed.

Section Run.
  Variable fit : nat -> hyper -> list bool -> list num -> res pyerr svm_res.
  Variable round3 root : num -> num.
  Variable y : list (list num).
  Variable y_bin : list (list bool).
  Variable y_best : list num.
  Variable algo_labels : list string.
  Variable nalgos : nat.
  Variable use_weights : bool.
  Variable par : option params.
  Notation run := (run fit round3 root y y_bin y_best algo_labels nalgos use_weights par).

  (** Row j of the summary: mean and standard deviation of algorithm j's performance over all
      instances and over those it is predicted good for, and the share of instances it is good for.
      (The mean and deviation over all instances are rounded twice.) *)
  Theorem C92_algorithm_rows :
    forall out, run = Ok out -> length y = length y_bin -> (forall r, In r y -> length r = nalgos) ->
      forall j, j < nalgos ->
        (exists m, nth j (s_avg_perf_all (o_summary out)) None = round3 (round3 m) /\ mean_of (perfs y (fun _ => true) j) m) /\
        (exists v, nth j (s_std_perf_all (o_summary out)) None = round3 (round3 (root v)) /\ variance_of (perfs y (fun _ => true) j) v) /\
        (exists q, nth j (s_probability_of_good (o_summary out)) None = round3 (Some q) /\
           share q (how_many (length y_bin) (fun i => flag y_bin i j)) (length y_bin)) /\
        (exists m, nth j (s_avg_perf_selected (o_summary out)) None = round3 m /\
           mean_of (perfs y (fun i => flag (o_y_hat out) i j) j) m) /\
        (exists v, nth j (s_std_perf_selected (o_summary out)) None = round3 (root v) /\
           variance_of (perfs y (fun i => flag (o_y_hat out) i j) j) v) /\
        nth j (s_box_constraint (o_summary out)) None = round3 (nth j (o_box_consnt out) None) /\
        nth j (s_kernel_scale (o_summary out)) None = round3 (nth j (o_k_scale out) None).
  Proof.
    intros out H Ly Lr j Hj. destruct (@run_shapes _ _ _ _ _ _ _ _ _ _ _ H) as (N & _ & _ & _ & Lh & Lhr & _).
    destruct (@pythia_inv _ _ _ _ _ _ _ _ _ _ _ H) as (_ & NL & w & rs & _ & _ & L & _ & G). cbv zeta in G.
    destruct G as (_ & _ & _ & _ & _ & _ & _ & _ & Gb & Gk & _ & _ & G). unfold generate_summary in G.
    simpl Nat.ltb in G. cbv iota in G. rewrite NL, Nat.eqb_refl in G. injection G as Gs _. rewrite <- Gs.
    cbn [s_avg_perf_all s_std_perf_all s_probability_of_good s_avg_perf_selected s_std_perf_selected s_box_constraint s_kernel_scale].
    assert (P : forall (f : nat -> num) t, nth j (map round3 (map f (seq 0 nalgos) ++ t)) None = round3 (f j)).
    { intros f t. rewrite (nth_map_in round3 _ None) by (rewrite app_length, map_length, seq_length; unfold num in *; lia).
      rewrite app_nth1 by (rewrite map_length, seq_length; lia). rewrite nth_seq_map by auto. auto. }
    assert (B : forall (l t : list num), length l = nalgos -> nth j (map round3 (l ++ t)) None = round3 (nth j l None)).
    { intros l t Ll. rewrite (nth_map_in round3 _ None) by (rewrite app_length; unfold num in *; lia). rewrite app_nth1 by (unfold num in *; lia). auto. }
    rewrite !P.
    split. { eexists. split; [reflexivity|]. rewrite <- column_perfs. apply nanmean_is_mean. }
    split. { destruct (nanstd_is_root root (column None y j)) as (v & E & V). exists v. rewrite E, <- column_perfs. auto. }
    split. { eexists. split; [reflexivity|]. rewrite rate_how_many. apply ratio_share. apply how_many_le. }
    assert (K : present (column None (keep_where (o_y_hat out) y) j) = perfs y (fun i => flag (o_y_hat out) i j) j).
    { apply kept_perfs with (n := nalgos); auto; [lia|]. intros i Hi. apply Lhr. lia. }
    split. { eexists. split; [reflexivity|]. rewrite <- K. apply nanmean_is_mean. }
    split. { destruct (nanstd_is_root root (column None (keep_where (o_y_hat out) y) j)) as (v & E & V). exists v. rewrite E, <- K. auto. }
    split; apply B; rewrite ?Gb, ?Gk, map_length; auto.
  Qed.

  (** The last two rows.  Oracle: the best performances, always good.  Selector: mean, deviation
      and probability of good are those of the algorithm listed before the selected one, over the
      instances whose selected algorithm is not the first. *)
  Theorem C92_oracle_and_selector_rows :
    forall out, run = Ok out -> length y = length y_bin -> (forall r, In r y -> length r = nalgos) ->
      (forall r, In r y_bin -> length r = nalgos) ->
      let best := present y_best in
      let chosen := present (map (fun i => match nth i (o_selection1 out) 0 with O => None | S k => cell y i k end) (seq 0 (length y))) in
      let s := o_summary out in (
      (exists m, nth nalgos (s_avg_perf_all s) None = round3 m /\ mean_of best m) /\
      (exists v, nth nalgos (s_std_perf_all s) None = round3 (root v) /\ variance_of best v) /\
      nth nalgos (s_probability_of_good s) None = round3 (Some 1%Q) /\
      (exists m, nth (nalgos + 1) (s_avg_perf_all s) None = round3 m /\ nth (nalgos + 1) (s_avg_perf_selected s) None = round3 m /\ mean_of chosen m) /\
      (exists v, nth (nalgos + 1) (s_std_perf_all s) None = round3 (root v) /\ nth (nalgos + 1) (s_std_perf_selected s) None = round3 (root v) /\
         variance_of chosen v) /\
      (exists q, nth (nalgos + 1) (s_probability_of_good s) None = round3 (Some q) /\
         share q (how_many (length y_bin) (fun i => match nth i (o_selection1 out) 0 with O => false | S k => flag y_bin i k end)) (length y_bin)))%type.
  Proof.
    intros out H Ly Lr Lb. cbv zeta. destruct (@run_shapes _ _ _ _ _ _ _ _ _ _ _ H) as (N & _ & _ & _ & _ & _ & _ & L1 & _).
    destruct (@pythia_inv _ _ _ _ _ _ _ _ _ _ _ H) as (_ & NL & w & rs & _ & _ & L & _ & G). cbv zeta in G.
    destruct G as (_ & _ & _ & _ & _ & _ & _ & _ & _ & _ & _ & _ & G). unfold generate_summary in G.
    simpl Nat.ltb in G. cbv iota in G. rewrite NL, Nat.eqb_refl in G. injection G as Gs _. rewrite <- Gs.
    cbn [s_avg_perf_all s_std_perf_all s_probability_of_good s_avg_perf_selected s_std_perf_selected].
    assert (P0 : forall (f : nat -> num) a b, nth nalgos (map round3 (map f (seq 0 nalgos) ++ [a; b])) None = round3 a).
    { intros f a b. rewrite (nth_map_in round3 _ None) by (rewrite app_length, map_length, seq_length; simpl; lia).
      rewrite app_nth2 by (rewrite map_length, seq_length; lia). rewrite map_length, seq_length, Nat.sub_diag. auto. }
    assert (P1 : forall (f : nat -> num) a b, nth (nalgos + 1) (map round3 (map f (seq 0 nalgos) ++ [a; b])) None = round3 b).
    { intros f a b. rewrite (nth_map_in round3 _ None) by (rewrite app_length, map_length, seq_length; simpl; lia).
      rewrite app_nth2 by (rewrite map_length, seq_length; lia). rewrite map_length, seq_length. replace (nalgos + 1 - nalgos) with 1 by lia. auto. }
    rewrite !P0, !P1.
    split. { eexists. split; [reflexivity|apply nanmean_is_mean]. }
    split. { destruct (nanstd_is_root root y_best) as (v & E & V). exists v. rewrite E. auto. }
    split; auto. rewrite <- present_kept with (n := nalgos) by (auto; lia).
    split. { eexists. split; [reflexivity|]. split; [reflexivity|apply nanmean_is_mean]. }
    split. { destruct (nanstd_is_root root (concat (keep_where (sel_matrix (o_selection1 out) nalgos) y))) as (v & E & V). exists v. rewrite E. auto. }
    eexists. split; [reflexivity|]. rewrite selector_rate by auto. apply ratio_share. apply how_many_le.
  Qed.
  (** The cross-validation columns of the last two rows.  The Oracle has none.  The Selector has no
      accuracy; its precision is the share of good pairs among the pairs (instance, algorithm listed
      before the one selection0 names), and its recall their share among all good pairs. *)
  Theorem C92_selector_precision_and_recall :
    forall out, run = Ok out -> (forall r, In r y_bin -> length r = nalgos) ->
      let s := o_summary out in
      let hits := how_many (length y_bin) (fun i => match nth i (o_selection0 out) 0 with O => false | S k => flag y_bin i k end) in (
      (exists p, nth (nalgos + 1) (s_cv_model_precision s) None = round3 (Some (100 * p)%Q) /\
         share p hits (how_many (length y_bin) (fun i => negb (Nat.eqb (nth i (o_selection0 out) 0) 0)))) /\
      (exists r, nth (nalgos + 1) (s_cv_model_recall s) None = round3 (Some (100 * r)%Q) /\
         share r hits (length (filter (fun v => v) (concat y_bin)))) /\
      nth (nalgos + 1) (s_cv_model_accuracy s) None = round3 None /\
      (forall c, In c [s_avg_perf_selected s; s_std_perf_selected s; s_cv_model_accuracy s; s_cv_model_precision s; s_cv_model_recall s;
                       s_box_constraint s; s_kernel_scale s] -> nth nalgos c None = round3 None))%type.
  Proof.
    intros out H Lb. cbv zeta. destruct (@run_shapes _ _ _ _ _ _ _ _ _ _ _ H) as (N & Lp & La & Lr & _ & Lh & L0 & _ & S0 & _).
    destruct (@pythia_inv _ _ _ _ _ _ _ _ _ _ _ H) as (_ & NL & w & rs & _ & _ & L & _ & G). cbv zeta in G.
    destruct G as (_ & _ & _ & _ & _ & _ & _ & _ & Gb & Gk & _ & _ & G). unfold generate_summary in G.
    simpl Nat.ltb in G. cbv iota in G. rewrite NL, Nat.eqb_refl in G. injection G as Gs _. rewrite <- Gs.
    cbn [s_avg_perf_selected s_std_perf_selected s_cv_model_accuracy s_cv_model_precision s_cv_model_recall s_box_constraint s_kernel_scale].
    assert (P : forall (h : num -> num) (l : list num) a b, length l = nalgos ->
       nth nalgos (map h (l ++ [a; b])) None = h a /\ nth (nalgos + 1) (map h (l ++ [a; b])) None = h b).
    { intros h l a b Ll. split; rewrite (nth_map_in h _ None) by (rewrite app_length; unfold num in *; simpl; lia); rewrite app_nth2 by (unfold num in *; lia);
        rewrite Ll; [rewrite Nat.sub_diag|replace (nalgos + 1 - nalgos) with 1 by lia]; auto. }
    assert (In0 : forall s, In s (o_selection0 out) -> s <= nalgos).
    { intros s Hs. destruct (In_nth _ _ 0 Hs) as (i & Hi & <-). rewrite S0 by lia.
      assert (Lw : length (nth i (o_y_hat out) []) = length (o_precision out)) by (rewrite Lp; apply Lh; lia).
      assert (LW := weighted_length _ _ Lw). unfold select_one. destruct (nle _ _); [lia|].
      destruct (@nargmax_spec (weighted (o_precision out) (nth i (o_y_hat out) []))) as (Hm & _).
      - intro X. rewrite X in LW. simpl in LW. lia.
      - rewrite LW, Lw, Lp in Hm. lia. }
    destruct (@onehot_matrix y_bin (o_selection0 out) nalgos) as (A & B & C); auto.
    assert (Ls : forall l : list Q, length l = nalgos -> length (map Some l) = nalgos) by (intros; rewrite map_length; auto).
    rewrite !(fun h l a b Ll => proj2 (P h l a b Ll)) by auto.
    split. { eexists. split; [reflexivity|]. unfold precision_score. rewrite B, A. apply ratio_share. rewrite <- A, <- B. lia. }
    split. { eexists. split; [reflexivity|]. unfold recall_score. rewrite C, A. apply ratio_share. rewrite <- A, <- C. lia. }
    split; [reflexivity|].
    intros c Hc. assert (Lc : forall f : nat -> num, length (map f (seq 0 nalgos)) = nalgos) by (intros; rewrite map_length, seq_length; auto).
    repeat (destruct Hc as [<-|Hc]; [rewrite (fun h l a b Ll => proj1 (P h l a b Ll)); auto; rewrite ?Gb, ?Gk, ?map_length; auto|]). destruct Hc.
  Qed.
End Run.

(** A run to which both apply. *)
Example C92_applies :
  exists out, run ex_fit (fun v => v) (fun v => v) ex_y ex_bin [Some 1; Some 2; Some 3; Some 4]%Q ["a"; "b"]%string 2 false None = Ok out /\
    length ex_y = length ex_bin /\ (forall r, In r ex_y -> length r = 2) /\ (forall r, In r ex_bin -> length r = 2).
Proof.
  eexists. split; [vm_compute; reflexivity|]. split; [reflexivity|].
  split; intros r Hr; repeat (destruct Hr as [<-|Hr]; [reflexivity|]); destruct Hr.
Qed.

Print Assumptions C92_algorithm_rows.
Print Assumptions C92_oracle_and_selector_rows.
Print Assumptions C92_selector_precision_and_recall.
