(** C135: what the footprints of an algorithm depend on. *)
From Coq Require Import Lia Permutation Lqa.
From Verif Require Import TraceModel TraceSpec TraceDbscan TraceProofs TracePurity TraceProps.
Set Implicit Arguments.
Open Scope nat_scope.
Open Scope list_scope.

(** Instance k has flag i of its row; it has i as its best algorithm. *)
Definition good_at (y_bin : list (list bool)) (i : nat) : list bool := map (fun r => nth i r false) y_bin.
Definition has_best (p : list Z) (k i : nat) : Prop := nth_error p k = Some (Z.of_nat i).

Lemma best_at_same p p' i j : length p' = length p -> (forall k, has_best p' k j <-> has_best p k i) -> best_at p' j = best_at p i.
Proof.
  intros L H. unfold best_at. apply nth_ext with (d := false) (d' := false); [rewrite !map_length; auto|].
  intros k Hk. rewrite map_length in Hk. specialize (H k). unfold has_best in H.
  destruct (nth_error p' k) as [v'|] eqn:E'; [|apply nth_error_None in E'; lia].
  destruct (nth_error p k) as [v|] eqn:E; [|apply nth_error_None in E; lia].
  rewrite (nth_error_nth _ _ _ (map_nth_error (fun v => Z.eqb v (Z.of_nat j)) k p' E')).
  rewrite (nth_error_nth _ _ _ (map_nth_error (fun v => Z.eqb v (Z.of_nat i)) k p E)).
  apply eq_true_iff_eq. rewrite !Z.eqb_eq. split; intro X; [assert (Y : Some v = Some (Z.of_nat i)) by (apply H; congruence)|assert (Y : Some v' = Some (Z.of_nat j)) by (apply H; congruence)]; congruence.
Qed.

Lemma flagged_ext P (c c' : P -> bool) z flags : (forall q, c q = c' q) -> flagged_inside c z flags = flagged_inside c' z flags.
Proof. intros H. unfold flagged_inside. f_equal. apply filter_ext. intros [q f]. simpl. rewrite H. auto. Qed.

Section Footprints.
  Variable G : Type.
  Variable is_empty : G -> bool.
  Variable area : G -> Q.
  Variable contains : G -> pt -> bool.
  Variable contains_all : G -> list pt -> bool.
  Variable intersection difference union : G -> G -> G.
  Variable no_polygon : G.
  Variable smooth : G -> G.
  Variable triangulate : G -> list G.
  Variable convex_hull : G -> G.
  Variable geoms : G -> list G.
  Variable alphashape : list pt -> option G.
  Variable epsilon : list pt -> nat -> Z.
  Notation build := (build is_empty area contains difference union no_polygon smooth triangulate convex_hull alphashape epsilon).
  Notation trace := (trace is_empty area contains contains_all intersection difference union no_polygon smooth triangulate convex_hull geoms alphashape epsilon).
  Notation no_footprint := (no_footprint G).
  (** Facts about shapely: what is contained in c is not in a minus c; the empty region meets nothing. *)
  Hypothesis removed_points : forall a c s q l,
    In s (geoms (difference a c)) -> contains c q = true -> In q l -> contains_all s l = false.
  Hypothesis empty_intersection : forall a b, is_empty a = true -> is_empty (intersection a b) = true.
  Notation result P H := (@C89_result G is_empty area contains contains_all intersection difference union no_polygon smooth triangulate convex_hull
     geoms alphashape epsilon removed_points empty_intersection _ _ _ _ _ _ _ _ _ P _ H).
  Notation succeeds z purity y_bin p beta labels n cores order P := (@C89_when_it_succeeds G is_empty area contains contains_all intersection difference union no_polygon smooth triangulate convex_hull
     geoms alphashape epsilon removed_points empty_intersection z purity y_bin p beta labels n cores order P).

  (** Two runs on the same map with the same purity, otherwise different in everything: an algorithm with the
      same good instances has the same good footprint, one that is best for the same instances the same
      best footprint, and if both hold the same numbers in the summary. *)
  Theorem C135_own_instances_only :
    forall z purity y_bin p beta labels n cores order out y_bin' p' beta' labels' n' cores' order' out' i j,
      Permutation order (seq 0 n) -> Permutation order' (seq 0 n') ->
      trace z purity y_bin p beta labels n cores order = Ok out ->
      trace z purity y_bin' p' beta' labels' n' cores' order' = Ok out' ->
      length y_bin' = length y_bin -> length p' = length p -> i < n -> j < n' ->
      t_space out' = t_space out /\ (beta' = beta -> t_hard out' = t_hard out) /\
      (good_at y_bin' j = good_at y_bin i -> nth j (t_good out') no_footprint = nth i (t_good out) no_footprint) /\
      ((forall k, has_best p' k j <-> has_best p k i) -> nth j (t_best out') no_footprint = nth i (t_best out) no_footprint) /\
      (good_at y_bin' j = good_at y_bin i -> (forall k, has_best p' k j <-> has_best p k i) ->
         snd (nth j (t_summary out') (EmptyString, [])) = snd (nth i (t_summary out) (EmptyString, []))).
  Proof.
    intros z purity y_bin p beta labels n cores order out y_bin' p' beta' labels' n' cores' order' out' i j P P' H H' L Lp Hi Hj.
    destruct (result P H) as (S & Hd & _ & _ & Gd & Bt & _ & Sm). destruct (result P' H') as (S' & Hd' & _ & _ & Gd' & Bt' & _ & Sm').
    assert (E : t_space out' = t_space out).
    { assert (X : map (fun _ : list bool => true) y_bin' = map (fun _ => true) y_bin).
      { clear - L. revert y_bin' L. induction y_bin as [|a l IH]; intros [|b l'] L; simpl in *; try discriminate; auto. rewrite (IH l') by lia. auto. }
      rewrite X in S'. rewrite S in S'. congruence. }
    assert (Eg : good_at y_bin' j = good_at y_bin i -> nth j (t_good out') no_footprint = nth i (t_good out) no_footprint).
    { intros X. specialize (Gd i Hi). specialize (Gd' j Hj). unfold good_at in X. rewrite X, Gd in Gd'. congruence. }
    assert (Eb : (forall k, has_best p' k j <-> has_best p k i) -> nth j (t_best out') no_footprint = nth i (t_best out) no_footprint).
    { intros X. specialize (Bt i Hi). specialize (Bt' j Hj). rewrite (best_at_same Lp X), Bt in Bt'. congruence. }
    split; auto. split; [intros ->; rewrite Hd in Hd'; congruence|]. split; auto. split; auto.
    intros X Y. rewrite (Sm i Hi), (Sm' j Hj). cbn [snd]. rewrite E, (Eg X), (Eb Y). auto.
  Qed.

  (** Listing the algorithms in another order lists their footprints and summary rows in that order, if the
      best algorithms are named by their new positions. *)
  Theorem C135_order_of_algorithms :
    (forall a b, is_empty (intersection a b) = is_empty (intersection b a)) ->
    (forall a b q, contains (intersection a b) q = contains (intersection b a) q) ->
    forall z purity y_bin p beta labels n cores order out s y_bin' p' labels',
      Permutation order (seq 0 n) -> Permutation s (seq 0 n) ->
      trace z purity y_bin p beta labels n cores order = Ok out ->
      y_bin' = map (fun r => map (fun i => nth i r false) s) y_bin -> labels' = map (fun i => nth i labels EmptyString) s ->
      length p' = length p -> (forall k j, j < n -> has_best p' k j <-> has_best p k (nth j s 0)) ->
      exists out', trace z purity y_bin' p' beta labels' n cores order = Ok out' /\
        t_space out' = t_space out /\ t_hard out' = t_hard out /\
        forall j, j < n ->
          nth j (t_good out') no_footprint = nth (nth j s 0) (t_good out) no_footprint /\
          nth j (t_best out') no_footprint = nth (nth j s 0) (t_best out) no_footprint /\
          nth j (t_summary out') (EmptyString, []) = nth (nth j s 0) (t_summary out) (EmptyString, []).
  Proof.
    intros Se Sc z purity y_bin p beta labels n cores order out s y_bin' p' labels' P Ps H Ey El Lp Hp.
    assert (Ls : length s = n) by (rewrite (Permutation_length Ps), seq_length; auto).
    assert (R : forall j, j < n -> nth j s 0 < n).
    { intros j Hj. assert (I : In (nth j s 0) (seq 0 n)) by (eapply Permutation_in; [exact Ps|]; apply nth_In; lia). apply in_seq in I. lia. }
    assert (Inj : forall a b, a < n -> b < n -> nth a s 0 = nth b s 0 -> a = b).
    { intros a b Ha Hb E. assert (N : NoDup s) by (eapply Permutation_NoDup; [apply Permutation_sym; exact Ps|apply seq_NoDup]).
      apply (proj1 (NoDup_nth s 0) N); rewrite ?Ls; auto. }
    assert (Ly : length y_bin' = length y_bin) by (rewrite Ey, map_length; auto).
    assert (G' : forall j, j < n -> good_at y_bin' j = good_at y_bin (nth j s 0)).
    { intros j Hj. unfold good_at. rewrite Ey, map_map. apply map_ext. intros r.
      rewrite (nth_indep _ false (nth 0 r false)) by (rewrite map_length; lia). apply (map_nth (fun i => nth i r false)). }
    assert (B' : forall j, j < n -> best_at p' j = best_at p (nth j s 0)).
    { intros j Hj. apply best_at_same; auto. }
    destruct (proj1 (succeeds z purity y_bin p beta labels n cores order P) (ex_intro _ out H)) as (Hc & Hl & [fs Fs] & [fh Fh] & Fg & Fb & N).
    assert (T : exists out', trace z purity y_bin' p' beta labels' n cores order = Ok out').
    { apply (proj2 (succeeds z purity y_bin' p' beta labels' n cores order P)). split; auto. split; [rewrite El, map_length; auto|].
      split. { exists fs. rewrite Ey, map_map. exact Fs. }
      split; [eauto|]. split. { intros j Hj. change (map (fun r => nth j r false) y_bin') with (good_at y_bin' j). rewrite G' by auto. apply Fg. auto. }
      split. { intros j Hj. rewrite B' by auto. auto. }
      intros a b Hab (fi & fj & gi & gj & Ba & Bb & Pa & Pb & E & F). rewrite B' in Ba, Bb, F by lia. rewrite (B' b) in F by lia.
      destruct (Nat.lt_trichotomy (nth a s 0) (nth b s 0)) as [O|[O|O]].
      - apply (N _ _ (conj O (R b ltac:(lia)))). exists fi, fj, gi, gj. cbv zeta. auto 10.
      - apply Inj in O; lia.
      - apply (N _ _ (conj O (R a ltac:(lia)))). exists fj, fi, gj, gi. cbv zeta. split; auto. split; auto. split; auto. split; auto.
        split; [rewrite Se; auto|]. intro X. apply F. rewrite (@flagged_ext _ (contains (intersection gi gj)) (contains (intersection gj gi)) z (best_at p (nth a s 0)) (Sc gi gj)).
        rewrite (@flagged_ext _ (contains (intersection gi gj)) (contains (intersection gj gi)) z (best_at p (nth b s 0)) (Sc gi gj)). auto. }
    destruct T as [out' H']. exists out'. split; auto.
    destruct (result P H) as (S & Hd & _ & _ & _ & _ & _ & Sm). destruct (result P H') as (S' & Hd' & _ & _ & _ & _ & _ & Sm').
    split. { rewrite Ey, map_map, S in S'. congruence. }
    split; [congruence|]. intros j Hj.
    destruct (@C135_own_instances_only z purity y_bin p beta labels n cores order out y_bin' p' beta labels' n cores order out' (nth j s 0) j P P H H' Ly Lp (R j Hj) Hj)
      as (_ & _ & Eg & Eb & Es).
    specialize (Eg (G' j Hj)). specialize (Eb (fun k => Hp k j Hj)). specialize (Es (G' j Hj) (fun k => Hp k j Hj)).
    split; auto. split; auto. rewrite (Sm' j Hj) in *. rewrite (Sm _ (R j Hj)) in *. cbn [snd] in Es. rewrite Es. f_equal.
    rewrite El. rewrite (nth_indep _ EmptyString (nth 0 labels EmptyString)) by (rewrite map_length; lia). apply (map_nth (fun i => nth i labels EmptyString)).
  Qed.
End Footprints.

(** With measured performances (use_sim off) the best algorithms are counted from one, so which instances make
    up an algorithm's best footprint depends on the order in which the algorithms are listed. *)
Definition sep_z : list pt := [(0, 0); (2, 0); (0, 2); (2, 2); (21, 21); (23, 21); (21, 23); (23, 23)]%Z.
Definition sep_bin : list (list bool) := map (fun v => [Z.eqb v 0; Z.eqb v 1]) tie_p.
Notation pixel_run := (run Pixels.is_empty Pixels.area Pixels.contains Pixels.contains_all Pixels.intersection Pixels.difference Pixels.union []
   Pixels.smooth Pixels.pieces Pixels.hull Pixels.geoms Pixels.box Pixels.eps).
Theorem C135_measured_best_refuted :
  exists out out',
    pixel_run false sep_z 0%Q [] [1; 1; 1; 1; 2; 2; 2; 2] [] sep_bin (repeat true 8) ["a"; "b"]%string 2 1%Z [0; 1] = Ok out /\
    pixel_run false sep_z 0%Q [] [2; 2; 2; 2; 1; 1; 1; 1] [] (map (@rev bool) sep_bin) (repeat true 8) ["b"; "a"]%string 2 1%Z [0; 1] = Ok out' /\
    f_polygon (nth 0 (t_best out) (no_footprint _)) = None /\ f_elements (nth 1 (t_best out') (no_footprint _)) = 4 /\
    nth 0 (t_good out) (no_footprint _) = nth 1 (t_good out') (no_footprint _).
Proof. do 2 eexists. split; [vm_compute; reflexivity|]. split; [vm_compute; reflexivity|]. split; [reflexivity|]. split; [reflexivity|]. vm_compute. reflexivity. Qed.

(** Two algorithms, best numbered from zero, in both orders. *)
Example C135_met :
  (forall a b, Pixels.is_empty (Pixels.intersection a b) = Pixels.is_empty (Pixels.intersection b a)) /\
  (forall a b q, Pixels.contains (Pixels.intersection a b) q = Pixels.contains (Pixels.intersection b a) q) /\
  Permutation [1; 0] (seq 0 2) /\
  exists out, Pixels.trace sep_z 0%Q sep_bin tie_p (repeat true 8) ["a"; "b"]%string 2 1%Z [0; 1] = Ok out /\
    (forall k j, j < 2 -> has_best [1; 1; 1; 1; 0; 0; 0; 0]%Z k j <-> has_best tie_p k (nth j [1; 0] 0)) /\
    map (@f_elements _) (t_best out) = [4; 4].
Proof.
  assert (C : forall a b q, Pixels.contains (Pixels.intersection a b) q = Pixels.contains a q && Pixels.contains b q).
  { intros a b q. apply eq_true_iff_eq. rewrite andb_true_iff, !Pixels.contains_in. unfold Pixels.intersection. rewrite filter_In, Pixels.contains_in. tauto. }
  split.
  { intros a b. apply eq_true_iff_eq.
    assert (X : forall a b : list pt, Pixels.is_empty (Pixels.intersection a b) = true <-> forall q, ~ (In q a /\ In q b)).
    { intros u v. split.
      - intros E q [A B]. assert (I : Pixels.contains (Pixels.intersection u v) q = true) by (rewrite C, (proj2 (Pixels.contains_in u q) A), (proj2 (Pixels.contains_in v q) B); auto).
        apply Pixels.contains_in in I. destruct (Pixels.intersection u v); [destruct I|discriminate].
      - intros N. destruct (Pixels.intersection u v) as [|q l] eqn:E; auto. exfalso. apply (N q).
        assert (I : Pixels.contains (Pixels.intersection u v) q = true) by (apply Pixels.contains_in; rewrite E; left; auto).
        rewrite C in I. apply andb_true_iff in I. rewrite !Pixels.contains_in in I. auto. }
    rewrite !X. split; intros N q [A B]; apply (N q); auto. }
  split. { intros a b q. rewrite !C. apply andb_comm. }
  split; [apply perm_swap|]. eexists. split; [vm_compute; reflexivity|]. split; [|reflexivity].
  intros k j Hj. unfold has_best, tie_p. do 8 (destruct k as [|k]; [destruct j as [|[|j]]; simpl; [split; intro X; try discriminate X; auto|split; intro X; try discriminate X; auto|lia]|]).
  simpl. destruct k; split; intro X; discriminate X.
Qed.

Print Assumptions C135_own_instances_only.
Print Assumptions C135_order_of_algorithms.
Print Assumptions C135_measured_best_refuted.
