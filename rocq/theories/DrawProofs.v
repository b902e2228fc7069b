(** Lemmas about the model of the plots. *)
From Coq Require Import Sorted Lqa.
From Verif Require Import BaseLemmas Mat PreprocSpec SerialModel DrawModel DrawSpec.
Set Implicit Arguments.
Open Scope nat_scope.
Open Scope list_scope.

Lemma positions_in f n k : In k (positions f n) <-> k < n /\ f k = true.
Proof. unfold positions. rewrite filter_In, in_seq. intuition lia. Qed.
Lemma seq_increasing a n : increasing (seq a n).
Proof.
  unfold increasing. revert a. induction n as [|n IH]; intros a; simpl; constructor; auto.
  apply Forall_forall. intros x Hx. apply in_seq in Hx. lia.
Qed.
Lemma filter_increasing f l : increasing l -> increasing (filter f l).
Proof.
  unfold increasing. intros H. induction H as [|x l S IH F]; simpl; [constructor|]. destruct (f x); auto. constructor; auto.
  apply Forall_forall. intros y Hy. apply filter_In in Hy. rewrite Forall_forall in F. apply F. tauto.
Qed.
Lemma positions_increasing f n : increasing (positions f n).
Proof. apply filter_increasing, seq_increasing. Qed.

(** groups given by legends and positions *)
Definition grouped (n : nat) (leg : nat -> string) (ls : list string) : list (option string * list nat) :=
  map (fun l => (Some l, positions (fun k => String.eqb (leg k) l) n)) ls.
Lemma grouped_by_legend n leg ls t v r : NoDup ls -> (forall l, In l ls <-> exists k, k < n /\ leg k = l) ->
  by_legend n leg {| d_title := t; d_groups := grouped n leg ls; d_values := v; d_rings := r |}.
Proof.
  intros N C. unfold by_legend, drawn_under. cbn [d_groups]. split; [|split].
  - unfold grouped. rewrite map_map. simpl. clear C. induction N as [|a l H N IH]; simpl; constructor; auto.
    intros X. apply in_map_iff in X. destruct X as (b & E & I). injection E as ->. auto.
  - intros g Hg. unfold grouped in Hg. apply in_map_iff in Hg. destruct Hg as (l & <- & Hl). simpl. split; [discriminate|]. split; [apply positions_increasing|].
    apply C in Hl. destruct Hl as (k & Hk & E). intros X. assert (I : In k (positions (fun k => String.eqb (leg k) l) n)).
    { apply positions_in. split; auto. apply String.eqb_eq. auto. }
    rewrite X in I. destruct I.
  - intros k a. unfold grouped. split.
    + intros (l & Hl & Hk). apply in_map_iff in Hl. destruct Hl as (b & E & _). injection E as -> <-. apply positions_in in Hk.
      destruct Hk as [Hk E]. apply String.eqb_eq in E. auto.
    + intros [Hk ->]. exists (positions (fun j => String.eqb (leg j) (leg k)) n). split.
      * apply in_map_iff. exists (leg k). split; auto. apply C. eauto.
      * apply positions_in. split; auto. apply String.eqb_refl.
Qed.

Lemma bad_good_grouped flags :
  bad_good flags = grouped (length flags) (good_or_bad flags)
    ((if existsb negb flags then ["BAD"%string] else []) ++ (if existsb (fun b => b) flags then ["GOOD"%string] else [])).
Proof.
  unfold bad_good, grouped. rewrite map_app.
  assert (B : positions (fun k => negb (nth k flags true)) (length flags) = positions (fun k => String.eqb (good_or_bad flags k) "BAD") (length flags)).
  { unfold positions. apply filter_ext_in. intros k Hk. apply in_seq in Hk. unfold good_or_bad. rewrite (nth_indep flags false true) by lia.
    destruct (nth k flags true); reflexivity. }
  assert (G : positions (fun k => nth k flags false) (length flags) = positions (fun k => String.eqb (good_or_bad flags k) "GOOD") (length flags)).
  { unfold positions. apply filter_ext_in. intros k Hk. unfold good_or_bad. destruct (nth k flags false); reflexivity. }
  rewrite B, G. f_equal.
  - destruct (existsb negb flags) eqn:E.
    + apply existsb_exists in E. destruct E as (b & Hb & E). apply In_nth with (d := false) in Hb. destruct Hb as (k & Hk & Eb).
      assert (I : In k (positions (fun k => String.eqb (good_or_bad flags k) "BAD") (length flags))).
      { apply positions_in. split; auto. unfold good_or_bad. rewrite Eb. destruct b; [discriminate|reflexivity]. }
      cbn [map]. revert I. generalize (positions (fun k => String.eqb (good_or_bad flags k) "BAD") (length flags)). intros [|? ?] I; [destruct I|reflexivity].
    + cbn [map]. clear B G. destruct (positions (fun k => String.eqb (good_or_bad flags k) "BAD") (length flags)) as [|k l] eqn:P; [reflexivity|]. exfalso.
      assert (I : In k (positions (fun k => String.eqb (good_or_bad flags k) "BAD") (length flags))) by (rewrite P; left; auto).
      apply positions_in in I. destruct I as [Hk I]. unfold good_or_bad in I.
      assert (X : existsb negb flags = true); [|congruence]. apply existsb_exists. exists (nth k flags false). split; [apply nth_In; auto|].
      destruct (nth k flags false); [discriminate|reflexivity].
  - destruct (existsb (fun b => b) flags) eqn:E.
    + apply existsb_exists in E. destruct E as (b & Hb & E). apply In_nth with (d := false) in Hb. destruct Hb as (k & Hk & Eb).
      assert (I : In k (positions (fun k => String.eqb (good_or_bad flags k) "GOOD") (length flags))).
      { apply positions_in. split; auto. unfold good_or_bad. rewrite Eb, E. reflexivity. }
      cbn [map]. revert I. generalize (positions (fun k => String.eqb (good_or_bad flags k) "GOOD") (length flags)). intros [|? ?] I; [destruct I|reflexivity].
    + cbn [map]. clear B G. destruct (positions (fun k => String.eqb (good_or_bad flags k) "GOOD") (length flags)) as [|k l] eqn:P; [reflexivity|]. exfalso.
      assert (I : In k (positions (fun k => String.eqb (good_or_bad flags k) "GOOD") (length flags))) by (rewrite P; left; auto).
      apply positions_in in I. destruct I as [Hk I]. unfold good_or_bad in I.
      assert (X : existsb (fun b => b) flags = true); [|congruence]. apply existsb_exists. exists (nth k flags false). split; [apply nth_In; auto|].
      destruct (nth k flags false); [reflexivity|discriminate].
Qed.
Lemma bad_good_by_legend flags t v r :
  by_legend (length flags) (good_or_bad flags) {| d_title := t; d_groups := bad_good flags; d_values := v; d_rings := r |}.
Proof.
  rewrite bad_good_grouped. apply grouped_by_legend.
  - destruct (existsb negb flags), (existsb (fun b => b) flags); simpl; repeat constructor; simpl; intuition discriminate.
  - intros l. rewrite in_app_iff.
    assert (X : forall b : bool, (exists k, k < length flags /\ nth k flags false = b) <-> existsb (fun x => Bool.eqb x b) flags = true).
    { intros b. rewrite existsb_exists. split.
      - intros (k & Hk & <-). exists (nth k flags false). split; [apply nth_In; auto|apply Bool.eqb_reflx].
      - intros (x & Hx & E). apply Bool.eqb_prop in E. subst x. apply In_nth with (d := false) in Hx. destruct Hx as (k & Hk & E). eauto. }
    assert (Ef : existsb (fun x => Bool.eqb x false) flags = existsb negb flags) by (clear; induction flags as [|[] l IH]; simpl; auto).
    assert (Et : existsb (fun x => Bool.eqb x true) flags = existsb (fun x => x) flags) by (clear; induction flags as [|[] l IH]; simpl; auto).
    split.
    + intros [H|H].
      * destruct (existsb negb flags) eqn:E; [|destruct H]. destruct H as [<-|[]]. destruct (proj2 (X false)) as (k & Hk & Ek); [congruence|].
        exists k. split; auto. unfold good_or_bad. rewrite Ek. auto.
      * destruct (existsb (fun b => b) flags) eqn:E; [|destruct H]. destruct H as [<-|[]]. destruct (proj2 (X true)) as (k & Hk & Ek); [congruence|].
        exists k. split; auto. unfold good_or_bad. rewrite Ek. auto.
    + intros (k & Hk & <-). unfold good_or_bad. destruct (nth k flags false) eqn:E.
      * right. rewrite <- Et, (proj1 (X true)); [left; auto|eauto].
      * left. rewrite <- Ef, (proj1 (X false)); [left; auto|eauto].
Qed.

Lemma insert_label_in a l b : In b (insert_label a l) <-> b = a \/ In b l.
Proof.
  induction l as [|c l IH]; simpl; [intuition congruence|]. destruct (String.compare a c) eqn:E; simpl.
  - apply String.compare_eq_iff in E. subst c. intuition congruence.
  - intuition congruence.
  - rewrite IH. intuition congruence.
Qed.
Lemma unique_labels_in l b : In b (unique_labels l) <-> In b l.
Proof. induction l as [|a l IH]; simpl; [tauto|]. rewrite insert_label_in, IH. intuition congruence. Qed.

Lemma ascii_compare_trans a b c : Ascii.compare a b = Lt -> Ascii.compare b c = Lt -> Ascii.compare a c = Lt.
Proof. unfold Ascii.compare. rewrite !N.compare_lt_iff. lia. Qed.
Lemma ascii_compare_eq a b : Ascii.compare a b = Eq -> a = b.
Proof. apply Ascii.compare_eq_iff. Qed.
Lemma ascii_compare_refl a : Ascii.compare a a = Eq.
Proof. unfold Ascii.compare. apply N.compare_refl. Qed.
Lemma compare_trans a b c : String.compare a b = Lt -> String.compare b c = Lt -> String.compare a c = Lt.
Proof.
  revert b c. induction a as [|x a IH]; intros [|y b] [|z c]; simpl; try discriminate; auto.
  destruct (Ascii.compare x y) eqn:E1; try discriminate; destruct (Ascii.compare y z) eqn:E2; try discriminate; intros H1 H2.
  - apply ascii_compare_eq in E1. apply ascii_compare_eq in E2. subst. rewrite ascii_compare_refl. eauto.
  - apply ascii_compare_eq in E1. subst. rewrite E2. auto.
  - apply ascii_compare_eq in E2. subst. rewrite E1. auto.
  - rewrite (ascii_compare_trans _ _ _ E1 E2). auto.
Qed.
Lemma compare_refl a : String.compare a a = Eq.
Proof. induction a as [|x a IH]; simpl; auto. rewrite ascii_compare_refl. auto. Qed.
Lemma insert_label_sorted a l : StronglySorted (fun x y => String.compare x y = Lt) l ->
  StronglySorted (fun x y => String.compare x y = Lt) (insert_label a l).
Proof.
  intros H. induction H as [|b l S IH F]; simpl; [repeat constructor|]. rewrite Forall_forall in F. destruct (String.compare a b) eqn:E.
  - constructor; auto. apply Forall_forall. auto.
  - constructor; [constructor; auto; apply Forall_forall; auto|]. constructor; auto. apply Forall_forall. intros x Hx. eapply compare_trans; eauto.
  - constructor; auto. apply Forall_forall. intros x Hx. apply insert_label_in in Hx. destruct Hx as [->|Hx]; auto.
    rewrite String.compare_antisym, E. auto.
Qed.
Lemma unique_labels_nodup l : NoDup (unique_labels l).
Proof.
  assert (S : StronglySorted (fun x y => String.compare x y = Lt) (unique_labels l)) by (induction l; simpl; [constructor|apply insert_label_sorted; auto]).
  induction S as [|a m S IH F]; constructor; auto. intros I. rewrite Forall_forall in F. specialize (F a I). rewrite compare_refl in F. discriminate.
Qed.
Lemma sources_by_legend n s : 0 < n -> length s = n -> exists pl, draw_sources n s = Ok pl /\ by_legend n (fun k => nth k s ""%string) pl.
Proof.
  intros H L. unfold draw_sources. destruct (Nat.eqb_spec n 0); [lia|]. destruct s as [|a s]; [simpl in L; lia|]. unfold mask_fits. rewrite L, Nat.eqb_refl.
  eexists. split; [reflexivity|]. apply (@grouped_by_legend n (fun k => nth k (a :: s) ""%string) (rev (unique_labels (a :: s)))).
  - apply NoDup_rev, unique_labels_nodup.
  - intros l. rewrite <- in_rev, unique_labels_in. split.
    + intros I. apply In_nth with (d := ""%string) in I. rewrite L in I. auto.
    + intros (k & Hk & <-). apply nth_In. lia.
Qed.

(* ------------------------------------------------------------------ the calls *)
Definition names_of (l : list gcall) : list string := flat_map (fun c => match c with Ok (f, _) => [f] | Err _ => [] end) l.
Definition succeeds (c : gcall) : Prop := exists f p, c = Ok (f, p).
Lemma draw_ok l : forall d, Forall succeeds l ->
  exists d', draw l d = (d', None) /\ (NoDup (names_of l) -> forall f p, In (Ok (f, p)) l -> d' f = Some p) /\
    forall f, ~ In f (names_of l) -> d' f = d f.
Proof.
  induction l as [|c l IH]; intros d F; simpl.
  - exists d. split; auto. split; auto. intros _ f p [].
  - inversion F as [|? ? (f & p & ->) F']; subst. destruct (IH (fun g => if String.eqb g f then Some p else d g) F') as (d' & E & A & B).
    exists d'. split; auto. simpl. split.
    + intros N g q [I|I].
      * injection I as <- <-. inversion N as [|? ? Nf N']; subst. rewrite B by auto. rewrite String.eqb_refl. auto.
      * inversion N; subst. auto.
    + intros g Hg. rewrite B by tauto. destruct (String.eqb_spec g f); [subst; exfalso; apply Hg; auto|auto].
Qed.
Lemma names_app l l' : names_of (l ++ l') = names_of l ++ names_of l'.
Proof. unfold names_of. apply flat_map_app. Qed.
Lemma values_coloured n f (a : list (list num)) j t : 0 < n -> length a = n ->
  exists pl, draw_scatter n (values f a j) t = Ok pl /\ d_title pl = t /\ coloured n (fun i => f a i j) pl.
Proof.
  intros H L. unfold draw_scatter. assert (X : length (values f a j) = n) by (unfold values; rewrite map_length, seq_length; auto).
  destruct (values f a j) eqn:E; [simpl in X; lia|]. rewrite X, Nat.eqb_refl. eexists. split; [reflexivity|]. split; auto. split; auto.
  cbn [d_values]. rewrite <- E. unfold values. rewrite L. auto.
Qed.
Lemma rings_total best which : (forall i, In i which -> i < length best) -> exists r, rings_at best which = Ok r.
Proof.
  induction which as [|i t IH]; intros H; simpl; eauto. destruct (nth_error best i) eqn:E.
  - destruct IH as [r ->]; eauto. intros k Hk. apply H. right. auto.
  - apply nth_error_None in E. specialize (H i (or_introl eq_refl)). lia.
Qed.
Lemma portfolio_total n p labels t : 0 < n -> length p = n ->
  draw_portfolio n p labels t = Ok {| d_title := t; d_groups := map (fun g => (Some (fst (snd g)), snd (snd g))) (drawn_groups p labels);
                                      d_values := None; d_rings := [] |}.
Proof.
  intros H L. unfold draw_portfolio. destruct (Nat.eqb_spec n 0); [lia|]. destruct p as [|a p]; [simpl in L; lia|].
  unfold mask_fits. rewrite L, Nat.eqb_refl. reflexivity.
Qed.
Lemma drawn_groups_index p labels g : In g (drawn_groups p labels) -> fst g < length labels.
Proof.
  unfold drawn_groups. rewrite in_flat_map. intros (i & Hi & H). apply in_seq in Hi. destruct (instances_with p i); [destruct H|].
  destruct H as [<-|[]]. simpl. lia.
Qed.

Lemma map_seq_nth A B (f : A -> B) d l : map (fun j => f (nth j l d)) (seq 0 (length l)) = map f l.
Proof.
  induction l as [|a l IH]; simpl; auto. f_equal. rewrite <- seq_shift, map_map. auto.
Qed.
Lemma flat_map_seq_nth A B (f : A -> list B) d l : flat_map (fun j => f (nth j l d)) (seq 0 (length l)) = flat_map f l.
Proof. rewrite !flat_map_concat_map. f_equal. apply map_seq_nth. Qed.
Lemma names_flat A (f : A -> list gcall) l : names_of (flat_map f l) = flat_map (fun a => names_of (f a)) l.
Proof. induction l as [|a l IH]; simpl; auto. rewrite names_app, IH. auto. Qed.
Lemma binary_by_legend n flags t : length flags = n -> by_legend n (good_or_bad flags) (draw_binary n flags t).
Proof.
  intros <-. unfold draw_binary. replace (mask_fits (length flags) flags) with true.
  - apply bad_good_by_legend.
  - unfold mask_fits. destruct flags; auto. symmetry. apply Nat.eqb_refl.
Qed.
Lemma good_bad_total n g flags t : length flags = n -> draw_good_bad_footprint n g flags t =
  Ok {| d_title := t; d_groups := bad_good flags; d_values := None; d_rings := if existsb (fun b => b) flags then rings_of g else [] |}.
Proof. intros <-. unfold draw_good_bad_footprint, mask_fits. destruct flags; auto. rewrite Nat.eqb_refl. auto. Qed.
Lemma flags_of_length b j : length (flags_of b j) = length b.
Proof. apply map_length. Qed.
Lemma footprint_total n best p labels : 0 < n -> length p = n -> length best = length labels ->
  exists r, rings_at best (map fst (drawn_groups p labels)) = Ok r /\ draw_portfolio_footprint n best p labels =
    Ok {| d_title := "Portfolio footprints"; d_groups := map (fun g => (Some (fst (snd g)), snd (snd g))) (drawn_groups p labels);
          d_values := None; d_rings := r |}.
Proof.
  intros H L B. destruct (@rings_total best (map fst (drawn_groups p labels))) as [r R].
  { intros i Hi. apply in_map_iff in Hi. destruct Hi as (g & <- & Hg). apply drawn_groups_index in Hg. lia. }
  exists r. split; auto. unfold draw_portfolio_footprint. rewrite portfolio_total by auto. rewrite R. auto.
Qed.

Section Calls.
  Variable log10p1 : num -> num.
  Variable use_sim : bool.
  Variable m : model.
  Variable w N : nat.
  Hypothesis F : fits m N w.
  Notation calls := (graph_calls log10p1 use_sim m w).

  Lemma feature_call_ok j l : nth_error (m_feat_labels m) j = Some l ->
    exists pl, feature_call m j = Ok (png "distribution_feature_" l, pl) /\ d_title pl = spaces l /\ coloured N (fun i => x_aux (m_x m) i j) pl.
  Proof.
    intros E. unfold feature_call. rewrite E. destruct F as (H & Hz & Hx & _). unfold n. rewrite Hz.
    destruct (@values_coloured N x_aux (m_x m) j (spaces l) H Hx) as (pl & -> & T & C). exists pl. auto.
  Qed.
  Lemma algorithm_calls_ok j l : nth_error (m_algo_labels m) j = Some l ->
    exists p1 p2 p3 p4 p5, algorithm_calls log10p1 use_sim m j =
      [Ok (png "distribution_performance_global_normalized_" l, p1); Ok (png "distribution_performance_individual_normalized_" l, p2);
       Ok (png "binary_performance_" l, p3); Ok (png "binary_svm_" l, p4); Ok (png "footprint_" l, p5)] /\
      (d_title p1 = spaces l /\ coloured N (fun i => y_glb log10p1 (m_y_raw m) i j) p1) /\
      (d_title p2 = spaces l /\ coloured N (fun i => y_ind (m_y_raw m) i j) p2) /\
      (d_title p3 = spaces l /\ by_legend N (good_or_bad (flags_of (m_y_bin m) j)) p3) /\
      (d_title p4 = spaces l /\ by_legend N (good_or_bad (flags_of (m_y_hat m) j)) p4) /\
      (d_title p5 = append (spaces l) " Footprint" /\ by_legend N (good_or_bad (flags_of (if use_sim then m_y_hat m else m_y_bin m) j)) p5 /\
       d_rings p5 = if existsb (fun b => b) (flags_of (if use_sim then m_y_hat m else m_y_bin m) j) then rings_of (nth j (m_good m) None) else []).
  Proof.
    intros E. unfold algorithm_calls. rewrite E. destruct F as (H & Hz & _ & Hy & Hb & Hh & _ & _ & _ & _ & _ & _ & Ha & Hg & _). unfold n. rewrite Hz.
    assert (Hj : j < length (m_good m)) by (rewrite Hg, <- Ha; apply nth_error_Some; congruence).
    destruct (@values_coloured N (y_glb log10p1) (m_y_raw m) j (spaces l) H Hy) as (p1 & -> & T1 & C1).
    destruct (@values_coloured N y_ind (m_y_raw m) j (spaces l) H Hy) as (p2 & -> & T2 & C2).
    rewrite (nth_error_nth' (m_good m) None Hj). unfold y_foot. change DrawModel.flags_at with flags_of.
    assert (Lf : length (flags_of (if use_sim then m_y_hat m else m_y_bin m) j) = N) by (rewrite flags_of_length; destruct use_sim; auto).
    rewrite good_bad_total by auto. do 5 eexists. split; [reflexivity|]. split; [auto|]. split; [auto|].
    split; [split; auto; apply binary_by_legend; rewrite flags_of_length; auto|].
    split; [split; auto; apply binary_by_legend; rewrite flags_of_length; auto|].
    split; auto. split; auto. rewrite <- Lf. apply bad_good_by_legend.
  Qed.
  Lemma good_share_ok t : exists pl, draw_scatter N (share_good m) t = Ok pl /\ d_title pl = t /\
    coloured N (fun i => ndiv0 (nth i (m_num_good_algos m) None) (Some (inject_Z (Z.of_nat (m_nalgos m))))) pl.
  Proof.
    destruct F as (H & _ & _ & _ & _ & _ & _ & _ & _ & Hn & _). unfold draw_scatter.
    assert (X : length (share_good m) = N) by (unfold share_good; rewrite map_length; auto).
    destruct (share_good m) eqn:E; [simpl in X; lia|]. rewrite X, Nat.eqb_refl. eexists. split; [reflexivity|]. split; auto. split; auto.
    cbn [d_values]. rewrite <- E. unfold share_good. rewrite <- Hn.
    rewrite (map_seq_nth (fun v => ndiv0 v (Some (inject_Z (Z.of_nat (m_nalgos m))))) None). auto.
  Qed.
  Lemma calls_succeed : Forall succeeds calls.
  Proof.
    pose proof F as (H & Hz & Hx & Hy & Hb & Hh & Hp & Hs & Hbe & Hn & Hso & Hf & Ha & Hg & Hbs).
    unfold graph_calls. rewrite !Forall_app. split; [|split; [|split; [|split]]].
    - apply Forall_forall. intros c Hc. apply in_map_iff in Hc. destruct Hc as (j & <- & Hj). apply in_seq in Hj.
      destruct (nth_error (m_feat_labels m) j) as [l|] eqn:E; [|apply nth_error_None in E; lia].
      destruct (feature_call_ok _ E) as (pl & -> & _). red. eauto.
    - apply Forall_forall. intros c Hc. apply in_flat_map in Hc. destruct Hc as (j & Hj & Hc). apply in_seq in Hj.
      destruct (nth_error (m_algo_labels m) j) as [l|] eqn:E; [|apply nth_error_None in E; lia].
      destruct (algorithm_calls_ok _ E) as (p1 & p2 & p3 & p4 & p5 & Ec & _). rewrite Ec in Hc. unfold succeeds.
      simpl in Hc. intuition (subst; eauto).
    - unfold n. rewrite Hz. destruct (good_share_ok "Percentage of good algorithms") as (pl & -> & _). rewrite !portfolio_total by auto.
      repeat constructor; red; do 2 eexists; reflexivity.
    - unfold n. rewrite Hz. destruct (m_s m) as [s|] eqn:Es; constructor; auto. destruct (sources_by_legend s H (Hso s eq_refl)) as (pl & -> & _). red. do 2 eexists; reflexivity.
    - constructor; auto. unfold n. rewrite Hz. destruct (@footprint_total N (m_best m) (p_foot use_sim m) (m_algo_labels m) H) as (r & _ & ->).
      + unfold p_foot. destruct use_sim; auto.
      + congruence.
      + red. do 2 eexists; reflexivity.
  Qed.
  Lemma calls_names : names_of calls = graph_names m.
  Proof.
    pose proof F as (H & Hz & Hx & Hy & Hb & Hh & Hp & Hs & Hbe & Hn & Hso & Hf & Ha & Hg & Hbs).
    unfold graph_calls, graph_names. rewrite !names_app. f_equal; [|f_equal; [|f_equal; [|f_equal]]].
    - rewrite <- (map_seq_nth (fun l => append "distribution_feature_" (append l ".png")) ""%string). rewrite Hf.
      unfold names_of. rewrite flat_map_concat_map, map_map.
      assert (X : forall l, (forall j, In j l -> j < w) ->
        concat (map (fun x => match feature_call m x with Ok (f, _) => [f] | Err _ => [] end) l) =
        map (fun j => append "distribution_feature_" (append (nth j (m_feat_labels m) ""%string) ".png")) l).
      { induction l as [|j l IH]; intros Hl; auto. cbn [map concat]. rewrite IH by (intros; apply Hl; right; auto).
        assert (Hj : j < w) by (apply Hl; left; auto).
        destruct (nth_error (m_feat_labels m) j) as [a|] eqn:E; [|apply nth_error_None in E; lia].
        destruct (feature_call_ok _ E) as (pl & -> & _). rewrite (nth_error_nth _ _ _ E). reflexivity. }
      apply X. intros j Hj. apply in_seq in Hj. lia.
    - rewrite names_flat. rewrite <- (flat_map_seq_nth _ ""%string (m_algo_labels m)). rewrite Ha.
      rewrite !flat_map_concat_map. f_equal. apply map_ext_in. intros j Hj. apply in_seq in Hj.
      destruct (nth_error (m_algo_labels m) j) as [l|] eqn:E; [|apply nth_error_None in E; lia].
      destruct (algorithm_calls_ok _ E) as (p1 & p2 & p3 & p4 & p5 & -> & _). rewrite (nth_error_nth _ _ _ E). reflexivity.
    - unfold n. rewrite Hz. destruct (good_share_ok "Percentage of good algorithms") as (pl & -> & _). rewrite !portfolio_total by auto. reflexivity.
    - unfold n. rewrite Hz. destruct (m_s m) as [s|] eqn:Es; auto. destruct (sources_by_legend s H (Hso s eq_refl)) as (pl & -> & _). reflexivity.
    - unfold n. rewrite Hz. destruct (@footprint_total N (m_best m) (p_foot use_sim m) (m_algo_labels m) H) as (r & _ & ->).
      + unfold p_foot. destruct use_sim; auto.
      + congruence.
      + reflexivity.
  Qed.
End Calls.
