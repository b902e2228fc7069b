(** Lemmas about the CLOISTER model. *)
From Coq Require Import Lqa.
From Verif Require Import BaseLemmas Mat CloisterModel CloisterSpec PilotProofs SiftedProofs.
Set Implicit Arguments.
Open Scope nat_scope.
Open Scope list_scope.

(* ------------------------------------------------------------------ extremes *)
Lemma fold_min l : forall a, (forall v, In v (a :: l) -> v <> None) -> is_min (a :: l) (fold_left nmin2 l a).
Proof.
  induction l as [|b l IH]; intros a H.
  - destruct a as [q|]; [|exfalso; apply (H None); simpl; auto]. exists q. split; auto. split; [left; auto|].
    intros v [<-|[]]. exists q. split; auto. lra.
  - simpl. destruct a as [q|]; [|exfalso; apply (H None); simpl; auto].
    destruct b as [r|]; [|exfalso; apply (H None); simpl; auto].
    destruct (IH (nmin2 (Some q) (Some r))) as (m & Em & Im & Lm).
    { intros v [<-|Hv]; [discriminate|]. apply H. right; right; auto. }
    exists m. split; auto. simpl in Im. split.
    + destruct Im as [Im|Im]; [|right; right; exact Im].
      revert Im; cbn [nmin2 nmax2]; destruct (Qle_bool q r); intro Im; [left|right; left]; exact Im.
    + intros v Hv. destruct (Lm (nmin2 (Some q) (Some r)) (or_introl eq_refl)) as (w & Ew & Lw). simpl in Ew. injection Ew as <-.
      destruct (Qle_bool q r) eqn:E.
      * apply Qle_bool_iff in E. destruct Hv as [<-|[<-|Hv]]; [exists q; split; auto; lra|exists r; split; auto; lra|]. apply Lm. right; auto.
      * assert (r < q)%Q by (apply Qnot_le_lt; intro X; apply Qle_bool_iff in X; congruence).
        destruct Hv as [<-|[<-|Hv]]; [exists q; split; auto; lra|exists r; split; auto; lra|]. apply Lm. right; auto.
Qed.
Lemma fold_max l : forall a, (forall v, In v (a :: l) -> v <> None) -> is_max (a :: l) (fold_left nmax2 l a).
Proof.
  induction l as [|b l IH]; intros a H.
  - destruct a as [q|]; [|exfalso; apply (H None); simpl; auto]. exists q. split; auto. split; [left; auto|].
    intros v [<-|[]]. exists q. split; auto. lra.
  - simpl. destruct a as [q|]; [|exfalso; apply (H None); simpl; auto].
    destruct b as [r|]; [|exfalso; apply (H None); simpl; auto].
    destruct (IH (nmax2 (Some q) (Some r))) as (m & Em & Im & Lm).
    { intros v [<-|Hv]; [discriminate|]. apply H. right; right; auto. }
    exists m. split; auto. simpl in Im. split.
    + destruct Im as [Im|Im]; [|right; right; exact Im].
      revert Im; cbn [nmin2 nmax2]; destruct (Qle_bool q r); intro Im; [right; left|left]; exact Im.
    + intros v Hv. destruct (Lm (nmax2 (Some q) (Some r)) (or_introl eq_refl)) as (w & Ew & Lw). simpl in Ew. injection Ew as <-.
      destruct (Qle_bool q r) eqn:E.
      * apply Qle_bool_iff in E. destruct Hv as [<-|[<-|Hv]]; [exists q; split; auto; lra|exists r; split; auto; lra|]. apply Lm. right; auto.
      * assert (r < q)%Q by (apply Qnot_le_lt; intro X; apply Qle_bool_iff in X; congruence).
        destruct Hv as [<-|[<-|Hv]]; [exists q; split; auto; lra|exists r; split; auto; lra|]. apply Lm. right; auto.
Qed.
Lemma col_min_spec l : l <> [] -> ~ In None l -> is_min l (col_min l).
Proof. destruct l as [|a l]; [congruence|]. intros _ H. apply fold_min. intros v Hv ->. auto. Qed.
Lemma col_max_spec l : l <> [] -> ~ In None l -> is_max l (col_max l).
Proof. destruct l as [|a l]; [congruence|]. intros _ H. apply fold_max. intros v Hv ->. auto. Qed.

(* ------------------------------------------------------------------ bits *)
Lemma bits_exist n : forall b : nat -> bool, exists i, i < 2 ^ n /\ forall j, j < n -> Nat.testbit i j = b j.
Proof.
  induction n as [|n IH]; intro b.
  - exists 0. split; [simpl; lia|]. intros; lia.
  - destruct (IH (fun j => b (S j))) as (i & Hi & E). exists (2 * i + Nat.b2n (b 0)). split.
    + simpl. destruct (b 0); simpl; lia.
    + intros [|j] Hj.
      * apply Nat.testbit_0_r.
      * rewrite Nat.testbit_succ_r. apply E. lia.
Qed.
Lemma bits_unique n i k : i < 2 ^ n -> k < 2 ^ n -> (forall j, j < n -> Nat.testbit i j = Nat.testbit k j) -> i = k.
Proof.
  intros Hi Hk H. apply Nat.bits_inj. intro j. destruct (Nat.lt_ge_cases j n) as [Hj|Hj]; auto.
  assert (Z : forall a, a < 2 ^ n -> Nat.testbit a j = false).
  { intros a Ha. destruct (Nat.eq_dec a 0) as [->|Hn]; [apply Nat.bits_0|]. apply Nat.bits_above_log2.
    apply Nat.lt_le_trans with n; auto. apply Nat.log2_lt_pow2; lia. }
  rewrite !Z; auto.
Qed.
Lemma rev_binary dec width : rev (binary_repr dec width) = map (Nat.testbit dec) (seq 0 width).
Proof.
  unfold binary_repr. rewrite <- map_rev.
  assert (R : rev (seq 0 width) = map (fun p => width - 1 - p) (seq 0 width)).
  { apply (@list_eq_nth _ 0); [rewrite rev_length, map_length; auto|]. intros i Hi. rewrite rev_length, seq_length in Hi.
    rewrite rev_nth, seq_length, seq_nth by (rewrite ?seq_length; lia).
    rewrite (nth_indep _ 0 (width - 1 - 0)) by (rewrite map_length, seq_length; auto).
    rewrite (map_nth (fun p => width - 1 - p)), seq_nth by auto. lia. }
  rewrite R, map_map. apply map_ext_in. intros p Hp. apply in_seq in Hp. f_equal. lia.
Qed.
Lemma flat_pairs A (f g : nat -> A) n s j (b : bool) d : j < n ->
  nth ((if b then 1 else 0) + 2 * j) (flat_map (fun j => [f j; g j]) (seq s n)) d = if b then g (s + j) else f (s + j).
Proof.
  revert s j. induction n as [|n IH]; intros s j Hj; [lia|]. destruct j as [|j].
  - simpl. rewrite Nat.add_0_r. destruct b; auto.
  - cbn [seq flat_map app]. replace ((if b then 1 else 0) + 2 * S j) with (S (S ((if b then 1 else 0) + 2 * j))) by lia.
    cbn [nth]. rewrite IH by lia. replace (S s + j) with (s + S j) by lia. auto.
Qed.
Lemma edge_corners x n : x_edge x n = map (fun i => corner x n (Nat.testbit i)) (seq 0 (2 ^ n)).
Proof.
  unfold x_edge, decimal_to_binary_matrix, corner. rewrite map_map. apply map_ext. intro dec. rewrite rev_binary.
  assert (G : forall l, (forall j, In j l -> j < n) ->
    map (fun bj : bool * nat => nth ((if fst bj : bool then 1 else 0) + 2 * snd bj)
       (flat_map (fun j => [col_min (column None x j); col_max (column None x j)]) (seq 0 n)) None)
      (combine (map (Nat.testbit dec) l) l) =
    map (fun j => if Nat.testbit dec j then col_max (column None x j) else col_min (column None x j)) l).
  { induction l as [|j l IH]; intro H; auto. cbn [map combine fst snd]. f_equal.
    - rewrite flat_pairs by (apply H; left; auto). auto.
    - apply IH. intros k Hk. apply H. right; auto. }
  apply G. intros j Hj. apply in_seq in Hj. lia.
Qed.
Lemma corner_ext x n b c : (forall j, j < n -> b j = c j) -> corner x n b = corner x n c.
Proof. intro H. unfold corner. apply map_ext_in. intros j Hj. apply in_seq in Hj. rewrite H by lia. auto. Qed.
Lemma corner_in x n b : In (corner x n b) (x_edge x n).
Proof.
  destruct (bits_exist n b) as (i & Hi & E). rewrite edge_corners. apply in_map_iff. exists i. split; [apply corner_ext; auto|].
  apply in_seq. lia.
Qed.

(* ------------------------------------------------------------------ correlation *)
Lemma sequence_ok E A (l : list (res E A)) r : sequence l = Ok r ->
  length r = length l /\ forall i a, nth_error r i = Some a <-> nth_error l i = Some (Ok a).
Proof.
  revert r. induction l as [|[a|e] t IH]; intros r H; simpl in H; [|destruct (sequence t) as [r'|e]; [|discriminate]|discriminate].
  - injection H as <-. split; auto. intros [|i] a; split; discriminate.
  - injection H as <-. destruct (IH r' eq_refl) as [L N]. split; [simpl; auto|].
    intros [|i] b; simpl; auto. split; intro X; injection X as <-; auto.
Qed.
Lemma correlation_entry pearson x n p_val rho j k : compute_correlation pearson x n p_val = Ok rho -> j < n -> k < n ->
  rho_entry pearson x p_val j k = Ok (nth k (nth j rho []) None).
Proof.
  intros H Hj Hk. unfold compute_correlation in H. destruct (@sequence_ok _ _ _ _ H) as [L N]. rewrite map_length, seq_length in L.
  destruct (nth_error rho j) as [row|] eqn:Er; [|apply nth_error_None in Er; lia].
  assert (Er' := Er). apply N in Er. rewrite nth_error_map, (nth_error_nth' (seq 0 n) 0), seq_nth in Er by (rewrite ?seq_length; auto).
  cbn [option_map plus] in Er. injection Er as Er. destruct (@sequence_ok _ _ _ _ Er) as [L2 N2]. rewrite map_length, seq_length in L2.
  destruct (nth_error row k) as [v|] eqn:Ev; [|apply nth_error_None in Ev; lia].
  assert (Ev' := Ev). apply N2 in Ev. rewrite nth_error_map, (nth_error_nth' (seq 0 n) 0), seq_nth in Ev by (rewrite ?seq_length; auto).
  cbn [option_map plus] in Ev. injection Ev as Ev. rewrite Ev. rewrite (nth_error_nth _ _ [] Er'). f_equal. symmetry. exact (nth_error_nth _ _ None Ev').
Qed.
Lemma removed_pair rho c n v : removed rho c n v = true <->
  exists j k, j < k < n /\
    let r := nth k (nth j rho []) None in
    let s := sign_eq (nth j v None) (nth k v None) in
    (nlt (Some c) r && negb s) || (nlt r (Some (- c)%Q) && s) = true.
Proof.
  unfold removed. rewrite existsb_exists. split.
  - intros (j & Hj & H). apply existsb_exists in H. destruct H as (k & Hk & H). apply in_seq in Hj. apply in_seq in Hk.
    exists j, k. split; [lia|exact H].
  - intros (j & k & Hjk & H). exists j. split; [apply in_seq; lia|]. apply existsb_exists. exists k.
    split; [apply in_seq; lia|exact H].
Qed.

(* ------------------------------------------------------------------ convexity *)
Lemma same_refl p : same_point p p.
Proof. induction p; constructor; auto; reflexivity. Qed.
Lemma same_sym p q : same_point p q -> same_point q p.
Proof. induction 1; constructor; auto; symmetry; auto. Qed.
Lemma same_trans p q r : same_point p q -> same_point q r -> same_point p r.
Proof. intro H. revert r. induction H; intros r' H'; inversion H'; subst; constructor; [etransitivity; eauto|]. apply IHForall2. auto. Qed.
Lemma conv_same (s : list Q -> Prop) p q : conv s p -> same_point p q -> conv s q.
Proof.
  intros H E. destruct H.
  - eapply conv_point; [eassumption|]. eapply same_trans; eassumption.
  - eapply (@conv_mix s t p q0); try assumption. eapply same_trans; eassumption.
Qed.
Lemma conv_trans (s t : list Q -> Prop) p : conv s p -> (forall q, s q -> conv t q) -> conv t p.
Proof.
  intros H HS. induction H.
  - eapply conv_same; [apply HS|]; eassumption.
  - eapply (@conv_mix t t0 p q); assumption.
Qed.
Lemma conv_image (s s' : list Q -> Prop) (f : list Q -> list Q) p :
  (forall q, s q -> s' (f q)) -> (forall a b, same_point a b -> same_point (f a) (f b)) ->
  (forall t a b, length a = length b -> same_point (f (mix t a b)) (mix t (f a) (f b))) ->
  (forall a b, length a = length b -> length (f a) = length (f b)) ->
  conv s p -> conv s' (f p).
Proof.
  intros H1 H2 H3 H4 H. induction H.
  - eapply conv_point; [apply H1; eauto|]. apply H2. auto.
  - apply (@conv_mix s' t (f p) (f q)); auto.
    eapply same_trans; [apply same_sym, H3; auto|]. apply H2. auto.
Qed.
Lemma mix_self t p q : same_point p q -> same_point (mix t p q) p.
Proof. induction 1; simpl; constructor; auto. rewrite H. ring. Qed.
Lemma mix_length t p q : length p = length q -> length (mix t p q) = length p.
Proof. revert q. induction p; intros [|b q] H; simpl in *; auto; lia. Qed.

(** the corners of a box *)
Fixpoint choose (bs : list bool) (lo hi : list Q) : list Q :=
  match bs, lo, hi with b :: bs', l :: lo', h :: hi' => (if b then h else l) :: choose bs' lo' hi' | _, _, _ => [] end.
Lemma box_conv : forall lo hi p, length lo = length p -> length hi = length p ->
  (forall j, j < length p -> (nth j lo 0 <= nth j p 0)%Q /\ (nth j p 0 <= nth j hi 0)%Q) ->
  conv (fun q => exists bs, length bs = length p /\ q = choose bs lo hi) p.
Proof.
  intros lo hi p. revert lo hi. induction p as [|r p IH]; intros lo hi Ll Lh H.
  - apply conv_point with []; [|apply same_refl]. exists []. auto.
  - destruct lo as [|l lo]; [discriminate|]. destruct hi as [|h hi]; [discriminate|].
    injection Ll as Ll. injection Lh as Lh.
    specialize (IH lo hi Ll Lh (fun j Hj => H (S j) ltac:(simpl; lia))).
    destruct (H 0 ltac:(simpl; lia)) as [H1 H2]. simpl in H1, H2.
    assert (B : forall b : bool, conv (fun q => exists bs, length bs = length (r :: p) /\ q = choose bs (l :: lo) (h :: hi)) ((if b then h else l) :: p)).
    { intro b. apply (@conv_image _ _ (cons (if b then h else l)) p) with (5 := IH).
      - intros q (bs & Lb & ->). exists (b :: bs). simpl. auto.
      - intros u v E. constructor; auto. reflexivity.
      - intros t u v E. simpl. constructor; [ring|apply same_refl].
      - simpl. auto. }
    pose proof (B true) as Bh. pose proof (B false) as Bl. cbv iota in Bh, Bl.
    destruct (Qlt_le_dec l h) as [D|D].
    + apply (@conv_mix _ ((r - l) / (h - l))%Q (h :: p) (l :: p)); auto.
      * apply Qle_shift_div_l; lra.
      * apply Qle_shift_div_r; lra.
      * simpl. constructor; [field; lra|]. apply mix_self. apply same_refl.
    + apply conv_same with (l :: p); auto. constructor; [lra|apply same_refl].
Qed.

(* ------------------------------------------------------------------ projections *)
Lemma qdot_same r p q : same_point p q -> (qdot r p == qdot r q)%Q.
Proof. intro H. revert r. induction H; intros [|a r]; simpl; try reflexivity. rewrite H, IHForall2. reflexivity. Qed.
Lemma qdot_mix r t p q : length p = length q -> (qdot r (mix t p q) == t * qdot r p + (1 - t) * qdot r q)%Q.
Proof.
  revert r q. induction p as [|a p IH]; intros [|c r] [|b q] L; simpl in *; try lia; try ring.
  rewrite IH by lia. ring.
Qed.
Definition qproj (a : list (list Q)) (p : list Q) : list Q := map (fun r => qdot r p) a.
Lemma qproj_mulv a p : mulv (map (map Some) a) (map Some p) = map Some (qproj a p).
Proof.
  unfold mulv, qproj. rewrite !map_map. apply map_ext. intro r.
  exact (dot_some r p).
Qed.
Lemma qproj_image (s s' : list Q -> Prop) a p : (forall q, s q -> s' (qproj a q)) -> conv s p -> conv s' (qproj a p).
Proof.
  intros H. apply conv_image; auto.
  - intros u v E. unfold qproj. clear H. induction a; simpl; constructor; auto. apply qdot_same; auto.
  - intros t u v E. unfold qproj. clear H. induction a; simpl; constructor; auto. apply qdot_mix; auto.
  - intros. unfold qproj. rewrite !map_length. auto.
Qed.

(* ------------------------------------------------------------------ signs and removal *)
Lemma sgn_cases p : (0 < p /\ Z.sgn (Qnum p) = 1%Z)%Q \/ (p < 0 /\ Z.sgn (Qnum p) = (-1)%Z)%Q \/ (p == 0 /\ Z.sgn (Qnum p) = 0%Z)%Q.
Proof.
  destruct p as [[|n|n] d]; simpl.
  - right; right. split; reflexivity.
  - left. split; reflexivity.
  - right; left. split; reflexivity.
Qed.
Lemma sign_eq_iff a b : sign_eq a b = true <-> same_sign a b.
Proof.
  unfold sign_eq, same_sign, nsign. destruct a as [p|]; [|split; [discriminate|intros (p & q & H & _); discriminate]].
  destruct b as [q|]; [|split; [discriminate|intros (p' & q & _ & H & _); discriminate]].
  destruct (sgn_cases p) as [[Hp ->]|[[Hp ->]|[Hp ->]]]; destruct (sgn_cases q) as [[Hq ->]|[[Hq ->]|[Hq ->]]]; simpl;
    (split; [intro E; try discriminate E; exists p, q; repeat split; auto
            |intros (p' & q' & E1 & E2 & H); injection E1 as <-; injection E2 as <-; try reflexivity; exfalso; destruct H as [[]|[[]|[]]]; lra]).
Qed.
Lemma nlt_some a b : nlt (Some a) (Some b) = true <-> (a < b)%Q.
Proof.
  unfold nlt. rewrite negb_true_iff. split; intro H.
  - apply Qnot_le_lt. intro X. apply Qle_bool_iff in X. congruence.
  - destruct (Qle_bool b a) eqn:E; auto. apply Qle_bool_iff in E. lra.
Qed.
Lemma nlt_val a b : nlt (Some a) b = true <-> exists q, b = Some q /\ (a < q)%Q.
Proof.
  destruct b as [q|]; [rewrite nlt_some|]; split.
  - eauto.
  - intros (q' & E & H). injection E as <-. auto.
  - discriminate.
  - intros (q' & E & H). discriminate.
Qed.
Lemma nlt_val_l a b : nlt a (Some b) = true <-> exists q, a = Some q /\ (q < b)%Q.
Proof.
  destruct a as [q|]; [rewrite nlt_some|]; split.
  - eauto.
  - intros (q' & E & H). injection E as <-. auto.
  - discriminate.
  - intros (q' & E & H). discriminate.
Qed.
Lemma removed_iff pearson x n p_val c rho v : compute_correlation pearson x n p_val = Ok rho -> (0 <= c)%Q ->
  (removed rho c n v = true <-> contradicts pearson x n p_val c v).
Proof.
  intros H Hc. rewrite removed_pair. unfold contradicts. split.
  - intros (j & k & Hjk & E). cbv zeta in E.
    pose proof (@correlation_entry pearson x n p_val rho j k H ltac:(lia) ltac:(lia)) as R. unfold rho_entry in R.
    destruct (Nat.eqb_spec j k) as [|_]; [lia|].
    destruct (pearson (column None x j) (column None x k)) as [[r p]|e] eqn:P; [|discriminate].
    apply (f_equal (fun z => match z with Ok v => v | Err _ => None end)) in R. cbv beta iota in R. rewrite <- R in E.
    assert (Z : nlt (Some p_val) p = false).
    { destruct (nlt (Some p_val) p); auto. exfalso. apply orb_true_iff in E.
      destruct E as [E|E]; apply andb_true_iff in E; destruct E as [E _]; apply nlt_some in E; lra. }
    rewrite Z in E. apply orb_true_iff in E.
    assert (S : forall q, r = Some q -> significant pearson x p_val j k q).
    { intros q ->. exists p. split; auto. intro X. apply nlt_val in X. congruence. }
    destruct E as [E|E]; apply andb_true_iff in E; destruct E as [E1 E2].
    + apply nlt_val in E1. destruct E1 as (q & -> & Hq). exists j, k, q. split; auto. split; auto. left. split; auto.
      intro X. apply sign_eq_iff in X. rewrite X in E2. discriminate.
    + apply nlt_val_l in E1. destruct E1 as (q & -> & Hq). exists j, k, q. split; auto. split; auto. right. split; auto.
      apply sign_eq_iff. auto.
  - intros (j & k & r & Hjk & (p & P & S) & E). exists j, k. split; auto. cbv zeta.
    pose proof (@correlation_entry pearson x n p_val rho j k H ltac:(lia) ltac:(lia)) as R. unfold rho_entry in R.
    destruct (Nat.eqb_spec j k) as [|_]; [lia|]. rewrite P in R.
    assert (Z : nlt (Some p_val) p = false).
    { destruct (nlt (Some p_val) p) eqn:X; auto. apply nlt_val in X. contradiction. }
    rewrite Z in R. apply (f_equal (fun z => match z with Ok v => v | Err _ => None end)) in R. cbv beta iota in R. rewrite <- R. apply orb_true_iff. destruct E as [[E1 E2]|[E1 E2]].
    + left. apply andb_true_iff. split; [apply nlt_some; auto|]. apply negb_true_iff. destruct (sign_eq _ _) eqn:X; auto.
      apply sign_eq_iff in X. contradiction.
    + right. apply andb_true_iff. split; [apply nlt_some; auto|apply sign_eq_iff; auto].
Qed.

(* ------------------------------------------------------------------ the stage *)
Lemma cloister_inv pearson hull x a n p_val c ze zc : cloister pearson hull x a n p_val c = Ok (ze, zc) ->
  x <> [] /\ exists rho, compute_correlation pearson x n p_val = Ok rho /\
    ze = compute_convex_hull hull (map (mulv a) (x_edge x n)) /\
    let k := compute_convex_hull hull (map (mulv a) (select (map negb (map (removed rho c n) (x_edge x n))) (x_edge x n))) in
    zc = match k with [] => ze | _ => k end.
Proof.
  unfold cloister. intro H. destruct (compute_correlation pearson x n p_val) as [rho|e] eqn:R; [|discriminate].
  destruct x as [|r x]; [discriminate|]. injection H as E1 E2. split; [congruence|]. exists rho. subst. auto.
Qed.
Lemma edge_in x n v : In v (x_edge x n) <-> exists b, v = corner x n b.
Proof.
  rewrite edge_corners, in_map_iff. split.
  - intros (i & <- & _). eauto.
  - intros (b & ->). pose proof (corner_in x n b) as H. rewrite edge_corners, in_map_iff in H. exact H.
Qed.
Lemma kept_in f (l : list (list num)) v : In v (select (map negb (map f l)) l) <-> In v l /\ f v = false.
Proof.
  induction l as [|w l IH]; simpl; [tauto|]. destruct (f w) eqn:E; simpl; rewrite IH; split.
  - tauto.
  - intros [[<-|H] F]; [congruence|auto].
  - intros [<-|[H F]]; auto.
  - tauto.
Qed.
Lemma hull_points (hull : list (list num) -> option (list nat)) pts z : hull_correct hull -> In z (compute_convex_hull hull pts) -> In z pts.
Proof.
  intros HC H. unfold compute_convex_hull in H. destruct (hull pts) as [vs|] eqn:E; [|contradiction].
  apply in_map_iff in H. destruct H as (i & <- & Hi). apply nth_In. apply (HC _ _ E). auto.
Qed.
Lemma hull_contains (hull : list (list num) -> option (list nat)) pts p : hull_correct hull -> hull pts <> None -> In (map Some p) pts ->
  in_hull (compute_convex_hull hull pts) p.
Proof.
  intros HC Hn H. unfold compute_convex_hull. destruct (hull pts) as [vs|] eqn:E; [|congruence]. apply (HC _ _ E). auto.
Qed.
Lemma in_hull_sub (s t : list (list num)) p : (forall q, In (map Some q) s -> in_hull t q) -> in_hull s p -> in_hull t p.
Proof. intros H C. eapply conv_trans; [exact C|exact H]. Qed.

(* ------------------------------------------------------------------ complete data *)
Lemma no_none (l : list num) : ~ In None l -> exists q, l = map Some q.
Proof.
  induction l as [|[v|] l IH]; intro H; [exists []; auto| |exfalso; apply H; left; auto].
  destruct IH as [q ->]; [intro X; apply H; right; auto|]. exists (v :: q). auto.
Qed.
Lemma complete_column x n j : complete x n -> j < n -> column None x j <> [] /\ ~ In None (column None x j).
Proof.
  intros [Hx H] Hj. split; [destruct x; [congruence|discriminate]|].
  intro X. unfold column in X. apply in_map_iff in X. destruct X as (row & E & Hr). destruct (H row Hr) as [L N].
  apply N. rewrite <- E. apply nth_In. unfold num in *. lia.
Qed.
Lemma corner_nth x n b j : j < n -> nth j (corner x n b) None = if b j then col_max (column None x j) else col_min (column None x j).
Proof.
  intro Hj. unfold corner.
  rewrite (nth_indep _ None ((fun j => if b j then col_max (column None x j) else col_min (column None x j)) 0)) by (rewrite map_length, seq_length; auto).
  rewrite (map_nth (fun j => if b j then col_max (column None x j) else col_min (column None x j))), seq_nth by auto. auto.
Qed.
Lemma corner_length x n b : length (corner x n b) = n.
Proof. unfold corner. rewrite map_length, seq_length. auto. Qed.
Lemma extremes x n j : complete x n -> j < n ->
  exists lo hi, col_min (column None x j) = Some lo /\ col_max (column None x j) = Some hi /\ (lo <= hi)%Q /\
    forall row q, In row x -> nth j row None = Some q -> (lo <= q)%Q /\ (q <= hi)%Q.
Proof.
  intros C Hj. destruct (complete_column C Hj) as [Hn Hf].
  destruct (col_min_spec Hn Hf) as (lo & El & _ & Al). destruct (col_max_spec Hn Hf) as (hi & Eh & Ih & Ah).
  exists lo, hi. split; auto. split; auto. split.
  - destruct (Al _ Ih) as (w & Ew & Lw). rewrite Eh in Ew. injection Ew as <-. auto.
  - intros row q Hr Eq. assert (X : In (Some q) (column None x j)) by (unfold column; apply in_map_iff; eauto).
    split; [destruct (Al _ X) as (w & Ew & Lw)|destruct (Ah _ X) as (w & Ew & Lw)]; injection Ew as <-; auto.
Qed.
Lemma corner_finite x n b : complete x n -> exists q, corner x n b = map Some q.
Proof.
  intro C. apply no_none. intro X. unfold corner in X. apply in_map_iff in X. destruct X as (j & E & Hj). apply in_seq in Hj.
  destruct (@extremes x n j C ltac:(lia)) as (lo & hi & El & Eh & _). destruct (b j); congruence.
Qed.
Lemma mulv_finite (a : list (list num)) (p : list num) : (forall r, In r a -> ~ In None r) -> ~ In None p -> exists aq pq,
  a = map (map Some) aq /\ p = map Some pq /\ mulv a p = map Some (qproj aq pq).
Proof.
  intros Ha Hp. destruct (no_none p Hp) as [pq ->].
  assert (exists aq, a = map (map Some) aq) as [aq ->].
  { induction a as [|r a IH]; [exists []; auto|]. destruct IH as [aq ->]; [intros; apply Ha; right; auto|].
    destruct (no_none r) as [q ->]; [apply Ha; left; auto|]. exists (q :: aq). auto. }
  exists aq, pq. split; auto. split; auto. apply qproj_mulv.
Qed.

(** choosing with a list of bits is the corner of the box *)
Lemma choose_corner x n lo hi bs : length lo = n -> length hi = n -> length bs = n ->
  (forall j, j < n -> col_min (column None x j) = Some (nth j lo 0%Q) /\ col_max (column None x j) = Some (nth j hi 0%Q)) ->
  map Some (choose bs lo hi) = corner x n (fun j => nth j bs false).
Proof.
  intros L1 L2 L3 H.
  assert (G : forall bs lo hi, length lo = length bs -> length hi = length bs -> length (choose bs lo hi) = length bs /\
     forall j, j < length bs -> nth j (choose bs lo hi) 0%Q = if nth j bs false then nth j hi 0%Q else nth j lo 0%Q).
  { clear. induction bs as [|b bs IH]; intros [|l lo] [|h hi] L1 L2; simpl in *; try lia; [split; auto; intros; lia|].
    destruct (IH lo hi ltac:(lia) ltac:(lia)) as [IL IN]. split; [auto|]. intros [|j] Hj; [auto|]. apply IN. lia. }
  destruct (G bs lo hi ltac:(lia) ltac:(lia)) as [GL GN].
  apply (@list_eq_nth _ None); [rewrite map_length, corner_length; unfold num in *; lia|].
  rewrite map_length. intros j Hj. rewrite corner_nth by lia.
  rewrite (nth_indep _ None (Some 0%Q)) by (rewrite map_length; auto). rewrite (map_nth Some), GN by lia.
  destruct (H j ltac:(lia)) as [-> ->]. destruct (nth j bs false); auto.
Qed.
Lemma instance_in_box x n row : complete x n -> In row x ->
  exists p, row = map Some p /\ conv (fun q => exists b, map Some q = corner x n b) p.
Proof.
  intros C Hr. destruct (proj2 C row Hr) as [L N]. destruct (no_none row N) as [p ->]. exists p. split; auto. rewrite map_length in L.
  assert (X : forall f : nat -> num, (forall j, j < n -> f j <> None) -> exists l, length l = n /\ forall j, j < n -> f j = Some (nth j l 0%Q)).
  { intros f Hf. exists (map (fun j => match f j with Some q => q | None => 0%Q end) (seq 0 n)). split; [rewrite map_length, seq_length; auto|].
    intros j Hj. set (g := fun j => match f j with Some q => q | None => 0%Q end).
    rewrite (nth_indep _ 0%Q (g 0)) by (rewrite map_length, seq_length; auto). rewrite (map_nth g), seq_nth by auto. unfold g; cbn [plus].
    specialize (Hf j Hj). destruct (f j); congruence. }
  destruct (X (fun j => col_min (column None x j))) as (lo & Llo & Elo).
  { intros j Hj. destruct (extremes C Hj) as (l & h & E1 & E2 & _). congruence. }
  destruct (X (fun j => col_max (column None x j))) as (hi & Lhi & Ehi).
  { intros j Hj. destruct (extremes C Hj) as (l & h & E1 & E2 & _). congruence. }
  assert (B := @box_conv lo hi p ltac:(lia) ltac:(lia)).
  eapply conv_trans; [apply B|].
  - intros j Hj. destruct (@extremes x n j C ltac:(lia)) as (l & h & E1 & E2 & _ & A).
    rewrite Elo in E1 by lia. rewrite Ehi in E2 by lia. injection E1 as <-. injection E2 as <-.
    apply (A _ _ Hr). rewrite (nth_indep _ None (Some 0%Q)) by (rewrite map_length; auto). apply (map_nth Some).
  - intros q (bs & Lb & ->). apply conv_point with (choose bs lo hi); [|apply same_refl]. exists (fun j => nth j bs false).
    apply choose_corner; auto; lia.
Qed.
