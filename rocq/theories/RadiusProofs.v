From Coq Require Import Reals List Bool Lia Lra Psatz.
From Verif Require TraceModel TraceDbscan.
From Verif Require Import RadiusSpec RadiusModel.
Import ListNotations.
Open Scope R_scope.

(* ------------------------------------------------------------ the clustering only asks [near] *)
Lemma filter_ext_all {A} (p q : A -> bool) l : (forall a, p a = q a) -> filter p l = filter q l.
Proof. intros H. induction l; simpl; auto. rewrite H, IHl. auto. Qed.
Lemma nbrs_ext n1 n2 m i : (forall i j, n1 i j = n2 i j) -> TraceModel.nbrs n1 m i = TraceModel.nbrs n2 m i.
Proof. intros H. apply filter_ext_all. intros. apply H. Qed.
Lemma expand_ext n1 n2 m : (forall i j, n1 i j = n2 i j) -> forall fuel no q c t,
  TraceModel.expand n1 m fuel no q c t = TraceModel.expand n2 m fuel no q c t.
Proof.
  intros H. induction fuel as [|fuel IH]; intros; simpl; auto.
  destruct q; auto. rewrite (nbrs_ext n1 n2 m n H). destruct (Nat.ltb _ _); apply IH.
Qed.
Lemma labels_ext n1 n2 m k : (forall i j, n1 i j = n2 i j) ->
  TraceModel.dbscan_labels n1 m k = TraceModel.dbscan_labels n2 m k.
Proof.
  intros H. unfold TraceModel.dbscan_labels.
  assert (E : forall l st, fold_left (TraceModel.dbscan_step n1 m k) l st = fold_left (TraceModel.dbscan_step n2 m k) l st).
  { induction l as [|i l IH]; intros; simpl; auto. rewrite IH. f_equal.
    unfold TraceModel.dbscan_step. rewrite (nbrs_ext n1 n2 m i H).
    destruct st as [[[? ?] ?]|]; auto. destruct (b i); auto. rewrite (expand_ext n1 n2 m H). auto. }
  rewrite E. auto.
Qed.

(* ------------------------------------------------------------ distance *)
Lemma dist_sq a b : dist a b = sqrt ((fst a - fst b) * (fst a - fst b) + (snd a - snd b) * (snd a - snd b)).
Proof. unfold dist. f_equal. ring. Qed.
Lemma sq_nonneg u v : 0 <= u * u + v * v.
Proof. nra. Qed.
Lemma dist_le a b eps : 0 <= eps ->
  (dist a b <= eps <-> (fst a - fst b) * (fst a - fst b) + (snd a - snd b) * (snd a - snd b) <= eps * eps).
Proof.
  intros He. rewrite dist_sq. pose proof (sq_nonneg (fst a - fst b) (snd a - snd b)) as N.
  set (s := (fst a - fst b) * (fst a - fst b) + (snd a - snd b) * (snd a - snd b)) in *. split; intros H.
  - rewrite <- (sqrt_sqrt s N). pose proof (sqrt_pos s). nra.
  - rewrite <- (sqrt_square eps He). apply sqrt_le_1_alt. auto.
Qed.
Lemma near_within x eps i j : 0 <= eps -> (near x eps i j = true <-> within x eps i j).
Proof.
  intros He. unfold near, within. split.
  - destruct (nth_error x i) as [a|] eqn:A; [|discriminate]. destruct (nth_error x j) as [b|] eqn:B; [|discriminate].
    destruct (Rle_dec _ _) as [H|]; [|discriminate]. intros _. exists a, b. repeat split; auto. apply dist_le; auto.
  - intros (a & b & -> & -> & H). apply dist_le in H; auto. destruct (Rle_dec _ _); [auto|contradiction].
Qed.
Lemma near_refl x eps i : 0 <= eps -> (i < length x)%nat -> near x eps i i = true.
Proof.
  intros He Hi. apply near_within; auto. destruct (nth_error x i) as [a|] eqn:E.
  - exists a, a. repeat split; auto. nra.
  - apply nth_error_None in E. lia.
Qed.
Lemma near_sym x eps i j : near x eps i j = near x eps j i.
Proof.
  unfold near. destruct (nth_error x i), (nth_error x j); auto.
  replace (dist p0 p) with (dist p p0); auto. rewrite !dist_sq. f_equal. ring.
Qed.
Lemma within_lt x eps i j : within x eps i j -> (i < length x)%nat /\ (j < length x)%nat.
Proof. intros (a & b & A & B & _). split; apply nth_error_Some; congruence. Qed.

Lemma reach_linked x eps i j : 0 <= eps ->
  TraceDbscan.reach (near x eps) (length x) i j <-> linked x eps i j.
Proof.
  intros He. split.
  - induction 1 as [|j l R IH H N]; [constructor|]. econstructor; eauto. apply near_within; auto.
  - induction 1 as [|j l R IH H]; [constructor|]. econstructor; eauto.
    + apply within_lt in H. tauto.
    + apply near_within; auto.
Qed.
Lemma core_crowded x k eps i : 0 <= eps -> (i < length x)%nat ->
  TraceDbscan.core (near x eps) (length x) k i <-> crowded x k eps i.
Proof.
  intros He Hi. split.
  - intros [_ L]. exists (firstn (k + 1) (TraceModel.nbrs (near x eps) (length x) i)).
    pose proof (TraceDbscan.nbrs_nodup (near x eps) (length x) i) as N.
    rewrite <- (firstn_skipn (k + 1)) in N. apply TraceDbscan.nodup_left in N. split; auto. split.
    + apply firstn_length_le. auto.
    + intros j Hj. apply near_within; auto.
      assert (I : In j (TraceModel.nbrs (near x eps) (length x) i)).
      { rewrite <- (firstn_skipn (k + 1)). apply in_or_app. auto. }
      apply TraceDbscan.nbrs_in in I. tauto.
  - intros (l & N & L & W). split; auto. rewrite <- L. apply NoDup_incl_length; auto.
    intros j Hj. apply TraceDbscan.nbrs_in. specialize (W j Hj). split.
    + apply within_lt in W. tauto.
    + apply near_within; auto.
Qed.
Lemma linked_lt x eps i j : (i < length x)%nat -> linked x eps i j -> (j < length x)%nat.
Proof. intros Hi. induction 1; auto. apply within_lt in H0. tauto. Qed.

Lemma dbscan_correct x k eps : 0 <= eps -> exists lab, dbscan x k eps = Some lab /\ clustering x k eps lab.
Proof.
  intros He.
  destruct (@TraceDbscan.labels_spec (near x eps) (length x) k) as (lab & E & L & A & B & _).
  { intros. apply near_refl; auto. }
  { intros. apply near_sym. }
  exists lab. split; [exact E|]. split; auto.
  assert (C : forall i, (i < length x)%nat -> TraceDbscan.has_core (near x eps) (length x) k i <-> exists j, linked x eps i j /\ crowded x k eps j).
  { intros i Hi. split; intros (j & R & K); exists j.
    - apply reach_linked in R; auto. pose proof (linked_lt _ _ _ _ Hi R). split; auto. apply core_crowded; auto.
    - pose proof (linked_lt _ _ _ _ Hi R). split; [apply reach_linked; auto|apply core_crowded; auto]. }
  split.
  - intros i Hi. destruct (A i Hi) as [[X Y]|[X Y]]; [left|right]; split; auto; rewrite <- C by auto; auto.
  - intros i j Hi Hj P. rewrite (B i j Hi Hj P). apply reach_linked; auto.
Qed.

(* ------------------------------------------------------------ ranges *)
Lemma fold_max_spec : forall l v, (forall w, In w (v :: l) -> w <= fold_left Rmax l v) /\ In (fold_left Rmax l v) (v :: l).
Proof.
  induction l as [|a l IH]; intros v; simpl.
  - split; [intros w [->|[]]; lra|auto].
  - destruct (IH (Rmax v a)) as [A B]. split.
    + intros w [->|[->|H]].
      * eapply Rle_trans; [apply Rmax_l|apply (A (Rmax w a))]. left. auto.
      * eapply Rle_trans; [apply (Rmax_r v)|apply (A (Rmax v w))]. left. auto.
      * apply A. right. auto.
    + destruct B as [B|B]; auto. rewrite <- B. destruct (Rmax_case v a (fun r => v = r \/ a = r)); auto.
Qed.
Lemma fold_min_spec : forall l v, (forall w, In w (v :: l) -> fold_left Rmin l v <= w) /\ In (fold_left Rmin l v) (v :: l).
Proof.
  induction l as [|a l IH]; intros v; simpl.
  - split; [intros w [->|[]]; lra|auto].
  - destruct (IH (Rmin v a)) as [A B]. split.
    + intros w [->|[->|H]].
      * eapply Rle_trans; [apply (A (Rmin w a)); left; auto|apply Rmin_l].
      * eapply Rle_trans; [apply (A (Rmin v w)); left; auto|apply (Rmin_r v)].
      * apply A. right. auto.
    + destruct B as [B|B]; auto. rewrite <- B. destruct (Rmin_case v a (fun r => v = r \/ a = r)); auto.
Qed.
Lemma range_spec l : l <> [] -> is_range l (column_max l - column_min l).
Proof.
  destruct l as [|v l]; [congruence|]. intros _. simpl.
  destruct (fold_max_spec l v) as [A B], (fold_min_spec l v) as [C D].
  exists (fold_left Rmin l v), (fold_left Rmax l v). repeat split; auto.
Qed.
Lemma range_unique l w w' : is_range l w -> is_range l w' -> w = w'.
Proof.
  intros (a & b & A & B & C & ->) (a' & b' & A' & B' & C' & ->).
  pose proof (C a' A'). pose proof (C b' B'). pose proof (C' a A). pose proof (C' b B). lra.
Qed.
Lemma range_nonneg l w : is_range l w -> 0 <= w.
Proof. intros (a & b & A & B & C & ->). pose proof (C a A). lra. Qed.
Lemma range_moved l w p c : is_range l w -> is_range (map (fun v => p + c * v) l) (Rabs c * w).
Proof.
  intros (a & b & A & B & C & ->). destruct (Rle_or_lt 0 c) as [H|H].
  - rewrite Rabs_right by lra. exists (p + c * a), (p + c * b).
    split; [apply (in_map (fun v => p + c * v)); auto|]. split; [apply (in_map (fun v => p + c * v)); auto|]. split; [|ring].
    intros v Hv. apply in_map_iff in Hv. destruct Hv as (u & <- & Hu). pose proof (C u Hu). nra.
  - rewrite Rabs_left by lra. exists (p + c * b), (p + c * a).
    split; [apply (in_map (fun v => p + c * v)); auto|]. split; [apply (in_map (fun v => p + c * v)); auto|]. split; [|ring].
    intros v Hv. apply in_map_iff in Hv. destruct Hv as (u & <- & Hu). pose proof (C u Hu). nra.
Qed.
Lemma ranges_spec x : x <> [] -> is_range (map fst x) (fst (ranges x)) /\ is_range (map snd x) (snd (ranges x)).
Proof. destruct x; [congruence|]. intros _. split; apply range_spec; discriminate. Qed.

(* ------------------------------------------------------------ the radius *)
Lemma sqrt_pi2 : sqrt (PI ^ 2) = PI.
Proof. replace (PI ^ 2) with (PI * PI) by ring. apply sqrt_square. pose proof PI_RGT_0. lra. Qed.
Lemma length_pos {A} (x : list A) : x <> [] -> 0 < INR (length x).
Proof. intros H. apply lt_0_INR. destruct x; [congruence|simpl; lia]. Qed.
Lemma epsilon_nonneg x k : 0 <= epsilon x k.
Proof. apply sqrt_pos. Qed.
Lemma epsilon_sq x k : x <> [] ->
  epsilon x k * epsilon x k = fst (ranges x) * snd (ranges x) * INR k / (INR (length x) * PI).
Proof.
  intros H. unfold epsilon, gamma_2. rewrite sqrt_pi2. pose proof (length_pos x H) as L. pose proof PI_RGT_0 as P.
  destruct (ranges_spec x H) as [A B]. apply range_nonneg in A. apply range_nonneg in B.
  rewrite sqrt_sqrt; [f_equal; ring|]. apply Rmult_le_pos.
  - pose proof (pos_INR k). assert (0 <= fst (ranges x) * snd (ranges x)) by nra. nra.
  - apply Rlt_le, Rinv_0_lt_compat. nra.
Qed.
Lemma epsilon_area x k a : x <> [] -> is_box_area x a -> PI * (epsilon x k * epsilon x k) = a * INR k / INR (length x).
Proof.
  intros H (w & h & A & B & ->). rewrite epsilon_sq by auto. destruct (ranges_spec x H) as [A' B'].
  rewrite <- (range_unique _ _ _ A A'), <- (range_unique _ _ _ B B'). field.
  pose proof (length_pos x H). pose proof PI_RGT_0. split; lra.
Qed.
(** everything the labels depend on *)
Lemma near_epsilon x k i j : x <> [] ->
  near x (epsilon x k) i j = true <->
  exists a b, nth_error x i = Some a /\ nth_error x j = Some b /\
    ((fst a - fst b) * (fst a - fst b) + (snd a - snd b) * (snd a - snd b)) * (INR (length x) * PI)
    <= fst (ranges x) * snd (ranges x) * INR k.
Proof.
  intros H. rewrite near_within by apply epsilon_nonneg. unfold within. rewrite epsilon_sq by auto.
  pose proof (length_pos x H) as L. pose proof PI_RGT_0 as P. assert (D : 0 < INR (length x) * PI) by nra.
  set (d := INR (length x) * PI) in *. set (s := fst (ranges x) * snd (ranges x) * INR k).
  assert (E : forall v, v <= s / d <-> v * d <= s).
  { intros v. split; intros X.
    - apply Rmult_le_compat_r with (r := d) in X; [|lra]. replace (s / d * d) with s in X by (field; lra). auto.
    - apply Rmult_le_reg_r with d; auto. replace (s / d * d) with s by (field; lra). auto. }
  split; intros (a & b & A & B & C); exists a, b; repeat split; auto; apply E; auto.
Qed.

Lemma ranges_moved p q c m1 m2 x : x <> [] ->
  fst (ranges (map (moved p q c m1 m2) x)) * snd (ranges (map (moved p q c m1 m2) x))
  = c * c * (fst (ranges x) * snd (ranges x)).
Proof.
  intros H. assert (H' : map (moved p q c m1 m2) x <> []) by (destruct x; [congruence|discriminate]).
  destruct (ranges_spec x H) as [A B], (ranges_spec _ H') as [A' B'].
  apply (range_moved _ _ p (if m1 then - c else c)) in A. apply (range_moved _ _ q (if m2 then - c else c)) in B.
  rewrite map_map in *. simpl in *.
  rewrite (range_unique _ _ _ A' A), (range_unique _ _ _ B' B).
  assert (Q1 : Rabs (if m1 then - c else c) = Rabs c) by (destruct m1; auto; apply Rabs_Ropp).
  assert (Q2 : Rabs (if m2 then - c else c) = Rabs c) by (destruct m2; auto; apply Rabs_Ropp).
  rewrite Q1, Q2. assert (Q : Rabs c * Rabs c = c * c).
  { rewrite <- Rabs_mult. apply Rabs_right. nra. }
  rewrite <- Q. ring.
Qed.
Lemma bool_iff (a b : bool) : (a = true <-> b = true) -> a = b.
Proof. destruct a, b; intuition congruence. Qed.
Lemma near_moved p q c m1 m2 x k i j : c <> 0 ->
  near (map (moved p q c m1 m2) x) (epsilon (map (moved p q c m1 m2) x) k) i j = near x (epsilon x k) i j.
Proof.
  intros Hc. destruct x as [|a0 x0]; [reflexivity|]. set (x := a0 :: x0). assert (H : x <> []) by discriminate.
  apply bool_iff. rewrite near_epsilon by discriminate. rewrite near_epsilon by auto.
  rewrite map_length, ranges_moved by auto.
  set (d := INR (length x) * PI). set (s := fst (ranges x) * snd (ranges x)).
  assert (C2 : 0 < c * c) by nra.
  assert (E : forall a b, (fst (moved p q c m1 m2 a) - fst (moved p q c m1 m2 b)) * (fst (moved p q c m1 m2 a) - fst (moved p q c m1 m2 b))
      + (snd (moved p q c m1 m2 a) - snd (moved p q c m1 m2 b)) * (snd (moved p q c m1 m2 a) - snd (moved p q c m1 m2 b))
      = c * c * ((fst a - fst b) * (fst a - fst b) + (snd a - snd b) * (snd a - snd b))).
  { intros a b. unfold moved. simpl. destruct m1, m2; ring. }
  split.
  - intros (a & b & A & B & D). rewrite nth_error_map in A, B.
    destruct (nth_error x i) as [a'|]; [|discriminate]. destruct (nth_error x j) as [b'|]; [|discriminate].
    simpl in A, B. injection A as <-. injection B as <-. exists a', b'. repeat split; auto.
    rewrite E in D. apply Rmult_le_reg_l with (c * c); auto. lra.
  - intros (a & b & A & B & D). exists (moved p q c m1 m2 a), (moved p q c m1 m2 b).
    rewrite !nth_error_map, A, B. repeat split; auto. rewrite E.
    apply Rmult_le_compat_l with (r := c * c) in D; lra.
Qed.
Lemma near_exchanged x k i j :
  near (map exchanged x) (epsilon (map exchanged x) k) i j = near x (epsilon x k) i j.
Proof.
  destruct x as [|a0 x0]; [reflexivity|]. set (x := a0 :: x0). assert (H : x <> []) by discriminate.
  apply bool_iff. rewrite near_epsilon by discriminate. rewrite near_epsilon by auto.
  rewrite map_length. assert (R1 : fst (ranges (map exchanged x)) = snd (ranges x)).
  { unfold ranges. simpl fst. simpl snd. rewrite map_map. reflexivity. }
  assert (R2 : snd (ranges (map exchanged x)) = fst (ranges x)).
  { unfold ranges. simpl fst. simpl snd. rewrite map_map. reflexivity. }
  rewrite R1, R2. set (d := INR (length x) * PI).
  split.
  - intros (a & b & A & B & D). rewrite nth_error_map in A, B.
    destruct (nth_error x i) as [a'|]; [|discriminate]. destruct (nth_error x j) as [b'|]; [|discriminate].
    simpl in A, B. injection A as <-. injection B as <-. exists a', b'. repeat split; auto.
    unfold exchanged in D. cbn [fst snd] in D. lra.
  - intros (a & b & A & B & D). exists (exchanged a), (exchanged b).
    rewrite !nth_error_map, A, B. repeat split; auto. unfold exchanged. cbn [fst snd]. lra.
Qed.

(* ------------------------------------------------------------ no cluster *)
Lemma all_noise x k eps lab : clustering x k eps lab -> (forall i, (i < length x)%nat -> ~ crowded x k eps i) ->
  lab = repeat (-1)%Z (length x).
Proof.
  intros (L & N & _) C. apply nth_ext with (d := 0%Z) (d' := 0%Z); rewrite ?repeat_length; auto.
  intros i Hi. rewrite L in Hi.
  assert (X : nth i (repeat (-1)%Z (length x)) 0%Z = (-1)%Z).
  { rewrite nth_indep with (d' := (-1)%Z) by (rewrite repeat_length; auto). apply nth_repeat. }
  rewrite X. destruct (N i Hi) as [[Y _]|[_ (j & R & K)]]; auto.
  exfalso. apply (C j); auto. eapply linked_lt; eauto.
Qed.
Lemma few_rows x k eps i : (length x <= k)%nat -> ~ crowded x k eps i.
Proof.
  intros L (l & N & E & W).
  assert (X : incl l (seq 0 (length x))).
  { intros j Hj. apply in_seq. apply W, within_lt in Hj. lia. }
  apply NoDup_incl_length in X; auto. rewrite seq_length in X. lia.
Qed.
Lemma flat_radius x k v : x <> [] -> (forall a, In a x -> fst a = v) \/ (forall a, In a x -> snd a = v) -> epsilon x k = 0.
Proof.
  intros H F.
  assert (E : fst (ranges x) * snd (ranges x) = 0).
  { destruct (ranges_spec x H) as [A B]. destruct F as [F|F].
    - assert (Z : is_range (map fst x) 0).
      { destruct x as [|a x]; [congruence|]. exists v, v. assert (In v (map fst (a :: x))) by (rewrite <- (F a); [apply in_map|]; left; auto).
        repeat split; auto; try lra; apply in_map_iff in H1; destruct H1 as (b & <- & Hb); rewrite (F b Hb); lra. }
      rewrite (range_unique _ _ _ A Z). ring.
    - assert (Z : is_range (map snd x) 0).
      { destruct x as [|a x]; [congruence|]. exists v, v. assert (In v (map snd (a :: x))) by (rewrite <- (F a); [apply in_map|]; left; auto).
        repeat split; auto; try lra; apply in_map_iff in H1; destruct H1 as (b & <- & Hb); rewrite (F b Hb); lra. }
      rewrite (range_unique _ _ _ B Z). ring. }
  unfold epsilon. rewrite E. unfold Rdiv. rewrite !Rmult_0_l. apply sqrt_0.
Qed.
Lemma within_0 x i j : NoDup x -> within x 0 i j -> i = j.
Proof.
  intros N (a & b & A & B & D). assert (a = b).
  { destruct a as [a1 a2], b as [b1 b2]. simpl in D.
    assert (a1 - b1 = 0 /\ a2 - b2 = 0) as [X Y].
    { split; apply Rsqr_0_uniq; unfold Rsqr; pose proof (Rle_0_sqr (a1 - b1)); pose proof (Rle_0_sqr (a2 - b2)); unfold Rsqr in *; lra. }
    f_equal; lra. }
  subst b. rewrite NoDup_nth_error in N. apply N; [apply nth_error_Some; congruence|congruence].
Qed.
Lemma flat_not_crowded x k i : NoDup x -> (0 < k)%nat -> ~ crowded x k 0 i.
Proof.
  intros N K (l & Nl & L & W). destruct l as [|a [|b l]]; simpl in L; try lia.
  assert (i = a) by (apply (within_0 x); auto; apply W; left; auto).
  assert (i = b) by (apply (within_0 x); auto; apply W; right; left; auto).
  inversion Nl as [|? ? Na _]. apply Na. left. congruence.
Qed.

(* ------------------------------------------------------------ turning *)
Lemma turned_inj angle a b : turned angle a = turned angle b -> a = b.
Proof.
  destruct a as [u v], b as [u' v']. unfold turned. simpl. intros E. injection E as X Y.
  pose proof (sin2_cos2 angle) as S. unfold Rsqr in S.
  assert (U : forall u v, u = cos angle * (cos angle * u - sin angle * v) + sin angle * (sin angle * u + cos angle * v)).
  { intros p q. replace (cos angle * (cos angle * p - sin angle * q) + sin angle * (sin angle * p + cos angle * q))
      with (p * (sin angle * sin angle + cos angle * cos angle)) by ring. rewrite S. ring. }
  assert (V : forall u v, v = cos angle * (sin angle * u + cos angle * v) - sin angle * (cos angle * u - sin angle * v)).
  { intros p q. replace (cos angle * (sin angle * p + cos angle * q) - sin angle * (cos angle * p - sin angle * q))
      with (q * (sin angle * sin angle + cos angle * cos angle)) by ring. rewrite S. ring. }
  f_equal.
  - rewrite (U u v), (U u' v'), X, Y. auto.
  - rewrite (V u v), (V u' v'), X, Y. auto.
Qed.
Lemma nodup_map {A B} (f : A -> B) l : (forall a b, f a = f b -> a = b) -> NoDup l -> NoDup (map f l).
Proof.
  intros I. induction 1; simpl; constructor; auto. rewrite in_map_iff. intros (b & E & Hb). apply I in E. congruence.
Qed.
Definition diagonal : list point := [(0, 0); (1, 1); (2, 2); (3, 3); (20, 20)].
Lemma diagonal_ranges : ranges diagonal = (20, 20).
Proof.
  assert (R : is_range [0; 1; 2; 3; 20] 20).
  { exists 0, 20. split; [simpl; auto 10|]. split; [simpl; auto 10|]. split; [|ring].
    intros v Hv. simpl in Hv. repeat (destruct Hv as [<-|Hv]; [lra|]). destruct Hv. }
  assert (H : diagonal <> []) by discriminate. destruct (ranges_spec diagonal H) as [A B].
  apply injective_projections; simpl fst; simpl snd.
  - exact (range_unique _ _ _ A R).
  - exact (range_unique _ _ _ B R).
Qed.
Lemma pi_bounds : 3 < PI <= 4.
Proof. pose proof PI2_3_2. pose proof PI_4. lra. Qed.
Lemma diagonal_near i j : near diagonal (epsilon diagonal 3) i j
  = ((Nat.ltb i 4 && Nat.ltb j 4) || (Nat.eqb i 4 && Nat.eqb j 4))%bool.
Proof.
  apply bool_iff. rewrite near_epsilon by discriminate. rewrite diagonal_ranges. pose proof pi_bounds as P.
  assert (K : fst (20, 20) * snd (20, 20) * INR 3 = 1200) by (simpl; lra). rewrite K.
  assert (L : INR (length diagonal) = 5) by (simpl; lra). rewrite L.
  destruct (Nat.lt_ge_cases i 5) as [Hi|Hi], (Nat.lt_ge_cases j 5) as [Hj|Hj].
  - assert (T : forall u v, nth_error diagonal i = Some (u, u) -> nth_error diagonal j = Some (v, v) ->
      ((exists a b, nth_error diagonal i = Some a /\ nth_error diagonal j = Some b /\
        ((fst a - fst b) * (fst a - fst b) + (snd a - snd b) * (snd a - snd b)) * (5 * PI) <= 1200)
       <-> (u - v) * (u - v) * PI <= 120)).
    { intros u v U V. rewrite U, V. split.
      - intros (a & b & A & B & C). injection A as <-. injection B as <-. cbn [fst snd] in C. lra.
      - intros C. exists (u, u), (v, v). repeat split; auto. cbn [fst snd]. lra. }
    destruct i as [|[|[|[|[|i]]]]]; try lia; destruct j as [|[|[|[|[|j]]]]]; try lia;
      (rewrite (T _ _ eq_refl eq_refl); simpl; split; intros X; auto; try discriminate; try (exfalso; lra); lra).
  - split.
    + intros (a & b & _ & B & _). assert (nth_error diagonal j = None) by (apply nth_error_None; simpl; lia). congruence.
    + intros X. exfalso. destruct (Nat.ltb_spec j 4), (Nat.eqb_spec j 4); try lia;
      rewrite !andb_false_r in X; discriminate.
  - split.
    + intros (a & b & A & _). assert (nth_error diagonal i = None) by (apply nth_error_None; simpl; lia). congruence.
    + intros X. exfalso. destruct (Nat.ltb_spec i 4), (Nat.eqb_spec i 4); try lia; discriminate.
  - split.
    + intros (a & b & A & _). assert (nth_error diagonal i = None) by (apply nth_error_None; simpl; lia). congruence.
    + intros X. exfalso. destruct (Nat.ltb_spec i 4), (Nat.eqb_spec i 4); try lia; discriminate.
Qed.
Lemma diagonal_labels : dbscan diagonal 3 (epsilon diagonal 3) = Some [1; 1; 1; 1; -1]%Z.
Proof. unfold dbscan. rewrite (labels_ext _ _ _ _ diagonal_near). reflexivity. Qed.

(* ------------------------------------------------------------ fewer rows than a cluster needs *)
Lemma nbrs_le near m i : (length (TraceModel.nbrs near m i) <= m)%nat.
Proof. unfold TraceModel.nbrs. rewrite <- (seq_length m 0) at 2. induction (seq 0 m) as [|a l IH]; simpl; auto. destruct (near i a); simpl; lia. Qed.
Lemma few_labels near m k : (m <= k)%nat -> TraceModel.dbscan_labels near m k = Some (repeat (-1)%Z m).
Proof.
  intros H. unfold TraceModel.dbscan_labels.
  assert (S : forall l no classes touched, (forall i, classes i = 0 \/ classes i = -1)%Z ->
    exists no' classes' touched', fold_left (TraceModel.dbscan_step near m k) l (Some (no, classes, touched)) = Some (no', classes', touched')
      /\ (forall i, classes' i = 0 \/ classes' i = -1)%Z).
  { induction l as [|i l IH]; intros no cl to Hc; simpl; [eauto 10|].
    destruct (to i); [apply IH; auto|]. pose proof (nbrs_le near m i) as L.
    destruct (Nat.leb_spec (k + 1) (length (TraceModel.nbrs near m i))); [lia|].
    apply IH. intros j.
    destruct (Nat.eqb _ _), (_ && _)%bool; unfold TraceModel.assign; simpl; auto;
      destruct (Nat.eqb j i || false)%bool; auto; destruct (Nat.eqb j i || false)%bool; auto. }
  destruct (S (seq 0 m) 1%Z (fun _ => 0%Z) (fun _ => false)) as (no & cl & to & E & C); [auto|].
  rewrite E. f_equal.
  assert (R : forall l : list nat, map (fun i => if Z.eqb (cl i) 0 then (-1)%Z else cl i) l = repeat (-1)%Z (length l)).
  { induction l as [|a l IH]; simpl; auto. rewrite IH. f_equal. destruct (C a) as [->| ->]; auto. }
  rewrite R, seq_length. auto.
Qed.
Lemma zmax_noise m : TraceModel.zmax (repeat (-1)%Z m) = (-1)%Z.
Proof. induction m; simpl; auto. fold (TraceModel.zmax (repeat (-1)%Z m)). rewrite IHm. auto. Qed.
