(** Properties C45-C47 and C75 (CLOISTER). *)
From Coq Require Import Lqa.
From Verif Require Import BaseLemmas Mat CloisterModel CloisterSpec PilotProofs SiftedProofs CloisterProofs.
Set Implicit Arguments.
Open Scope nat_scope.
Open Scope list_scope.

(* ============================================================ C45 *)
(** The vertex list has 2^n rows, row i being the corner that takes the maximum of feature j
    exactly when bit j of i is set, and every choice of extremes occurs at exactly one row. *)
Theorem C45_vertices_enumerate_corners :
  forall x n,
    length (x_edge x n) = 2 ^ n /\
    (forall i, i < 2 ^ n -> nth i (x_edge x n) [] = corner x n (Nat.testbit i)) /\
    (forall b, exists i, i < 2 ^ n /\ nth i (x_edge x n) [] = corner x n b /\
       (forall j, j < n -> Nat.testbit i j = b j) /\
       forall i', i' < 2 ^ n -> (forall j, j < n -> Nat.testbit i' j = b j) -> i' = i).
Proof.
  intros x n. rewrite edge_corners.
  assert (N : forall i, i < 2 ^ n -> nth i (map (fun i => corner x n (Nat.testbit i)) (seq 0 (2 ^ n))) [] = corner x n (Nat.testbit i)).
  { intros i Hi. rewrite (nth_indep _ [] (corner x n (Nat.testbit 0))) by (rewrite map_length, seq_length; auto).
    rewrite (map_nth (fun i => corner x n (Nat.testbit i))), seq_nth by auto. auto. }
  split; [rewrite map_length, seq_length; auto|]. split; auto.
  intro b. destruct (bits_exist n b) as (i & Hi & E). exists i. split; auto. split; [rewrite N by auto; apply corner_ext; auto|].
  split; auto. intros i' Hi' E'. apply (@bits_unique n); auto. intros j Hj. rewrite E, E' by auto. auto.
Qed.
(** For data without missing values the coordinates of a corner are the smallest and largest value
    of the feature among the instances. *)
Theorem C45_coordinates_are_extremes :
  forall x n b j, complete x n -> j < n ->
    (b j = true -> is_max (column None x j) (nth j (corner x n b) None)) /\
    (b j = false -> is_min (column None x j) (nth j (corner x n b) None)).
Proof.
  intros x n b j C Hj. rewrite corner_nth by auto. destruct (@complete_column _ _ _ C Hj) as [Hn Hf].
  split; intros ->; [apply col_max_spec|apply col_min_spec]; auto.
Qed.
Example C45_met :
  x_edge [[Some 1; Some 5]; [Some 3; Some 4]; [Some 2; Some 9]]%Q 2 =
    [[Some 1; Some 4]; [Some 3; Some 4]; [Some 1; Some 9]; [Some 3; Some 9]]%Q.
Proof. reflexivity. Qed.

(* ============================================================ C46 *)
(** A vertex is removed exactly when two features have a significant correlation above the
    threshold and coordinates of different sign, or below minus the threshold and coordinates of
    the same sign. *)
Theorem C46_removed_iff_contradicts :
  forall pearson x n p_val c_thres rho v,
    compute_correlation pearson x n p_val = Ok rho -> (0 <= c_thres)%Q ->
    (removed rho c_thres n v = true <-> contradicts pearson x n p_val c_thres v).
Proof. intros. apply removed_iff; auto. Qed.
(** Seen from the stage: the corners that contradict nothing lie inside the correlated boundary,
    and if the correlated boundary differs from the plain one then its points are projections of
    corners that contradict nothing. *)
Theorem C46_boundary_of_kept_corners :
  forall pearson hull x a n p_val c_thres ze zc,
    hull_correct hull -> (0 <= c_thres)%Q ->
    cloister pearson hull x a n p_val c_thres = Ok (ze, zc) ->
    (zc = ze \/ forall z, In z zc -> exists b, z = mulv a (corner x n b) /\
                             ~ contradicts pearson x n p_val c_thres (corner x n b)) /\
    (hull (map (mulv a) (x_edge x n)) <> None ->
     forall b p, ~ contradicts pearson x n p_val c_thres (corner x n b) ->
       mulv a (corner x n b) = map Some p -> in_hull zc p).
Proof.
  intros pearson hull x a n p_val c ze zc HC Hc H. destruct (@cloister_inv _ _ _ _ _ _ _ _ _ H) as (Hx & rho & R & Ez & Ec). cbv zeta in Ec.
  set (kept := select (map negb (map (removed rho c n) (x_edge x n))) (x_edge x n)) in *.
  assert (K : forall v, In v kept <-> exists b, v = corner x n b /\ ~ contradicts pearson x n p_val c (corner x n b)).
  { intro v. unfold kept. rewrite kept_in, edge_in. split.
    - intros ((b & ->) & F). exists b. split; auto. intro X. apply (@removed_iff _ _ _ _ _ _ _ R Hc) in X. congruence.
    - intros (b & -> & X). split; [eauto|]. destruct (removed rho c n (corner x n b)) eqn:F; auto.
      apply (@removed_iff _ _ _ _ _ _ _ R Hc) in F. contradiction. }
  destruct (compute_convex_hull hull (map (mulv a) kept)) as [|k0 kt] eqn:E; subst zc.
  - split; auto. intros Hn b p Hb Ep. rewrite Ez. apply hull_contains; auto. rewrite <- Ep. apply in_map. apply corner_in.
  - split.
    + right. intros z Hz. rewrite <- E in Hz. apply (@hull_points _ _ _ HC) in Hz. apply in_map_iff in Hz. destruct Hz as (v & <- & Hv).
      apply K in Hv. destruct Hv as (b & -> & Hb). eauto.
    + intros _ b p Hb Ep. rewrite <- E. apply hull_contains; auto.
      * unfold compute_convex_hull in E. intro X. rewrite X in E. discriminate.
      * rewrite <- Ep. apply in_map. apply K. eauto.
Qed.
(** When every feature takes both signs, "opposite extremes" and "opposite signs" are the same:
    a corner is removed exactly when it puts two positively correlated features at opposite
    extremes or two negatively correlated ones at the same extreme. *)
Theorem C46_extremes_when_features_straddle_zero :
  forall (pearson : list num -> list num -> res clerr (num * num)) x n p_val c_thres b,
    complete x n ->
    (forall j, j < n -> exists r s p q, In r x /\ In s x /\ nth j r None = Some p /\ nth j s None = Some q /\ (p < 0)%Q /\ (0 < q)%Q) ->
    (contradicts pearson x n p_val c_thres (corner x n b) <->
     exists j k r, j < k < n /\ significant pearson x p_val j k r /\
       (((c_thres < r)%Q /\ b j <> b k) \/ ((r < - c_thres)%Q /\ b j = b k))).
Proof.
  intros pearson x n p_val c b C Hs.
  assert (G : forall j, j < n -> exists q, nth j (corner x n b) None = Some q /\ (if b j then 0 < q else q < 0)%Q).
  { intros j Hj. rewrite corner_nth by auto. destruct (@extremes _ _ _ C Hj) as (lo & hi & E1 & E2 & _ & A).
    destruct (Hs j Hj) as (r & s & p & q & Hr & Hs' & Ep & Eq & Lp & Lq).
    destruct (A _ _ Hr Ep) as [B1 _]. destruct (A _ _ Hs' Eq) as [_ B2].
    destruct (b j); [exists hi|exists lo]; split; auto; lra. }
  assert (S : forall j k, j < n -> k < n -> (same_sign (nth j (corner x n b) None) (nth k (corner x n b) None) <-> b j = b k)).
  { intros j k Hj Hk. destruct (G j Hj) as (p & Ep & Lp). destruct (G k Hk) as (q & Eq & Lq). split.
    - intros (p' & q' & E1 & E2 & D). rewrite Ep in E1. rewrite Eq in E2. injection E1 as <-. injection E2 as <-.
      destruct (b j), (b k); auto; exfalso; destruct D as [[]|[[]|[]]]; lra.
    - intro E. exists p, q. split; auto. split; auto. rewrite E in Lp. destruct (b k); auto. }
  unfold contradicts. split; intros (j & k & r & Hjk & Sg & D); exists j, k, r; (split; [auto|split; [auto|]]);
    (assert (X := S j k ltac:(lia) ltac:(lia))); destruct D as [[D1 D2]|[D1 D2]]; [left|right|left|right]; split; auto; tauto.
Qed.
(** When every value is positive the signs never differ, so the correlations change nothing: the
    correlated boundary is the plain one. *)
Theorem C46_positive_features_ignore_correlation :
  forall pearson hull x a n p_val c_thres ze zc,
    hull_correct hull -> (0 <= c_thres)%Q -> complete x n ->
    (forall row v, In row x -> In v row -> exists q, v = Some q /\ (0 < q)%Q) ->
    cloister pearson hull x a n p_val c_thres = Ok (ze, zc) -> zc = ze.
Proof.
  intros pearson hull x a n p_val c ze zc HC Hc C Hp H. destruct (@cloister_inv _ _ _ _ _ _ _ _ _ H) as (Hx & rho & R & Ez & Ec). cbv zeta in Ec.
  assert (S : forall b j, j < n -> exists q, nth j (corner x n b) None = Some q /\ (0 < q)%Q).
  { intros b j Hj. rewrite corner_nth by auto. destruct (@complete_column _ _ _ C Hj) as [Hn Hf].
    assert (M : forall v, In v (column None x j) -> exists q, v = Some q /\ (0 < q)%Q).
    { intros v Hv. unfold column in Hv. apply in_map_iff in Hv. destruct Hv as (row & <- & Hr). apply (Hp row); auto.
      apply nth_In. destruct (proj2 C row Hr) as [L _]. unfold num in *. lia. }
    destruct (b j); apply M; [destruct (col_max_spec Hn Hf) as (q & _ & I & _)|destruct (col_min_spec Hn Hf) as (q & _ & I & _)]; auto. }
  assert (SS : forall b j k, j < n -> k < n -> same_sign (nth j (corner x n b) None) (nth k (corner x n b) None)).
  { intros b j k Hj Hk. destruct (S b j Hj) as (p & E1 & L1). destruct (S b k Hk) as (q & E2 & L2). exists p, q. auto. }
  assert (U : forall b b', removed rho c n (corner x n b) = true -> removed rho c n (corner x n b') = true).
  { intros b b' D. apply (@removed_iff _ _ _ _ _ _ _ R Hc) in D. apply (@removed_iff _ _ _ _ _ _ _ R Hc).
    destruct D as (j & k & r & Hjk & Sg & [[D1 D2]|[D1 D2]]); [exfalso; apply D2; apply SS; lia|].
    exists j, k, r. split; auto. split; auto. right. split; auto. apply SS; lia. }
  assert (A : forall f (l : list (list num)), (forall v, In v l -> f v = false) -> select (map negb (map f l)) l = l).
  { intros f. induction l as [|v l IH]; intro F; auto. simpl. rewrite (F v) by (left; auto). simpl. rewrite IH; auto. intros w Hw; apply F; right; auto. }
  assert (Z : forall f (l : list (list num)), (forall v, In v l -> f v = true) -> select (map negb (map f l)) l = []).
  { intros f. induction l as [|v l IH]; intro F; auto. simpl. rewrite (F v) by (left; auto). simpl. apply IH. intros w Hw; apply F; right; auto. }
  destruct (removed rho c n (corner x n (fun _ => true))) eqn:D.
  - rewrite Z in Ec.
    + subst zc. unfold compute_convex_hull. simpl. destruct (hull []) as [vs|] eqn:Ev; auto. destruct vs as [|i vs]; auto.
      exfalso. destruct (HC _ _ Ev) as [B _]. specialize (B i (or_introl eq_refl)). simpl in B. lia.
    + intros v Hv. apply edge_in in Hv. destruct Hv as (b & ->). eapply U; eauto.
  - rewrite A in Ec.
    + rewrite <- Ez in Ec. destruct ze; auto.
    + intros v Hv. apply edge_in in Hv. destruct Hv as (b & ->). destruct (removed rho c n (corner x n b)) eqn:E; auto.
      rewrite (U _ _ E) in D. discriminate.
Qed.
(** The documented rule (remove corners at opposite extremes of positively correlated features)
    therefore fails on positive data: perfectly correlated positive features keep the corner
    (minimum, maximum). *)
Theorem C46_opposite_extremes_removed_refuted :
  exists pearson x rho,
    complete x 2 /\ compute_correlation pearson x 2 (5#100) = Ok rho /\
    significant pearson x (5#100) 0 1 1 /\
    removed rho (7#10) 2 (corner x 2 (Nat.eqb 1)) = false /\
    corner x 2 (Nat.eqb 1) = [Some 1; Some 3]%Q.
Proof.
  exists (fun _ _ => Ok (Some 1%Q, Some 0%Q)), [[Some 1; Some 1]; [Some 2; Some 2]; [Some 3; Some 3]]%Q.
  eexists. split.
  - split; [discriminate|]. intros row Hr. simpl in Hr. repeat (destruct Hr as [<-|Hr]; [split; [auto|simpl; intros [X|[X|[]]]; discriminate]|]). contradiction.
  - split; [reflexivity|]. split; [|split; reflexivity]. exists (Some 0%Q). split; auto. intros (q & E & X). injection E as <-. lra.
Qed.

(* ============================================================ C47 *)
(** Every point of either boundary is the projection of a corner of the bounding box. *)
Theorem C47_boundary_points_are_projected_corners :
  forall pearson hull x a n p_val c_thres ze zc,
    hull_correct hull -> cloister pearson hull x a n p_val c_thres = Ok (ze, zc) ->
    forall z, In z ze \/ In z zc -> exists b, z = mulv a (corner x n b).
Proof.
  intros pearson hull x a n p_val c ze zc HC H z Hz. destruct (@cloister_inv _ _ _ _ _ _ _ _ _ H) as (Hx & rho & R & Ez & Ec). cbv zeta in Ec.
  set (kept := select (map negb (map (removed rho c n) (x_edge x n))) (x_edge x n)) in *.
  assert (A : In z ze -> exists b, z = mulv a (corner x n b)).
  { intro I. rewrite Ez in I. apply (@hull_points _ _ _ HC) in I. apply in_map_iff in I. destruct I as (v & <- & Hv).
    apply edge_in in Hv. destruct Hv as (b & ->). eauto. }
  destruct Hz as [Hz|Hz]; auto.
  destruct (compute_convex_hull hull (map (mulv a) kept)) as [|k0 kt] eqn:E; subst zc; auto.
  rewrite <- E in Hz. apply (@hull_points _ _ _ HC) in Hz. apply in_map_iff in Hz. destruct Hz as (v & <- & Hv).
  unfold kept in Hv. apply kept_in in Hv. destruct Hv as [Hv _]. apply edge_in in Hv. destruct Hv as (b & ->). eauto.
Qed.
(** The region of the correlated boundary is contained in that of the plain boundary, whenever
    the hull of all projected corners could be computed. *)
Theorem C47_correlated_boundary_inside_plain :
  forall pearson hull x a n p_val c_thres ze zc,
    hull_correct hull -> cloister pearson hull x a n p_val c_thres = Ok (ze, zc) ->
    hull (map (mulv a) (x_edge x n)) <> None ->
    forall p, in_hull zc p -> in_hull ze p.
Proof.
  intros pearson hull x a n p_val c ze zc HC H Hn p Hp. eapply in_hull_sub; [|exact Hp]. intros q Hq.
  destruct (@C47_boundary_points_are_projected_corners _ _ _ _ _ _ _ _ _ HC H (map Some q) (or_intror Hq)) as (b & Eb).
  destruct (@cloister_inv _ _ _ _ _ _ _ _ _ H) as (_ & rho & R & -> & _). apply hull_contains; auto. rewrite Eb. apply in_map. apply corner_in.
Qed.
(** If the kept corners have no hull (or none is kept) the plain boundary is returned for both. *)
Theorem C47_fallback_to_plain :
  forall pearson hull x a n p_val c_thres ze zc,
    cloister pearson hull x a n p_val c_thres = Ok (ze, zc) ->
    ze <> [] -> zc <> [].
Proof.
  intros pearson hull x a n p_val c ze zc H Hz. destruct (@cloister_inv _ _ _ _ _ _ _ _ _ H) as (_ & rho & _ & _ & Ec). cbv zeta in Ec.
  destruct (compute_convex_hull hull _) in Ec; subst zc; [auto|discriminate].
Qed.

(** Exactly which points: the plain boundary is what the hull routine picks among the projections of all corners, in
    binary order, the correlated one what it picks among those of the corners that contradict nothing; if it picks none
    or fails, the plain boundary is returned for both. *)
Theorem C47_exactly_these_points :
  forall pearson hull x a n p_val c_thres ze zc,
    (0 <= c_thres)%Q -> cloister pearson hull x a n p_val c_thres = Ok (ze, zc) ->
    exists keep : list nat,
      Sorted.StronglySorted lt keep /\
      (forall i, In i keep <-> i < 2 ^ n /\ ~ contradicts pearson x n p_val c_thres (corner x n (Nat.testbit i))) /\
      let points l := map (fun i => mulv a (corner x n (Nat.testbit i))) l in
      let boundary l := match hull (points l) with Some vs => map (fun v => nth v (points l) []) vs | None => [] end in
      ze = boundary (seq 0 (2 ^ n)) /\
      zc = match boundary keep with [] => ze | b => b end.
Proof.
  intros pearson hull x a n p_val c ze zc Hc H. destruct (@cloister_inv _ _ _ _ _ _ _ _ _ H) as (Hx & rho & R & Ez & Ec). cbv zeta in Ec.
  set (f i := negb (removed rho c n (corner x n (Nat.testbit i)))).
  exists (filter f (seq 0 (2 ^ n))). split; [|split].
  - assert (S : forall k s, Sorted.StronglySorted lt (filter f (seq s k))); [|apply S].
    induction k as [|k IH]; intro s; cbn [seq filter]; [constructor|].
    destruct (f s); auto. constructor; auto. apply Forall_forall. intros y Hy. apply filter_In in Hy. destruct Hy as [Hy _]. apply in_seq in Hy. lia.
  - intro i. rewrite filter_In, in_seq. unfold f. rewrite negb_true_iff, <- (@removed_iff _ _ _ _ _ _ _ R Hc), not_true_iff_false.
    split; intros [X Y]; split; auto; lia.
  - cbv zeta. rewrite edge_corners in Ez, Ec. rewrite map_map in Ez. split; [exact Ez|].
    replace (select _ _) with (map (fun i => corner x n (Nat.testbit i)) (filter f (seq 0 (2 ^ n)))) in Ec.
    + rewrite map_map in Ec. unfold compute_convex_hull in Ec.
      match type of Ec with zc = match ?b with _ => _ end => destruct b; exact Ec end.
    + clear. rewrite !map_map. unfold f. induction (seq 0 (2 ^ n)) as [|k l IH]; auto. cbn [filter map select].
      destruct (negb (removed rho c n (corner x n (Nat.testbit k)))); cbn [map]; rewrite IH; auto.
Qed.
(** It fails exactly if there is no instance or two different features cannot be correlated. *)
Theorem C47_when_it_succeeds :
  forall pearson hull x a n p_val c_thres,
    (exists out, cloister pearson hull x a n p_val c_thres = Ok out) <->
    x <> [] /\ forall j k, j < n -> k < n -> j <> k -> exists rp, pearson (column None x j) (column None x k) = Ok rp.
Proof.
  intros pearson hull x a n p_val c. split.
  - intros ([ze zc] & H). destruct (@cloister_inv _ _ _ _ _ _ _ _ _ H) as (Hx & rho & R & _). split; auto. intros j k Hj Hk N.
    pose proof (@correlation_entry pearson x n p_val rho j k R Hj Hk) as E. unfold rho_entry in E. destruct (Nat.eqb_spec j k); [contradiction|].
    destruct (pearson _ _) as [rp|]; [eauto|discriminate].
  - intros [Hx P].
    assert (S : forall A (l : list (res clerr A)), (forall r, In r l -> exists v, r = Ok v) -> exists v, sequence l = Ok v).
    { intros A l. induction l as [|r t IH]; intro G; [cbn; eauto|]. destruct (G r (or_introl eq_refl)) as [v ->].
      destruct IH as [w E]; [intros; apply G; right; auto|]. cbn [sequence]. rewrite E. eauto. }
    assert (R : exists rho, compute_correlation pearson x n p_val = Ok rho).
    { apply S. intros r Hr. apply in_map_iff in Hr. destruct Hr as (i & <- & Hi). apply S. intros r Hr. apply in_map_iff in Hr. destruct Hr as (j & <- & Hj).
      apply in_seq in Hi, Hj. unfold rho_entry. destruct (Nat.eqb_spec i j); [eauto|]. destruct (P i j ltac:(lia) ltac:(lia) ltac:(auto)) as [[r p] ->]. eauto. }
    destruct R as [rho R]. unfold cloister. rewrite R. destruct x; [contradiction|]. eauto.
Qed.

(* ============================================================ C75 *)
(** The plain boundary encloses the projection of every instance. *)
Theorem C75_plain_boundary_encloses_instances :
  forall pearson hull x a n p_val c_thres ze zc,
    hull_correct hull -> complete x n -> (forall r, In r a -> ~ In None r) ->
    cloister pearson hull x a n p_val c_thres = Ok (ze, zc) ->
    hull (map (mulv a) (x_edge x n)) <> None ->
    forall row, In row x -> exists p, mulv a row = map Some p /\ in_hull ze p.
Proof.
  intros pearson hull x a n p_val c ze zc HC C Ha H Hn row Hr. destruct (proj2 C row Hr) as [_ N].
  destruct (@mulv_finite a row Ha N) as (aq & pq & -> & -> & E). exists (qproj aq pq). split; auto.
  destruct (@cloister_inv _ _ _ _ _ _ _ _ _ H) as (_ & rho & _ & Ez & _).
  destruct (@instance_in_box _ _ _ C Hr) as (p & Ep & Cv).
  assert (p = pq). { apply (f_equal (map (fun v : num => match v with Some q => q | None => 0%Q end))) in Ep. rewrite !map_map, !map_id in Ep. auto. }
  subst p. apply conv_trans with (t := fun q => In (map Some q) ze) (s := fun q => In (map Some q) (map (mulv (map (map Some) aq)) (x_edge x n))).
  - eapply qproj_image; [|exact Cv]. intros q (b & Eb). simpl. rewrite <- qproj_mulv, Eb. apply in_map. apply corner_in.
  - intros q Hq. rewrite Ez. apply hull_contains; auto.
Qed.

Lemma conv_halfspace (s : list Q -> Prop) w c p : (forall q, s q -> (qdot w q <= c)%Q) -> conv s p -> (qdot w p <= c)%Q.
Proof.
  intros H Cv. induction Cv as [p q Hs E|t p q r T0 T1 H1 IH1 H2 IH2 L E].
  - rewrite <- (qdot_same w E). auto.
  - rewrite <- (qdot_same w E), qdot_mix by auto. nra.
Qed.
(** Sixteen instances with three features in {-1, 1}: the first two agree on fourteen of them
    (correlation 3/4, significant), the third is balanced. *)
Definition ref_row (i : nat) : list num :=
  let u := if Nat.ltb i 8 then 1%Q else (-1)%Q in
  let v := if Nat.eqb i 0 || Nat.eqb i 8 then Qopp u else u in
  [Some u; Some v; Some (if Nat.even i then 1%Q else (-1)%Q)].
Definition ref_x : list (list num) := map ref_row (seq 0 16).
Definition ref_a : list (list num) := [[Some 1; Some 0; Some 0]; [Some 0; Some 1; Some (1#2)]]%Q.
(** Pearson's coefficient of balanced vectors of -1 and 1 is the mean of the products. *)
Definition ref_pearson (u v : list num) : res clerr (num * num) :=
  match dot u v with Some s => Ok (Some (Qred (s / 16)), Some (1#1000)) | None => Err EPearson end.
(** The correlated boundary can exclude instances: one lies outside it for every hull routine. *)
Theorem C75_correlated_boundary_encloses_instances_refuted :
  exists pearson x a row kept,
    complete x 3 /\ In row x /\
    kept = map (mulv a) [[Some (-1); Some (-1); Some (-1)]; [Some 1; Some 1; Some (-1)]; [Some (-1); Some (-1); Some 1]; [Some 1; Some 1; Some 1]]%Q /\
    forall hull, hull_correct hull -> hull kept <> None ->
      exists ze zc p, cloister pearson hull x a 3 (5#100) (7#10) = Ok (ze, zc) /\
        mulv a row = map Some p /\ ~ in_hull zc p.
Proof.
  exists ref_pearson, ref_x, ref_a, (ref_row 0). eexists. split; [|split; [|split; [reflexivity|]]].
  - split; [discriminate|]. intros row Hr. unfold ref_x in Hr. apply in_map_iff in Hr. destruct Hr as (i & <- & _).
    split; auto. unfold ref_row. simpl. intros [X|[X|[X|[]]]]; discriminate.
  - left. reflexivity.
  - intros hull HC Hn. unfold cloister.
    replace (compute_correlation ref_pearson ref_x 3 (5#100)) with
      (@Ok clerr _ [[Some 0; Some (3#4); Some 0]; [Some (3#4); Some 0; Some 0]; [Some 0; Some 0; Some 0]]%Q) by (vm_compute; reflexivity).
    cbv iota.
    replace (select _ (x_edge ref_x 3)) with
      ([[Some (-1); Some (-1); Some (-1)]; [Some 1; Some 1; Some (-1)]; [Some (-1); Some (-1); Some 1]; [Some 1; Some 1; Some 1]]%Q : list (list num))
      by (vm_compute; reflexivity).
    set (kept := map (mulv ref_a) _) in Hn. fold kept.
    eexists. eexists. exists [1; -(1#2)]%Q. split; [reflexivity|]. split; [vm_compute; reflexivity|].
    destruct (compute_convex_hull hull kept) as [|k0 kt] eqn:E.
    + exfalso. assert (X : in_hull [] [-1; -(3#2)]%Q).
      { rewrite <- E. apply hull_contains; auto. left. vm_compute. reflexivity. }
      clear -X. remember ([] : list (list num)) as l. unfold in_hull in X. induction X; subst; auto.
    + intro X. rewrite <- E in X. apply conv_halfspace with (w := [1; -1]%Q) (c := (1#2)%Q) in X.
      * simpl in X. lra.
      * intros q Hq. apply (@hull_points _ _ _ HC) in Hq. unfold kept in Hq. vm_compute in Hq.
        assert (G : forall l : list Q, map Some q = map Some l -> q = l).
        { intros l Y. apply (f_equal (map (fun v : num => match v with Some q => q | None => 0%Q end))) in Y. rewrite !map_map, !map_id in Y. auto. }
        repeat (destruct Hq as [Hq|Hq]; [symmetry in Hq|]); try contradiction.
        { specialize (G [-1; -3#2]%Q Hq). subst q. vm_compute. discriminate. }
        { specialize (G [1; 1#2]%Q Hq). subst q. vm_compute. discriminate. }
        { specialize (G [-1; -1#2]%Q Hq). subst q. vm_compute. discriminate. }
        { specialize (G [1; 3#2]%Q Hq). subst q. vm_compute. discriminate. }
Qed.

(** three features, two of them positively correlated: four of the eight corners are kept; a hull routine that fails on them *)
Example C47_fallback_met : exists ze,
  cloister ref_pearson (fun pts => if length pts =? 8 then Some [1; 2] else None) ref_x ref_a 3 (5#100) (1#2) = Ok (ze, ze) /\ length ze = 2 /\
  cloister ref_pearson (fun pts => Some [1]) ref_x ref_a 3 (5#100) (1#2) =
    Ok ([mulv ref_a (corner ref_x 3 (Nat.testbit 1))], [mulv ref_a (corner ref_x 3 (Nat.testbit 3))]).
Proof. eexists. split; [vm_compute; reflexivity|]. split; [reflexivity|]. vm_compute. reflexivity. Qed.
(** A hull routine meeting [hull_correct], and data meeting the hypotheses of C46, C47 and C75. *)
Example hull_met : hull_correct (fun pts => Some (seq 0 (length pts))).
Proof.
  intros pts vs H. injection H as <-. split; [intros i Hi; apply in_seq in Hi; lia|].
  intros p Hp. apply conv_point with p; [|apply same_refl].
  replace (map (fun i => nth i pts []) (seq 0 (length pts))) with pts; auto.
  apply (@list_eq_nth _ []); [rewrite map_length, seq_length; auto|]. intros i Hi.
  rewrite (nth_indep (map _ _) [] (nth 0 pts [])) by (rewrite map_length, seq_length; auto).
  rewrite (map_nth (fun i => nth i pts [])), seq_nth by auto. auto.
Qed.
Example stage_met :
  exists ze zc, cloister ref_pearson (fun pts => Some (seq 0 (length pts))) ref_x ref_a 3 (5#100) (7#10) = Ok (ze, zc) /\
    length ze = 8 /\ length zc = 4.
Proof. eexists. eexists. split; [vm_compute; reflexivity|]. auto. Qed.

Print Assumptions C45_vertices_enumerate_corners.
Print Assumptions C45_coordinates_are_extremes.
Print Assumptions C46_removed_iff_contradicts.
Print Assumptions C46_boundary_of_kept_corners.
Print Assumptions C46_extremes_when_features_straddle_zero.
Print Assumptions C46_positive_features_ignore_correlation.
Print Assumptions C46_opposite_extremes_removed_refuted.
Print Assumptions C47_boundary_points_are_projected_corners.
Print Assumptions C47_correlated_boundary_inside_plain.
Print Assumptions C47_fallback_to_plain.
Print Assumptions C47_exactly_these_points.
Print Assumptions C47_when_it_succeeds.
Print Assumptions C75_plain_boundary_encloses_instances.
Print Assumptions C75_correlated_boundary_encloses_instances_refuted.
