(** Property C131: what CLOISTER's boundaries depend on. *)
From Coq Require Import Permutation Lqa.
From Verif Require Import Base BaseLemmas Num Mat CloisterModel CloisterSpec PilotProofs CloisterProofs CloisterProps InstOrderSpec InvarSpec CloInvSpec CloInvProofs.
Import CloInvSpec.
Set Implicit Arguments.
Open Scope nat_scope.
Open Scope list_scope.

(** More instances, with the same projection: the plain boundary encloses at least what it enclosed before. *)
Theorem C131_more_instances :
  forall pearson hull x x' a n p_val c_thres ze zc ze' zc',
    hull_correct hull -> complete x n -> complete x' n -> (forall r, In r a -> ~ In None r) ->
    (forall r, In r x -> In r x') ->
    cloister pearson hull x a n p_val c_thres = Ok (ze, zc) ->
    cloister pearson hull x' a n p_val c_thres = Ok (ze', zc') ->
    hull (map (mulv a) (x_edge x' n)) <> None ->
    forall p, in_hull ze p -> in_hull ze' p.
Proof.
  intros pearson hull x x' a n p_val c ze zc ze' zc' HC C C' Ha I H H' N p. apply in_hull_sub. intros q Hq.
  destruct (@C47_boundary_points_are_projected_corners _ _ _ _ _ _ _ _ _ HC H (map Some q) (or_introl Hq)) as (b & Eb).
  destruct (@cloister_inv _ _ _ _ _ _ _ _ _ H') as (_ & rho & _ & Ez & _).
  destruct (@corner_in_larger_box x x' n b C C' I) as (p0 & Ep & Cv). rewrite Ep in Eb.
  destruct (@mulv_finite a (map Some p0) Ha) as (aq & pq & -> & E & E').
  { intro X. apply in_map_iff in X. destruct X as (? & ? & _). discriminate. }
  assert (G : forall u v : list Q, map Some u = map Some v -> u = v).
  { intros u v Y. apply (f_equal (map (fun v : num => match v with Some q => q | None => 0%Q end))) in Y. rewrite !map_map, !map_id in Y. auto. }
  apply G in E. subst pq. rewrite E' in Eb. apply G in Eb. subst q.
  apply conv_trans with (s := fun q => In (map Some q) (map (mulv (map (map Some) aq)) (x_edge x' n))).
  - eapply qproj_image; [|exact Cv]. intros q (b' & E1). simpl. rewrite <- qproj_mulv, E1. apply in_map. apply corner_in.
  - intros q Hq'. rewrite Ez. apply hull_contains; auto.
Qed.

(** The instances in another order: the same boundaries. *)
Theorem C131_order_of_instances :
  forall pearson hull x x' a n p_val c_thres ze zc,
    hull_correct hull -> set_determined hull -> order_blind pearson -> (0 <= c_thres)%Q ->
    complete x n -> (forall r, In r a -> ~ In None r) -> Permutation x x' ->
    cloister pearson hull x a n p_val c_thres = Ok (ze, zc) ->
    exists ze' zc', cloister pearson hull x' a n p_val c_thres = Ok (ze', zc') /\ same_region ze ze' /\ same_region zc zc'.
Proof.
  intros pearson hull x x' a n p_val c ze zc HC SD OB Hc C Ha P H.
  assert (C' : complete x' n).
  { destruct C as [N C]. split; [intros ->; apply N; apply Permutation_nil, Permutation_sym; auto|].
    intros r Hr. apply C. eapply Permutation_in; [apply Permutation_sym; exact P|auto]. }
  assert (PE : forall j k, pearson (column None x j) (column None x k) = pearson (column None x' j) (column None x' k)).
  { intros j k. apply OB; [unfold column; rewrite !map_length; auto|unfold column; rewrite !map_length; auto|].
    rewrite !combine_columns. apply Permutation_map; auto. }
  assert (exists z, cloister pearson hull x' a n p_val c = Ok z) as ([ze' zc'] & H').
  { apply cloister_total; [apply C'|]. intros j k Hj Hk Nj. rewrite <- PE. revert j k Hj Hk Nj.
    apply (@cloister_total pearson hull x a n p_val c); [apply C|eauto]. }
  exists ze', zc'. split; auto.
  assert (M : forall b, matches pearson x a x' a n p_val c b b).
  { intro b. assert (E : equal_point (corner x n b) (corner x' n b)).
    { apply corner_same_instances; auto. intro r. split; [apply Permutation_in; auto|apply Permutation_in, Permutation_sym; auto]. }
    split; [apply mulv_equal; auto|]. apply contradicts_same; auto. intros j k _. apply sign_equal; apply equal_nth; auto. }
  eapply (@core pearson hull x a x' a n p_val c); eauto; intro b; apply project_finite; auto.
Qed.

(** The features in another order, in the data and in the projection: the same boundaries. *)
Theorem C131_order_of_features :
  forall pearson hull x a s n p_val c_thres ze zc,
    hull_correct hull -> set_determined hull -> symmetric pearson -> (0 <= c_thres)%Q ->
    complete x n -> (forall r, In r a -> length r = n /\ ~ In None r) -> Permutation s (seq 0 n) ->
    cloister pearson hull x a n p_val c_thres = Ok (ze, zc) ->
    exists ze' zc', cloister pearson hull (map (in_order s) x) (map (in_order s) a) n p_val c_thres = Ok (ze', zc') /\
      same_region ze ze' /\ same_region zc zc'.
Proof.
  intros pearson hull x a s n p_val c ze zc HC SD Sy Hc C Ha P H.
  assert (C' := order_complete P C).
  assert (Ls : length s = n) by (rewrite (Permutation_length P), seq_length; auto).
  assert (Ds : NoDup s) by (eapply Permutation_NoDup; [apply Permutation_sym; exact P|apply seq_NoDup]).
  assert (Hs : forall j, j < n -> nth j s 0 < n). { intros j Hj. assert (I : In (nth j s 0) s) by (apply nth_In; lia). apply (Permutation_in _ P), in_seq in I. lia. }
  assert (exists z, cloister pearson hull (map (in_order s) x) (map (in_order s) a) n p_val c = Ok z) as ([ze' zc'] & H').
  { apply cloister_total; [apply C'|]. intros j k Hj Hk Nj. rewrite !order_column by lia.
    assert (T := proj1 (@cloister_total pearson hull x a n p_val c (proj1 C)) (ex_intro _ _ H)).
    apply T; auto. intro X. apply Nj. apply (proj1 (NoDup_nth s 0) Ds); auto; lia. }
  exists ze', zc'. split; auto.
  assert (M : forall b, matches pearson x a (map (in_order s) x) (map (in_order s) a) n p_val c b (fun j => b (nth j s 0))).
  { intro b. unfold matches. rewrite order_corner by auto. split.
    - apply point_sym. apply order_mulv with n; auto; [intros r Hr; apply Ha; auto|apply corner_length].
    - symmetry. apply order_contradicts; auto. apply corner_length. }
  eapply (@core pearson hull x a (map (in_order s) x) (map (in_order s) a) n p_val c); eauto.
  - intro b. apply project_finite; auto. intros r Hr. apply Ha; auto.
  - intro b. apply project_finite; auto. intros r Hr. apply in_map_iff in Hr. destruct Hr as (r0 & <- & Hr). destruct (Ha r0 Hr) as [L F].
    intro X. unfold in_order in X. apply in_map_iff in X. destruct X as (j & E & Hj). apply (Permutation_in _ P), in_seq in Hj.
    apply F. rewrite <- E. apply nth_In. unfold num in *. lia.
  - intro b'. exists (fun j => b' (place s j)). specialize (M (fun j => b' (place s j))). cbv beta in M.
    unfold matches in *. rewrite (@corner_ext (map (in_order s) x) n b' (fun j => b' (place s (nth j s 0)))); auto.
    intros j Hj. rewrite nth_place by (auto; lia). auto.
Qed.

(** Every feature in a unit of its own, with the projection adapted: the same boundaries. *)
Theorem C131_unit :
  forall pearson hull x a a' k n p_val c_thres ze zc,
    hull_correct hull -> set_determined hull -> unit_blind pearson -> (0 <= c_thres)%Q ->
    complete x n -> (forall r, In r a -> ~ In None r) -> (forall r, In r a' -> ~ In None r) ->
    length k = n -> (forall q, In q k -> (0 < q)%Q) ->
    Forall2 (fun r r' => equal_point (in_units k r') r) a a' ->
    cloister pearson hull x a n p_val c_thres = Ok (ze, zc) ->
    exists ze' zc', cloister pearson hull (map (in_units k) x) a' n p_val c_thres = Ok (ze', zc') /\
      same_region ze ze' /\ same_region zc zc'.
Proof.
  intros pearson hull x a a' k n p_val c ze zc HC SD UB Hc C Ha Ha' L Pk Fa H.
  assert (C' := @units_complete k x n C L).
  assert (Pn : forall j, j < n -> (0 < nth j k 0)%Q) by (intros j Hj; apply Pk, nth_In; lia).
  assert (PE : forall i j, i < n -> j < n -> pearson (column None (map (in_units k) x) i) (column None (map (in_units k) x) j) = pearson (column None x i) (column None x j)).
  { intros i j Hi Hj. rewrite !(@units_column k x n) by auto. apply UB; auto. }
  assert (exists z, cloister pearson hull (map (in_units k) x) a' n p_val c = Ok z) as ([ze' zc'] & H').
  { apply cloister_total; [apply C'|]. intros i j Hi Hj Nj. rewrite PE by auto. revert i j Hi Hj Nj.
    apply (@cloister_total pearson hull x a n p_val c); [apply C|eauto]. }
  exists ze', zc'. split; auto.
  assert (M : forall b, matches pearson x a (map (in_units k) x) a' n p_val c b b).
  { intro b. assert (E := @units_corner k x n b C L Pk). split.
    - assert (G : equal_point (mulv a' (in_units k (corner x n b))) (mulv a (corner x n b))) by (apply units_mulv; [rewrite corner_length; auto|auto]).
      apply point_sym. assert (T : forall u v w, equal_point u v -> equal_point v w -> equal_point u w).
      { clear. intros u v w E. revert w. induction E; intros w E'; inversion E'; subst; constructor; [eapply number_trans; eauto|apply IHE; auto]. }
      eapply T; [apply mulv_equal; exact E|exact G].
    - symmetry. apply contradicts_same; [intros; apply PE; lia|]. intros i j Hij.
      rewrite (@sign_equal _ _ (nth i (in_units k (corner x n b)) None) (nth j (in_units k (corner x n b)) None)) by (apply equal_nth; auto).
      rewrite !units_nth by (rewrite corner_length; auto). apply units_sign; apply Pn; lia. }
  eapply (@core pearson hull x a (map (in_units k) x) a' n p_val c); eauto; intro b; apply project_finite; auto.
Qed.

Lemma conv_map (f : list Q -> list Q) (s t : list Q -> Prop) p :
  (forall a b, same_point a b -> same_point (f a) (f b)) ->
  (forall t a b, length a = length b -> same_point (f (mix t a b)) (mix t (f a) (f b))) ->
  (forall a b, length a = length b -> length (f a) = length (f b)) ->
  (forall q, s q -> conv t (f q)) -> conv s p -> conv t (f p).
Proof.
  intros H1 H2 H3 H4 Cv. apply conv_trans with (s := conv t); [|auto].
  eapply conv_image; eauto.
Qed.
(** Every feature from a zero point of its own: the plain boundary moves with the projections of the
    instances. *)
Theorem C131_zero_point :
  forall pearson hull x a d w n p_val c_thres ze zc ze' zc',
    hull_correct hull -> complete x n -> (forall r, In r a -> ~ In None r) -> length d = n ->
    mulv a (map Some d) = map Some w ->
    cloister pearson hull x a n p_val c_thres = Ok (ze, zc) ->
    cloister pearson hull (map (shifted d) x) a n p_val c_thres = Ok (ze', zc') ->
    hull (map (mulv a) (x_edge x n)) <> None -> hull (map (mulv a) (x_edge (map (shifted d) x) n)) <> None ->
    forall p, length p = length a -> (in_hull ze p <-> in_hull ze' (moved w p)).
Proof.
  intros pearson hull x a d w n p_val c ze zc ze' zc' HC C Ha L Ew H H' N N' p Lp.
  destruct (@cloister_inv _ _ _ _ _ _ _ _ _ H) as (_ & rho & _ & Ez & _).
  destruct (@cloister_inv _ _ _ _ _ _ _ _ _ H') as (_ & rho' & _ & Ez' & _).
  assert (G : forall u v : list Q, map Some u = map Some v -> u = v).
  { intros u v Y. apply (f_equal (map (fun v : num => match v with Some q => q | None => 0%Q end))) in Y. rewrite !map_map, !map_id in Y. auto. }
  assert (exists aq, a = map (map Some) aq) as [aq ->].
  { clear - Ha. induction a as [|r a IH]; [exists []; auto|]. destruct IH as [aq ->]; [intros; apply Ha; right; auto|].
    destruct (no_none r (Ha r (or_introl eq_refl))) as [q ->]. exists (q :: aq). auto. }
  rewrite qproj_mulv in Ew. apply G in Ew. subst w. set (a := map (map Some) aq) in *.
  assert (Lw : length (qproj aq d) = length p) by (unfold qproj; rewrite map_length; unfold a in Lp; rewrite map_length in Lp; lia).
  assert (K : forall b, exists q q', corner x n b = map Some q /\ mulv a (corner x n b) = map Some (qproj aq q) /\
    mulv a (corner (map (shifted d) x) n b) = map Some q' /\ same_point (moved (qproj aq d) (qproj aq q)) q').
  { intro b. destruct (@corner_finite x n b C) as (q & E). exists q.
    assert (Lq : length q = n) by (rewrite <- (corner_length x n b), E, map_length; auto).
    assert (E1 := @shifted_corner d x n b C L). rewrite E, shifted_some in E1 by lia. apply point_sym in E1.
    destruct (equal_some _ E1) as (q1 & E2 & S1). rewrite E, E2. unfold a. rewrite !qproj_mulv. exists (qproj aq q1). repeat (split; [auto|]).
    eapply same_trans; [apply same_sym; apply qproj_moved; lia|]. unfold qproj. clear - S1. induction aq; simpl; constructor; auto. apply qdot_same; auto. }
  split; intro Cv.
  - unfold in_hull in *. apply conv_map with (s := fun q => In (map Some q) ze); auto.
    + intros; apply moved_same; auto.
    + intros; apply moved_mix; auto.
    + intros u v Luv. rewrite !moved_length. lia.
    + intros q Hq. rewrite Ez in Hq. apply (@hull_points _ _ _ HC) in Hq. apply in_map_iff in Hq. destruct Hq as (v & Ev & Hv).
      apply edge_in in Hv. destruct Hv as (b & ->). destruct (K b) as (q0 & q' & E0 & E1 & E2 & S2). rewrite E1 in Ev. apply G in Ev. subst q.
      eapply conv_same; [|apply same_sym; exact S2]. rewrite Ez'. apply hull_contains; auto. rewrite <- E2. apply in_map, corner_in.
  - set (back := moved (map Qopp (qproj aq d))).
    assert (Bk : forall q, length q = length p -> same_point (back (moved (qproj aq d) q)) q).
    { intros q Lq. unfold back. rewrite <- Lq in Lw. clear - Lw. revert q Lw. induction (qproj aq d) as [|u w IH]; intros [|v q] Lw; simpl in *; try lia; constructor; [ring|apply IH; lia]. }
    eapply conv_same; [|apply Bk; auto]. unfold in_hull in *. apply conv_map with (s := fun q => In (map Some q) ze'); auto; unfold back.
    + intros; apply moved_same; auto.
    + intros; apply moved_mix; auto.
    + intros u v Luv. rewrite !moved_length. lia.
    + fold back. intros q Hq. rewrite Ez' in Hq. apply (@hull_points _ _ _ HC) in Hq. apply in_map_iff in Hq. destruct Hq as (v & Ev & Hv).
      apply edge_in in Hv. destruct Hv as (b & ->). destruct (K b) as (q0 & q' & E0 & E1 & E2 & S2). rewrite E2 in Ev. apply G in Ev. subst q.
      eapply conv_same; [|unfold back; apply moved_same; exact S2]. fold back.
      eapply conv_same; [|apply same_sym; apply Bk; unfold qproj in *; rewrite map_length in *; auto]. rewrite Ez. apply hull_contains; auto. rewrite <- E1. apply in_map, corner_in.
Qed.

(* ------------------------------------------------------------------ a coefficient and data *)
(** The sign of the covariance, always significant. *)
Definition of_pairs (ps : list (num * num)) : res clerr (num * num) :=
  match nsum (map nprod ps), nsum (map fst ps), nsum (map snd ps) with
  | Some s, Some a, Some b => Ok (Some (inject_Z (Z.sgn (Qnum (s * qlen ps - a * b)))), Some (1#1000))
  | _, _, _ => Err EPearson
  end.
Definition sign_pearson (u v : list num) : res clerr (num * num) := of_pairs (combine u v).
Lemma sgn_same p q k : (0 < k)%Q -> (p == k * q)%Q -> Z.sgn (Qnum p) = Z.sgn (Qnum q).
Proof.
  intros Hk E. destruct (sgn_cases p) as [[Hp ->]|[[Hp ->]|[Hp ->]]]; destruct (sgn_cases q) as [[Hq ->]|[[Hq ->]|[Hq ->]]]; auto; exfalso; rewrite E in Hp; nra.
Qed.
Lemma pairs_same ps ps' k : (0 < k)%Q ->
  match nsum (map nprod ps), nsum (map fst ps), nsum (map snd ps), nsum (map nprod ps'), nsum (map fst ps'), nsum (map snd ps') with
  | Some s, Some a, Some b, Some s', Some a', Some b' => (s' * qlen ps' - a' * b' == k * (s * qlen ps - a * b))%Q
  | Some _, Some _, Some _, _, _, _ => False
  | _, _, _, Some _, Some _, Some _ => False
  | _, _, _, _, _, _ => True
  end -> of_pairs ps' = of_pairs ps.
Proof.
  intros Hk H. unfold of_pairs. destruct (nsum (map nprod ps)), (nsum (map fst ps)), (nsum (map snd ps)), (nsum (map nprod ps')), (nsum (map fst ps')), (nsum (map snd ps'));
    try contradiction; auto.
  rewrite (@sgn_same _ _ k Hk H). auto.
Qed.
Lemma sign_order_blind : order_blind sign_pearson.
Proof.
  intros u v u' v' _ _ P. unfold sign_pearson. symmetry. apply pairs_same with 1%Q; [lra|].
  assert (S1 := nsum_perm (Permutation_map nprod P)). assert (S2 := nsum_perm (Permutation_map fst P)). assert (S3 := nsum_perm (Permutation_map snd P)).
  assert (L : qlen (combine u v) = qlen (combine u' v')) by (unfold qlen; rewrite (Permutation_length P); auto). rewrite L.
  destruct (nsum (map nprod (combine u v))), (nsum (map fst (combine u v))), (nsum (map snd (combine u v))),
    (nsum (map nprod (combine u' v'))), (nsum (map fst (combine u' v'))), (nsum (map snd (combine u' v'))); simpl in *; try contradiction; auto.
  rewrite S1, S2, S3. ring.
Qed.
Lemma sign_symmetric : symmetric sign_pearson.
Proof.
  intros u v. unfold sign_pearson. symmetry. apply pairs_same with 1%Q; [lra|].
  replace (combine v u) with (map (fun p : num * num => (snd p, fst p)) (combine u v)) by (revert v; induction u as [|a u IH]; intros [|b v]; simpl; f_equal; auto).
  rewrite !map_map. simpl. change (map (fun x : num * num => fst x)) with (map (@fst num num)). change (map (fun x : num * num => snd x)) with (map (@snd num num)).
  assert (E : same_number (nsum (map nprod (combine u v))) (nsum (map (fun x : num * num => nprod (snd x, fst x)) (combine u v)))).
  { induction (combine u v) as [|[a b] l IH]; simpl; [reflexivity|]. apply nadd_same; auto. unfold nprod. simpl. destruct a, b; simpl; auto. ring. }
  assert (L : qlen (map (fun p : num * num => (snd p, fst p)) (combine u v)) = qlen (combine u v)) by (unfold qlen; rewrite map_length; auto). rewrite L.
  destruct (nsum (map nprod (combine u v))), (nsum (map (fun x : num * num => nprod (snd x, fst x)) (combine u v))), (nsum (map fst (combine u v))), (nsum (map snd (combine u v)));
    simpl in *; try contradiction; auto. rewrite E. ring.
Qed.
Lemma combine_map2 (f g : num -> num) u v : combine (map f u) (map g v) = map (fun p => (f (fst p), g (snd p))) (combine u v).
Proof. revert v. induction u as [|a u IH]; intros [|b v]; simpl; auto. f_equal. auto. Qed.
Lemma sums_affine (f0 g0 : Q -> Q) (d e k l : Q) ps : (forall q, f0 q == d + k * q)%Q -> (forall q, g0 q == e + l * q)%Q ->
  let f := option_map f0 in let g := option_map g0 in
  let ps' := map (fun p : num * num => (f (fst p), g (snd p))) ps in
  match nsum (map nprod ps), nsum (map fst ps), nsum (map snd ps), nsum (map nprod ps'), nsum (map fst ps'), nsum (map snd ps') with
  | Some s, Some a, Some b, Some s', Some a', Some b' =>
      (s' == k * l * s + k * e * a + l * d * b + d * e * qlen ps)%Q /\ (a' == k * a + d * qlen ps)%Q /\ (b' == l * b + e * qlen ps)%Q
  | Some _, Some _, Some _, _, _, _ => False
  | _, _, _, Some _, Some _, Some _ => False
  | _, _, _, _, _, _ => True
  end.
Proof.
  intros Hf Hg f g. induction ps as [|[a b] ps IH].
  - cbv zeta. simpl. unfold qlen. simpl. repeat split; ring.
  - cbv zeta in *. set (ps' := map (fun p : num * num => (f (fst p), g (snd p))) ps) in *. cbn [map fst snd]. fold ps'.
    change (nsum (nprod (a, b) :: map nprod ps)) with (nadd (nprod (a, b)) (nsum (map nprod ps))).
    change (nsum (a :: map fst ps)) with (nadd a (nsum (map fst ps))). change (nsum (b :: map snd ps)) with (nadd b (nsum (map snd ps))).
    change (nsum (nprod (f a, g b) :: map nprod ps')) with (nadd (nprod (f a, g b)) (nsum (map nprod ps'))).
    change (nsum (f a :: map fst ps')) with (nadd (f a) (nsum (map fst ps'))). change (nsum (g b :: map snd ps')) with (nadd (g b) (nsum (map snd ps'))).
    assert (Q : (qlen ((a, b) :: ps) == 1 + qlen ps)%Q).
    { unfold qlen. cbn [length]. rewrite Nat2Z.inj_succ. unfold Z.succ. rewrite inject_Z_plus. ring. }
    set (m := qlen ((a, b) :: ps)) in *. clearbody m.
    change (nprod (a, b)) with (nmul a b). change (nprod (f a, g b)) with (nmul (f a) (g b)).
    destruct a as [a|]; destruct b as [b|]; unfold f, g; cbn [option_map nmul];
    destruct (nsum (map nprod ps)), (nsum (map fst ps)), (nsum (map snd ps)), (nsum (map nprod ps')), (nsum (map fst ps')), (nsum (map snd ps'));
      cbn [nadd] in *; try contradiction; auto.
    destruct IH as (E1 & E2 & E3). repeat split; rewrite ?Hf, ?Hg, Q, ?E1, ?E2, ?E3; ring.
Qed.
Lemma six (s a b s' a' b' : num) (m d e k l : Q) :
  match s, a, b, s', a', b' with
  | Some s, Some a, Some b, Some s', Some a', Some b' =>
      (s' == k * l * s + k * e * a + l * d * b + d * e * m)%Q /\ (a' == k * a + d * m)%Q /\ (b' == l * b + e * m)%Q
  | Some _, Some _, Some _, _, _, _ => False
  | _, _, _, Some _, Some _, Some _ => False
  | _, _, _, _, _, _ => True
  end ->
  match s, a, b, s', a', b' with
  | Some s, Some a, Some b, Some s', Some a', Some b' => (s' * m - a' * b' == (k * l) * (s * m - a * b))%Q
  | Some _, Some _, Some _, _, _, _ => False
  | _, _, _, Some _, Some _, Some _ => False
  | _, _, _, _, _, _ => True
  end.
Proof. destruct s, a, b, s', a', b'; auto. intros (E1 & E2 & E3). rewrite E1, E2, E3. ring. Qed.
Lemma pairs_affine (f g : Q -> Q) (d e k l : Q) (ps : list (num * num)) : (0 < k)%Q -> (0 < l)%Q -> (forall q, f q == d + k * q)%Q -> (forall q, g q == e + l * q)%Q ->
  of_pairs (map (fun p : num * num => (option_map f (fst p) : num, option_map g (snd p) : num)) ps) = of_pairs ps.
Proof.
  intros Hk Hl Hf Hg. apply pairs_same with (k * l)%Q; [nra|].
  assert (L : forall h : num * num -> num * num, qlen (map h ps) = qlen ps) by (intro; unfold qlen; rewrite map_length; auto). rewrite L. clear L.
  apply (@six _ _ _ _ _ _ (qlen ps) d e k l). exact (@sums_affine f g d e k l ps Hf Hg).
Qed.
Lemma sign_affine (f g : Q -> Q) (d e k l : Q) (u v : list num) : (0 < k)%Q -> (0 < l)%Q -> (forall q, f q == d + k * q)%Q -> (forall q, g q == e + l * q)%Q ->
  sign_pearson (map (option_map f) u) (map (option_map g) v) = sign_pearson u v.
Proof. intros Hk Hl Hf Hg. unfold sign_pearson. rewrite combine_map2. exact (@pairs_affine f g d e k l (combine u v) Hk Hl Hf Hg). Qed.
Lemma sign_zero_blind : zero_blind sign_pearson.
Proof. intros d e u v _. apply sign_affine with d e 1%Q 1%Q; [lra|lra| |]; intro; ring. Qed.
Lemma sign_unit_blind : unit_blind sign_pearson.
Proof. intros k l u v Hk Hl. apply sign_affine with 0%Q 0%Q k l; auto; intro; ring. Qed.

(** The zero points matter to the correlated boundary: measured from another zero point, it encloses an
    instance that it excluded before, for every hull routine and although the correlations are the same. *)
Theorem C131_zero_point_and_correlations_refuted :
  exists pearson x a d row kept,
    zero_blind pearson /\ complete x 3 /\ In row x /\ length d = 3 /\
    kept = map (mulv a) [[Some (-1); Some (-1); Some (-1)]; [Some 1; Some 1; Some (-1)]; [Some (-1); Some (-1); Some 1]; [Some 1; Some 1; Some 1]]%Q /\
    forall hull, hull_correct hull -> hull kept <> None -> hull (map (mulv a) (x_edge (map (shifted d) x) 3)) <> None ->
      exists ze zc ze' zc' p p',
        cloister pearson hull x a 3 (5#100) (7#10) = Ok (ze, zc) /\
        cloister pearson hull (map (shifted d) x) a 3 (5#100) (7#10) = Ok (ze', zc') /\
        mulv a row = map Some p /\ mulv a (shifted d row) = map Some p' /\ ~ in_hull zc p /\ in_hull zc' p'.
Proof.
  exists sign_pearson, ref_x, ref_a, [2; 2; 2]%Q, (ref_row 0). eexists.
  assert (C : complete ref_x 3).
  { split; [discriminate|]. intros row Hr. unfold ref_x in Hr. apply in_map_iff in Hr. destruct Hr as (i & <- & _).
    split; auto. unfold ref_row. simpl. intros [X|[X|[X|[]]]]; discriminate. }
  split; [apply sign_zero_blind|]. split; [auto|]. split; [left; reflexivity|]. split; [auto|]. split; [reflexivity|].
  intros hull HC Hn Hn'.
  assert (H : exists ze zc, cloister sign_pearson hull ref_x ref_a 3 (5#100) (7#10) = Ok (ze, zc) /\ ~ in_hull zc [1; -(1#2)]%Q).
  { unfold cloister.
    replace (compute_correlation sign_pearson ref_x 3 (5#100)) with
      (@Ok clerr _ [[Some 0; Some 1; Some 0]; [Some 1; Some 0; Some 0]; [Some 0; Some 0; Some 0]]%Q) by (vm_compute; reflexivity).
    cbv iota.
    replace (select _ (x_edge ref_x 3)) with
      ([[Some (-1); Some (-1); Some (-1)]; [Some 1; Some 1; Some (-1)]; [Some (-1); Some (-1); Some 1]; [Some 1; Some 1; Some 1]]%Q : list (list num))
      by (vm_compute; reflexivity).
    set (kept := map (mulv ref_a) _) in Hn. fold kept.
    eexists. eexists. split; [reflexivity|].
    destruct (compute_convex_hull hull kept) as [|k0 kt] eqn:E.
    + exfalso. assert (X : in_hull [] [-1; -(3#2)]%Q).
      { rewrite <- E. apply hull_contains; auto. left. vm_compute. reflexivity. }
      clear -X. remember ([] : list (list num)) as l. unfold in_hull in X. induction X; subst; auto.
    + intro X. rewrite <- E in X. apply conv_halfspace with (w := [1; -1]%Q) (c := (1#2)%Q) in X.
      * simpl in X. lra.
      * intros q Hq. apply (@hull_points _ _ _ HC) in Hq. unfold kept in Hq. vm_compute in Hq.
        assert (G : forall l : list Q, map Some q = map Some l -> q = l).
        { intros l Y. apply (f_equal (map (fun v : num => match v with Some q => q | None => 0%Q end))) in Y. rewrite !map_map, !map_id in Y. auto. }
        repeat (destruct Hq as [Hq|Hq]; [symmetry in Hq|]); try contradiction.
        { specialize (G [-1; -3#2]%Q Hq). subst q. vm_compute. discriminate. }
        { specialize (G [1; 1#2]%Q Hq). subst q. vm_compute. discriminate. }
        { specialize (G [-1; -1#2]%Q Hq). subst q. vm_compute. discriminate. }
        { specialize (G [1; 3#2]%Q Hq). subst q. vm_compute. discriminate. } }
  destruct H as (ze & zc & H & Out).
  assert (C' := @shifted_complete [2; 2; 2]%Q _ _ C eq_refl).
  assert (exists z, cloister sign_pearson hull (map (shifted [2; 2; 2]%Q) ref_x) ref_a 3 (5#100) (7#10) = Ok z) as ([ze' zc'] & H').
  { apply cloister_total; [apply C'|]. intros j k Hj Hk _. rewrite !(@shifted_column _ _ 3) by auto.
    rewrite sign_zero_blind by (unfold column; rewrite !map_length; auto).
    destruct j as [|[|[|j]]]; [| | |lia]; (destruct k as [|[|[|k]]]; [| | |lia]; eexists; vm_compute; reflexivity). }
  assert (Ez : zc' = ze').
  { eapply (@C46_positive_features_ignore_correlation sign_pearson hull); [exact HC| |exact C'| |exact H']; [lra|].
    intros row v Hr Hv. apply in_map_iff in Hr. destruct Hr as (r & <- & Hr). unfold ref_x in Hr. apply in_map_iff in Hr. destruct Hr as (i & <- & _).
    unfold ref_row, shifted in Hv.
    destruct (i <? 8), (Nat.eqb i 0 || Nat.eqb i 8), (Nat.even i); simpl in Hv; destruct Hv as [<-|[<-|[<-|[]]]]; eexists; (split; [reflexivity|vm_compute; reflexivity]). }
  assert (Fa : forall r, In r ref_a -> ~ In None r) by (intros r [<-|[<-|[]]]; simpl; intuition discriminate).
  destruct (@C75_plain_boundary_encloses_instances _ _ _ _ _ _ _ _ _ HC C' Fa H' Hn' (shifted [2; 2; 2]%Q (ref_row 0)))
    as (p' & Ep' & In').
  { apply in_map. left. reflexivity. }
  exists ze, zc, ze', zc', [1; -(1#2)]%Q, p'. split; auto. split; auto. split; [vm_compute; reflexivity|]. split; auto. split; auto. rewrite Ez. auto.
Qed.

Definition all_points (pts : list (list num)) : option (list nat) := Some (seq 0 (length pts)).
(** Sixteen instances, three features: the hypotheses of the theorems are met with boundaries of eight and
    four points. *)
Example C131_met :
  hull_correct all_points /\ set_determined all_points /\
  order_blind sign_pearson /\ symmetric sign_pearson /\ unit_blind sign_pearson /\ zero_blind sign_pearson /\
  complete ref_x 3 /\ (forall r, In r ref_a -> length r = 3 /\ ~ In None r) /\
  Permutation [2; 0; 1] (seq 0 3) /\
  Forall2 (fun r r' => equal_point (in_units [2; 1; 1#2]%Q r') r) ref_a [[Some (1#2); Some 0; Some 0]; [Some 0; Some 1; Some 1]]%Q /\
  exists ze zc, cloister sign_pearson all_points ref_x ref_a 3 (5#100) (7#10) = Ok (ze, zc) /\ length ze = 8 /\ length zc = 4.
Proof.
  split; [exact hull_met|]. split; [intros pts pts' _ _; split; discriminate|].
  split; [apply sign_order_blind|]. split; [apply sign_symmetric|]. split; [apply sign_unit_blind|]. split; [apply sign_zero_blind|].
  split. { split; [discriminate|]. intros row Hr. unfold ref_x in Hr. apply in_map_iff in Hr. destruct Hr as (i & <- & _).
    split; auto. unfold ref_row. simpl. intros [X|[X|[X|[]]]]; discriminate. }
  split. { intros r [<-|[<-|[]]]; (split; [reflexivity|]); simpl; intuition discriminate. }
  split. { apply NoDup_Permutation; [repeat constructor; simpl; intuition lia|apply seq_NoDup|]. intro y. simpl. intuition lia. }
  split. { repeat constructor. }
  eexists. eexists. split; [vm_compute; reflexivity|]. auto.
Qed.

Print Assumptions C131_more_instances.
Print Assumptions C131_order_of_instances.
Print Assumptions C131_order_of_features.
Print Assumptions C131_unit.
Print Assumptions C131_zero_point.
Print Assumptions C131_zero_point_and_correlations_refuted.
