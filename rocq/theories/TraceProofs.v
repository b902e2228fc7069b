(** Lemmas about TRACE's footprints. *)
From Coq Require Import Lia Permutation Sorted.
From Verif Require Import TraceModel TraceSpec TraceDbscan FilterProofs.
Set Implicit Arguments.
Open Scope nat_scope.

(* ------------------------------------------------------------------ np.unique *)
Definition plt (a b : pt) : Prop := pltb a b = true.
Lemma peqb_eq a b : peqb a b = true <-> a = b.
Proof.
  unfold peqb. destruct a as [a1 a2], b as [b1 b2]. simpl. rewrite andb_true_iff, !Z.eqb_eq.
  split; [intros [-> ->]; auto|intros H; injection H; auto].
Qed.
Lemma plt_spec a b : plt a b <-> (fst a < fst b \/ fst a = fst b /\ snd a < snd b)%Z.
Proof. unfold plt, pltb. rewrite orb_true_iff, andb_true_iff, !Z.ltb_lt, Z.eqb_eq. tauto. Qed.
Lemma plt_trans a b c : plt a b -> plt b c -> plt a c.
Proof. rewrite !plt_spec. lia. Qed.
Lemma plt_irrefl a : ~ plt a a.
Proof. rewrite plt_spec. lia. Qed.
Lemma plt_total a b : peqb a b = false -> pltb a b = false -> plt b a.
Proof.
  intros E L. rewrite plt_spec. unfold peqb in E. unfold pltb in L.
  apply orb_false_iff in L. destruct L as [L1 L2]. apply Z.ltb_ge in L1.
  destruct (Z.eqb_spec (fst a) (fst b)); simpl in *; [|lia].
  apply Z.ltb_ge in L2. apply Z.eqb_neq in E. lia.
Qed.

Lemma uins_in a l q : In q (uins a l) <-> q = a \/ In q l.
Proof.
  induction l as [|b t IH]; simpl; [intuition congruence|].
  destruct (peqb a b) eqn:E; [apply peqb_eq in E; subst; simpl; intuition congruence|].
  destruct (pltb a b); simpl; [intuition congruence|]. rewrite IH. tauto.
Qed.
Lemma unique_in l q : In q (unique l) <-> In q l.
Proof.
  induction l as [|a l IH]; simpl; [tauto|]. fold (unique l). rewrite uins_in, IH. intuition congruence.
Qed.
Lemma uins_sorted a l : StronglySorted plt l -> StronglySorted plt (uins a l).
Proof.
  induction l as [|b t IH]; intros S; simpl; [constructor; constructor|].
  inversion S as [|? ? S' F]; subst.
  destruct (peqb a b) eqn:E; auto. destruct (pltb a b) eqn:L.
  - constructor; auto. constructor; auto. rewrite Forall_forall in *. intros q Hq. eapply plt_trans; [exact L|auto].
  - constructor; auto. rewrite Forall_forall in *. intros q Hq. apply uins_in in Hq. destruct Hq as [->|Hq]; auto.
    apply plt_total; auto.
Qed.
Lemma unique_sorted l : StronglySorted plt (unique l).
Proof. induction l; simpl; [constructor|apply uins_sorted; auto]. Qed.
Lemma sorted_ext l : forall l', StronglySorted plt l -> StronglySorted plt l' ->
  (forall q, In q l <-> In q l') -> l = l'.
Proof.
  induction l as [|a l IH]; intros [|b l'] S S' H; auto.
  - exfalso. apply (H b). left; auto.
  - exfalso. apply (H a). left; auto.
  - inversion S as [|? ? Sl F]; subst. inversion S' as [|? ? Sl' F']; subst. rewrite Forall_forall in *.
    assert (a = b).
    { destruct (proj1 (H a) (or_introl eq_refl)) as [|X]; auto.
      destruct (proj2 (H b) (or_introl eq_refl)) as [|Y]; auto.
      exfalso. apply (@plt_irrefl a). eapply plt_trans; [apply F; eauto|apply F'; auto]. }
    subst b. f_equal. apply IH; auto. intros q. split; intros Hq.
    + destruct (proj1 (H q) (or_intror Hq)) as [<-|]; auto. exfalso. apply (@plt_irrefl a). auto.
    + destruct (proj2 (H q) (or_intror Hq)) as [<-|]; auto. exfalso. apply (@plt_irrefl a). auto.
Qed.
Lemma unique_perm l l' : Permutation l l' -> unique l = unique l'.
Proof.
  intros P. apply sorted_ext; try apply unique_sorted. intros q. rewrite !unique_in.
  split; apply Permutation_in; auto. symmetry. auto.
Qed.
Lemma sorted_nodup l : StronglySorted plt l -> NoDup l.
Proof.
  induction 1 as [|a l S IH F]; constructor; auto. intro I. rewrite Forall_forall in F.
  apply (@plt_irrefl a). auto.
Qed.
Lemma unique_nodup l : NoDup (unique l).
Proof. apply sorted_nodup, unique_sorted. Qed.

Lemma unique_three l : 3 <= length (unique l) <->
  exists a b c, In a l /\ In b l /\ In c l /\ a <> b /\ b <> c /\ a <> c.
Proof.
  split.
  - intros H. pose proof (unique_nodup l) as N. pose proof (unique_in l) as I.
    destruct (unique l) as [|a [|b [|c t]]]; simpl in H; try lia.
    exists a, b, c. rewrite <- !I. inversion N as [|? ? N1 N']; subst. inversion N' as [|? ? N2 _]; subst.
    simpl in *. repeat split; auto; intros ->; tauto.
  - intros (a & b & c & A & B & C & X & Y & Z).
    change 3 with (length [a; b; c]). apply NoDup_incl_length.
    + repeat constructor; simpl; intuition congruence.
    + intros q [<-|[<-|[<-|[]]]]; apply unique_in; auto.
Qed.

(* ------------------------------------------------------------------ masks *)
Lemma select_pair {R A} (f : R -> A) (g : R -> bool) rows :
  select (map g rows) (map f rows) = map f (filter g rows).
Proof. induction rows as [|r t IH]; simpl; auto. destruct (g r); simpl; rewrite IH; auto. Qed.
Lemma take_rows_pair {R A} (f : R -> A) (g : R -> bool) rows :
  take_rows (map f rows) (map g rows) = Ok (map f (filter g rows)).
Proof. unfold take_rows. rewrite !map_length, Nat.eqb_refl, select_pair. auto. Qed.
Lemma take_rows_ok {A} (z : list A) y : length z = length y -> take_rows z y = Ok (select y z).
Proof. intros E. unfold take_rows. rewrite E, Nat.eqb_refl. auto. Qed.
Lemma filter_perm {A} (p : A -> bool) l l' : Permutation l l' -> Permutation (filter p l) (filter p l').
Proof.
  induction 1; simpl; auto.
  - destruct (p x); auto.
  - destruct (p x), (p y); auto. constructor.
  - etransitivity; eauto.
Qed.
Lemma forallb_perm {A} (p : A -> bool) l l' : Permutation l l' -> forallb p l = forallb p l'.
Proof.
  induction 1; simpl; auto.
  - rewrite IHPermutation. auto.
  - rewrite !andb_assoc. f_equal. apply andb_comm.
  - congruence.
Qed.
Lemma select_in_sub {A} (y : list bool) (z : list A) q : In q (select y z) -> In q z.
Proof.
  revert z. induction y as [|b y IH]; intros [|a z]; simpl; try tauto.
  destruct b; simpl; intuition.
Qed.
Lemma select_filter_le {A} (p : A -> bool) (y : list bool) (z : list A) :
  length (filter p (select y z)) <= length (filter p z).
Proof.
  revert z. induction y as [|b y IH]; intros [|a z]; simpl; try lia.
  destruct b; simpl; destruct (p a); simpl; specialize (IH z); lia.
Qed.
Lemma select_flagged (z : list pt) y q : length z = length y -> In q (select y z) <-> flagged z y q.
Proof.
  unfold flagged. revert y. induction z as [|a z IH]; intros [|b y] E; simpl in *; try tauto; try discriminate.
  injection E as E. destruct b; simpl; rewrite IH by auto; intuition congruence.
Qed.
Lemma map_select_all {A} (z : list A) : select (map (fun _ => true) z) z = z.
Proof. induction z; simpl; f_equal; auto. Qed.

Section T.
  Variable G : Type.
  Variable is_empty : G -> bool.
  Variable area : G -> Q.
  Variable contains : G -> pt -> bool.
  Variable contains_all : G -> list pt -> bool.
  Variable intersection difference union : G -> G -> G.
  Variable no_polygon : G.
  Variable smooth : G -> G.
  Variable triangulate : G -> list G.
  Variable convex_hull : G -> G.
  Variable geoms : G -> list G.
  Variable alphashape : list pt -> option G.
  Variable epsilon : list pt -> nat -> Z.

  Notation build := (build is_empty area contains difference union no_polygon smooth triangulate convex_hull alphashape epsilon).
  Notation fit_poly := (fit_poly is_empty contains difference triangulate convex_hull alphashape).
  Notation remove_impure := (remove_impure contains difference convex_hull).
  Notation build_loop := (build_loop is_empty contains difference union triangulate convex_hull alphashape).
  Notation from_polygon := (from_polygon area contains smooth).
  Notation count_in := (count_in contains).
  Notation contra := (contra is_empty area contains contains_all intersection difference smooth geoms).
  Notation contra_loop := (contra_loop is_empty area contains contains_all intersection difference geoms).
  Notation tight := (tight contains_all geoms).
  Notation tight_loop := (tight_loop contains_all).
  Notation resolve := (resolve is_empty area contains contains_all intersection difference smooth geoms).
  Notation process_algorithm := (process_algorithm is_empty area contains difference union no_polygon smooth triangulate convex_hull alphashape epsilon).
  Notation collect := (collect is_empty area contains difference union no_polygon smooth triangulate convex_hull alphashape epsilon).
  Notation trace := (trace is_empty area contains contains_all intersection difference union no_polygon smooth triangulate convex_hull geoms alphashape epsilon).
  Notation footprint := (footprint G).
  Notation no_footprint := (no_footprint G).

  (* ---------------------------------------------------------------- order of the instances *)
  Section Order.
    Variable R : Type.
    Variable f : R -> pt.
    Variables rows rows' : list R.
    Hypothesis P : Permutation rows rows'.

    Lemma count_perm g l l' : Permutation l l' -> count_in g l = count_in g l'.
    Proof. intros H. unfold TraceModel.count_in. apply Permutation_length, filter_perm, H. Qed.
    Lemma count_rows g : count_in g (map f rows) = count_in g (map f rows').
    Proof. apply count_perm, Permutation_map, P. Qed.
    Lemma count_filtered g (y : R -> bool) : count_in g (map f (filter y rows)) = count_in g (map f (filter y rows')).
    Proof. apply count_perm, Permutation_map, filter_perm, P. Qed.

    Lemma remove_perm purity y pieces g :
      remove_impure (map f rows) purity (map y rows) pieces g = remove_impure (map f rows') purity (map y rows') pieces g.
    Proof.
      revert g. induction pieces as [|p t IH]; intros g; simpl; auto.
      rewrite !take_rows_pair, count_rows, count_filtered. apply IH.
    Qed.
    Lemma fit_perm purity y data :
      fit_poly (map f rows) purity data (map y rows) = fit_poly (map f rows') purity data (map y rows').
    Proof.
      unfold TraceModel.fit_poly.
      rewrite (@forallb_perm _ (fun b => b) (map y rows) (map y rows')) by (apply Permutation_map, P).
      destruct (Nat.ltb _ _); auto. destruct (alphashape data); auto.
      destruct (forallb _ _); auto. destruct (is_empty g); auto. rewrite remove_perm. auto.
    Qed.
    Lemma loop_perm purity y rws labels todo acc :
      build_loop (map f rows) purity (map y rows) rws labels todo acc =
      build_loop (map f rows') purity (map y rows') rws labels todo acc.
    Proof.
      revert acc. induction todo as [|i t IH]; intros acc; simpl; auto. rewrite fit_perm.
      destruct (fit_poly _ _ _ _) as [[aux|]|]; auto. destruct (is_empty aux); auto.
    Qed.
    Lemma from_perm g y s : from_polygon g (map f rows) (map y rows) s = from_polygon g (map f rows') (map y rows') s.
    Proof.
      unfold TraceModel.from_polygon. destruct g as [g|]; auto.
      rewrite !take_rows_pair, count_filtered, count_rows. auto.
    Qed.
    Lemma build_perm purity y :
      build (map f rows) purity (map y rows) = build (map f rows') purity (map y rows').
    Proof.
      unfold TraceModel.build. rewrite !take_rows_pair.
      rewrite (@unique_perm (map f (filter y rows)) (map f (filter y rows'))) by (apply Permutation_map, filter_perm, P).
      destruct (Nat.ltb _ _); auto.
      unfold run_dbscan.
      replace (min_points (map y rows)) with (min_points (map y rows')).
      2: { unfold min_points. do 4 f_equal. apply Permutation_length, filter_perm, Permutation_map. symmetry. apply P. }
      destruct (dbscan _ _ _); auto. rewrite loop_perm. destruct (build_loop _ _ _ _ _ _ _); auto. apply from_perm.
    Qed.

    Hypothesis all_perm : forall g l l', Permutation l l' -> contains_all g l = contains_all g l'.
    Lemma tight_perm y splits : tight_loop (map f rows) (map y rows) splits = tight_loop (map f rows') (map y rows') splits.
    Proof.
      induction splits as [|s t IH]; simpl; auto.
      rewrite !map_map, !take_rows_pair.
      rewrite (@all_perm s (map f rows) (map f rows')) by (apply Permutation_map, P).
      rewrite !map_length, IH.
      rewrite (@Permutation_length _ _ _ (@filter_perm _ (fun x => contains_all s (map f rows') && y x) _ _ P)). auto.
    Qed.
    Lemma contra_loop_perm yb yt left b t c :
      contra_loop (map f rows) left (map yb rows) (map yt rows) b t c =
      contra_loop (map f rows') left (map yb rows') (map yt rows') b t c.
    Proof.
      revert b t c. induction left as [|left IH]; intros b t c; simpl; auto.
      destruct (is_empty c); auto. rewrite !take_rows_pair, !count_filtered, !count_rows.
      destruct (nlt _ _).
      - destruct (Qeq_bool _ _); auto. rewrite tight_perm. destruct left; [|destruct (tight_loop _ _ _) as [[g|]|]]; auto.
        destruct (is_empty b); auto. destruct (is_empty g); auto.
      - destruct (nlt _ _); auto. destruct (Qeq_bool _ _); auto. rewrite tight_perm.
        destruct left; [|destruct (tight_loop _ _ _) as [[g|]|]]; auto.
        destruct (is_empty g); auto. destruct (is_empty t); auto.
    Qed.
    Lemma contra_perm yb yt b t :
      contra (map f rows) b t (map yb rows) (map yt rows) = contra (map f rows') b t (map yb rows') (map yt rows').
    Proof.
      unfold TraceModel.contra. destruct (f_polygon b), (f_polygon t); auto.
      rewrite contra_loop_perm. destruct (contra_loop _ _ _ _ _ _ _) as [[x y]|]; auto.
      rewrite !(@from_perm x), !(@from_perm y). auto.
    Qed.

    Variable yb : R -> list bool.
    Variable pz : R -> Z.
    Variable bt : R -> bool.
    Lemma is_best_map rs i : is_best (map pz rs) i = map (fun r => Z.eqb (Z.of_nat i) (pz r)) rs.
    Proof. unfold is_best. rewrite map_map. auto. Qed.
    Lemma column_map rs i : column false (map yb rs) i = map (fun r => nth i (yb r) false) rs.
    Proof. unfold column. rewrite map_map. auto. Qed.
    Lemma process_perm purity labels i :
      process_algorithm (map f rows) purity (map yb rows) (map pz rows) labels i =
      process_algorithm (map f rows') purity (map yb rows') (map pz rows') labels i.
    Proof.
      unfold TraceModel.process_algorithm. rewrite !is_best_map, !column_map, !build_perm. auto.
    Qed.
    Lemma collect_perm purity labels order good best :
      collect (map f rows) purity (map yb rows) (map pz rows) labels order good best =
      collect (map f rows') purity (map yb rows') (map pz rows') labels order good best.
    Proof.
      revert good best. induction order as [|i t IH]; intros good best; simpl; auto.
      rewrite process_perm. destruct (process_algorithm _ _ _ _ _ _) as [[g b]|]; auto.
    Qed.
    Lemma resolve_perm todo best :
      resolve (map f rows) (map pz rows) todo best = resolve (map f rows') (map pz rows') todo best.
    Proof.
      revert best. induction todo as [|[i j] t IH]; intros best; simpl; auto.
      rewrite !is_best_map, contra_perm. destruct (contra _ _ _ _ _) as [[b b']|]; auto.
    Qed.
    Lemma trace_perm purity labels nalgos cores order :
      trace (map f rows) purity (map yb rows) (map pz rows) (map bt rows) labels nalgos cores order =
      trace (map f rows') purity (map yb rows') (map pz rows') (map bt rows') labels nalgos cores order.
    Proof.
      unfold TraceModel.trace, compute_algorithm_qualities. rewrite !map_map, !build_perm.
      destruct (build _ _ _); auto. destruct (Z.leb cores 0); auto. rewrite collect_perm.
      destruct (collect _ _ _ _ _ _ _ _) as [[good best]|]; auto. rewrite resolve_perm. auto.
    Qed.
  End Order.

  (* ---------------------------------------------------------------- footprints *)
  Lemma count_flagged g (z : list pt) y : length z = length y ->
    count_in g (select y z) = flagged_inside (contains g) z y.
  Proof.
    unfold TraceModel.count_in, flagged_inside.
    revert y. induction z as [|a z IH]; intros [|b y] E; simpl in *; auto; try discriminate.
    injection E as E. destruct b; simpl; rewrite ?andb_true_r, ?andb_false_r; auto.
    destruct (contains g a); simpl; auto.
  Qed.
  Lemma qnat_pos n : n <> 0 -> (0 < qnat n)%Q.
  Proof. intros H. unfold qnat, Qlt. simpl. lia. Qed.
  Lemma qnat_nonneg n : (0 <= qnat n)%Q.
  Proof. unfold qnat, Qle. simpl. lia. Qed.
  Lemma qnat_le a b : a <= b -> (qnat a <= qnat b)%Q.
  Proof. intros H. unfold qnat, Qle. simpl. lia. Qed.
  Lemma qnat_lt a b : a < b -> (qnat a < qnat b)%Q.
  Proof. intros H. unfold qnat, Qlt. simpl. lia. Qed.

  Lemma from_polygon_spec g z y s f : from_polygon (Some g) z y s = Ok f ->
    length z = length y /\ exists h, h = (if s then smooth g else g) /\
      f_polygon f = Some h /\ f_area f = area h /\
      f_elements f = inside (contains h) z /\ f_good f = flagged_inside (contains h) z y /\
      f_good f <= f_elements f /\
      f_density f = (if Qeq_bool (area h) 0 then 0%Q else (qnat (f_elements f) / area h)%Q) /\
      f_purity f = (if Nat.eqb (f_elements f) 0 then 0%Q else (qnat (f_good f) / qnat (f_elements f))%Q).
  Proof.
    unfold TraceModel.from_polygon, take_rows. destruct (Nat.eqb_spec (length z) (length y)) as [E|]; [|discriminate].
    intros H. injection H as <-. split; auto. exists (if s then smooth g else g). simpl.
    rewrite <- count_flagged by auto. repeat split; auto. apply select_filter_le.
  Qed.
  Lemma from_polygon_ok g z y s : length z = length y -> exists f, from_polygon g z y s = Ok f.
  Proof.
    intros E. unfold TraceModel.from_polygon. destruct g as [g|]; [|eauto]. rewrite take_rows_ok by auto. eauto.
  Qed.
  Lemma remeasure g z y s f : from_polygon (Some g) z y s = Ok f -> from_polygon (f_polygon f) z y false = Ok f.
  Proof.
    unfold TraceModel.from_polygon. destruct (take_rows z y); [|discriminate]. intros H. injection H as <-. reflexivity.
  Qed.

  Lemma dbscan_total x k eps : exists lab, dbscan x k eps = Some lab.
  Proof.
    destruct (Z_le_gt_dec 0 eps) as [H|H].
    { destruct (@dbscan_correct x k eps H) as (lab & E & _). eauto. }
    unfold dbscan, dbscan_labels.
    assert (N : forall i, nbrs (near x eps) (length x) i = []).
    { intros i. unfold nbrs, near. rewrite (proj2 (Z.leb_gt 0 eps)) by lia. simpl.
      induction (seq 0 (length x)); simpl; auto. }
    assert (S : forall l st, (exists s, st = Some s) -> exists s, fold_left (dbscan_step (near x eps) (length x) k) l st = Some s).
    { induction l as [|i l IH]; intros st [s ->]; simpl; eauto. apply IH.
      destruct s as [[no cl] to]. unfold dbscan_step. destruct (to i); eauto. rewrite N. simpl.
      destruct (k + 1) eqn:K; [lia|]. simpl. eauto. }
    destruct (S (seq 0 (length x)) (Some (1%Z, fun _ => 0%Z, fun _ => false))) as [[[no cl] to] E]; eauto.
    rewrite E. eauto.
  Qed.

  Lemma build_few z purity y : length z = length y -> ~ three_distinct (flagged z y) ->
    build z purity y = Ok no_footprint.
  Proof.
    intros E N. unfold TraceModel.build. rewrite take_rows_ok by auto.
    destruct (Nat.ltb_spec (length (unique (select y z))) 3) as [|H]; auto.
    exfalso. apply N. apply unique_three in H. destruct H as (a & b & c & A & B & C & X).
    exists a, b, c. rewrite <- !select_flagged by auto. auto.
  Qed.
  Lemma build_many z purity y f : three_distinct (flagged z y) -> build z purity y = Ok f ->
    exists g, from_polygon (Some g) z y true = Ok f.
  Proof.
    intros (a & b & c & A & B & C & X) H. unfold TraceModel.build, take_rows in H.
    destruct (Nat.eqb_spec (length z) (length y)) as [E|]; [|discriminate].
    destruct (Nat.ltb_spec (length (unique (select y z))) 3) as [L|L].
    { exfalso. assert (3 <= length (unique (select y z))); [|lia]. apply unique_three.
      exists a, b, c. rewrite !select_flagged by auto. auto. }
    destruct (run_dbscan _ _ _); [|discriminate]. destruct (build_loop _ _ _ _ _ _ _); [|discriminate]. eauto.
  Qed.
  Lemma build_length z purity y f : build z purity y = Ok f -> length z = length y.
  Proof.
    unfold TraceModel.build, take_rows. destruct (Nat.eqb_spec (length z) (length y)); [auto|discriminate].
  Qed.
  Lemma build_remeasure z purity y f : build z purity y = Ok f ->
    f = no_footprint \/ from_polygon (f_polygon f) z y false = Ok f.
  Proof.
    unfold TraceModel.build, take_rows. destruct (Nat.eqb_spec (length z) (length y)) as [E|]; [|discriminate].
    destruct (Nat.ltb _ _); [intros H; injection H as <-; auto|].
    destruct (run_dbscan _ _ _); [|discriminate]. destruct (build_loop _ _ _ _ _ _ _); [|discriminate].
    intros H. right. eapply remeasure; eauto.
  Qed.
  Lemma build_terminates z purity y : build z purity y <> Err EFuel.
  Proof.
    assert (R : forall pieces g, remove_impure z purity y pieces g <> Err EFuel).
    { induction pieces as [|p t IH]; intros g; simpl; [discriminate|].
      unfold take_rows. destruct (Nat.eqb _ _); [auto|discriminate]. }
    assert (F : forall d, fit_poly z purity d y <> Err EFuel).
    { intros d. unfold TraceModel.fit_poly. destruct (Nat.ltb _ _); [discriminate|]. destruct (alphashape d); [|discriminate].
      destruct (forallb _ _); [discriminate|]. destruct (is_empty g); [discriminate|].
      pose proof (R (triangulate g) g) as X. destruct (remove_impure _ _ _ _ _); [discriminate|congruence]. }
    assert (L : forall rows labels todo acc, build_loop z purity y rows labels todo acc <> Err EFuel).
    { intros rows labels. induction todo as [|i t IH]; intros acc; simpl; [discriminate|].
      pose proof (F (select (map (Z.eqb i) labels) rows)) as X. destruct (fit_poly _ _ _ _) as [[aux|]|]; [|auto|congruence].
      destruct (is_empty aux); auto. }
    unfold TraceModel.build, take_rows. destruct (Nat.eqb_spec (length z) (length y)) as [E|]; [|discriminate].
    destruct (Nat.ltb _ _); [discriminate|]. unfold run_dbscan.
    destruct (@dbscan_total (unique (select y z)) (min_points y) (epsilon (unique (select y z)) (min_points y))) as [lab ->].
    pose proof (L (unique (select y z)) lab (map Z.of_nat (seq 1 (Z.to_nat (zmax lab)))) None) as X.
    destruct (build_loop _ _ _ _ _ _ _); [|congruence].
    unfold TraceModel.from_polygon. rewrite take_rows_ok by auto. discriminate.
  Qed.

  (* ---------------------------------------------------------------- contradictions *)
  Section Contra.
    Hypothesis removed_points : forall a c s q l,
      In s (geoms (difference a c)) -> contains c q = true -> In q l -> contains_all s l = false.
    Hypothesis empty_intersection : forall a b, is_empty a = true -> is_empty (intersection a b) = true.
    Variable z : list pt.

    Lemma tight_nothing a c y q : length z = length y -> contains c q = true -> In q z ->
      tight z (Some (difference a c)) y = Ok None.
    Proof.
      intros E C I. unfold TraceModel.tight.
      assert (T : forall splits, (forall s, In s splits -> In s (geoms (difference a c))) -> tight_loop z y splits = Ok None).
      { induction splits as [|s t IH]; intros H; simpl; auto.
        rewrite take_rows_ok by (rewrite map_length; auto).
        rewrite (@removed_points a c s q z (H s (or_introl eq_refl)) C I).
        assert (X : forall (m : list bool) (l : list pt), select (map (fun b => false && b) m) l = []).
        { induction m as [|b m IHm]; intros [|v l]; simpl; auto. }
        rewrite X. simpl. apply IH. intros s' Hs. apply H. right; auto. }
      apply T. auto.
    Qed.

    Lemma count_zero g l : count_in g l <> 0 -> exists q, In q l /\ contains g q = true.
    Proof.
      unfold TraceModel.count_in. intros H. destruct (filter (contains g) l) as [|q t] eqn:E; [simpl in H; lia|].
      exists q. apply filter_In. rewrite E. left; auto.
    Qed.

    Lemma share_lt a b n : nlt (share a n) (share b n) = true <-> n <> 0 /\ a < b.
    Proof.
      unfold share. destruct (Nat.eqb_spec n 0) as [->|N]; simpl.
      - split; [discriminate|]. intros [X _]. congruence.
      - rewrite negb_true_iff.
        pose proof (qnat_pos N) as Pn.
        split.
        + intros H. split; auto. destruct (Nat.lt_ge_cases a b); auto. exfalso.
          assert (X : Qle_bool (qnat b / qnat n) (qnat a / qnat n) = true).
          { apply Qle_bool_iff. apply Qle_shift_div_l; auto. unfold Qdiv. rewrite <- Qmult_assoc, (Qmult_comm (/ _)), Qmult_inv_r, Qmult_1_r.
            apply qnat_le; auto. intro Z. rewrite Z in Pn. discriminate. }
          congruence.
        + intros [_ L]. apply not_true_iff_false. intros X. apply Qle_bool_iff in X.
          apply (Qmult_le_compat_r _ _ (qnat n)) in X; [|apply qnat_nonneg].
          unfold Qdiv in X. rewrite <- !Qmult_assoc, !(Qmult_comm (/ _)), Qmult_inv_r, !Qmult_1_r in X.
          2: { intro Z. rewrite Z in Pn. discriminate. }
          apply qnat_lt in L. apply (Qlt_not_le _ _ L X).
    Qed.

    Definition own (c : G) (y : list bool) : nat := flagged_inside (contains c) z y.

    Lemma contra_loop_spec left yb yt gb gt : length z = length yb -> length z = length yt -> 2 <= left ->
      let c := intersection gb gt in
      (is_empty c = true \/ own c yb = own c yt -> contra_loop z left yb yt gb gt c = Ok (Some gb, Some gt)) /\
      (is_empty c = false /\ own c yb <> own c yt -> exists e, contra_loop z left yb yt gb gt c = Err e).
    Proof.
      intros Eb Et Hl c. destruct left as [|left]; [lia|]. destruct left as [|left]; [lia|].
      unfold own. rewrite <- !count_flagged by auto.
      cbn [TraceModel.contra_loop]. destruct (is_empty c) eqn:Ec.
      { split; auto. intros [? _]; discriminate. }
      rewrite !take_rows_ok by auto.
      set (nb := count_in c (select yb z)). set (nt := count_in c (select yt z)). set (n := count_in c z).
      assert (Lb : nb <= n) by apply select_filter_le.
      assert (Lt : nt <= n) by apply select_filter_le.
      assert (Egb : is_empty gb = false).
      { destruct (is_empty gb) eqn:X; auto. apply (@empty_intersection gb gt) in X. fold c in X. congruence. }
      destruct (nlt (share nt n) (share nb n)) eqn:L1.
      - apply share_lt in L1. destruct L1 as [N L1].
        split; [intros [?|?]; [discriminate|lia]|]. intros _.
        destruct (Qeq_bool (area gt) 0); [eauto|].
        destruct (@count_zero c z N) as (q & Iq & Cq).
        rewrite (@tight_nothing gt c yt q Et Cq Iq). rewrite Egb. eauto.
      - destruct (nlt (share nb n) (share nt n)) eqn:L2.
        + apply share_lt in L2. destruct L2 as [N L2].
          split; [intros [?|?]; [discriminate|lia]|]. intros _.
          destruct (Qeq_bool (area gb) 0); [eauto|].
          destruct (@count_zero c z N) as (q & Iq & Cq).
          rewrite (@tight_nothing gb c yb q Eb Cq Iq). eauto.
        + split; auto. intros [_ X]. exfalso.
          destruct (Nat.eq_dec n 0) as [Z|N]; [lia|].
          destruct (Nat.lt_total nb nt) as [Y|[Y|Y]]; [|lia|].
          * assert (nlt (share nb n) (share nt n) = true) by (apply share_lt; auto). congruence.
          * assert (nlt (share nt n) (share nb n) = true) by (apply share_lt; auto). congruence.
    Qed.

    (** the footprint reports the polygon's own statistics, or is the empty one *)
    Definition faithful (y : list bool) (f : footprint) : Prop :=
      length z = length y /\ (f = no_footprint \/ from_polygon (f_polygon f) z y false = Ok f).
    (** two footprints overlap in a region where their algorithms are best on different numbers of
        instances *)
    Definition conflict (yb yt : list bool) (b t : footprint) : Prop :=
      exists gb gt, f_polygon b = Some gb /\ f_polygon t = Some gt /\
        is_empty (intersection gb gt) = false /\ own (intersection gb gt) yb <> own (intersection gb gt) yt.

    Lemma contra_spec yb yt b t : faithful yb b -> faithful yt t ->
      (~ conflict yb yt b t -> contra z b t yb yt = Ok (b, t)) /\
      (conflict yb yt b t -> exists e, contra z b t yb yt = Err e).
    Proof.
      intros [Eb Fb] [Et Ft]. unfold conflict, TraceModel.contra.
      destruct (f_polygon b) as [gb|] eqn:Pb; [|split; auto; intros (x & y & X & _); discriminate].
      destruct (f_polygon t) as [gt|] eqn:Pt; [|split; auto; intros (x & y & _ & X & _); discriminate].
      destruct Fb as [->|Fb]; [discriminate|]. destruct Ft as [->|Ft]; [discriminate|].
      destruct (@contra_loop_spec 3 yb yt gb gt Eb Et) as [A B]; [lia|]. split.
      - intros NC. rewrite A.
        + rewrite Fb, Ft. auto.
        + destruct (is_empty (intersection gb gt)) eqn:Ei; auto. right.
          destruct (Nat.eq_dec (own (intersection gb gt) yb) (own (intersection gb gt) yt)); auto.
          exfalso. apply NC. exists gb, gt. auto.
      - intros (x & y & X & Y & C). injection X as <-. injection Y as <-.
        destruct (B C) as [e ->]. eauto.
    Qed.

    Lemma upd_nth_id {A} i (l : list A) d : upd i (fun _ => nth i l d) l = l.
    Proof. revert i. induction l as [|a l IH]; intros [|i]; simpl; f_equal; auto. Qed.

    Variable mask : nat -> list bool.
    Lemma conflict_dec yb yt b t : conflict yb yt b t \/ ~ conflict yb yt b t.
    Proof.
      unfold conflict. destruct (f_polygon b) as [gb|]; [|right; intros (x & y & X & _); discriminate].
      destruct (f_polygon t) as [gt|]; [|right; intros (x & y & _ & X & _); discriminate].
      destruct (is_empty (intersection gb gt)) eqn:E.
      { right. intros (x & y & X & Y & Z & _). injection X as <-. injection Y as <-. congruence. }
      destruct (Nat.eq_dec (own (intersection gb gt) yb) (own (intersection gb gt) yt)).
      - right. intros (x & y & X & Y & Z & W). injection X as <-. injection Y as <-. congruence.
      - left. exists gb, gt. auto.
    Qed.
  End Contra.

  Section Resolve.
    Hypothesis removed_points : forall a c s q l,
      In s (geoms (difference a c)) -> contains c q = true -> In q l -> contains_all s l = false.
    Hypothesis empty_intersection : forall a b, is_empty a = true -> is_empty (intersection a b) = true.
    Variable z : list pt.
    Variable p : list Z.
    Notation conflict_at best ij :=
      (conflict z (is_best p (fst ij)) (is_best p (snd ij)) (nth (fst ij) best no_footprint) (nth (snd ij) best no_footprint)).

    Lemma resolve_spec todo best :
      (forall i, i < length best -> faithful z (is_best p i) (nth i best no_footprint)) ->
      (forall ij, In ij todo -> fst ij < length best /\ snd ij < length best) ->
      ((forall ij, In ij todo -> ~ conflict_at best ij) -> resolve z p todo best = Ok best) /\
      ((exists ij, In ij todo /\ conflict_at best ij) -> exists e, resolve z p todo best = Err e).
    Proof.
      intros F. induction todo as [|[i j] t IH]; intros B; simpl.
      { split; auto. intros (ij & [] & _). }
      destruct (B (i, j) (or_introl eq_refl)) as [Bi Bj]. simpl in Bi, Bj.
      destruct (@contra_spec removed_points empty_intersection z (is_best p i) (is_best p j)
                  (nth i best no_footprint) (nth j best no_footprint)) as [C1 C2]; auto.
      destruct IH as [I1 I2]. { intros ij H. apply B. right; auto. }
      destruct (conflict_dec z (is_best p i) (is_best p j) (nth i best no_footprint) (nth j best no_footprint)) as [C|NC].
      - destruct (C2 C) as [e E]. rewrite E. split; eauto.
        intros H. exfalso. apply (H (i, j)); simpl; auto.
      - rewrite (C1 NC).
        assert (U : upd j (fun _ => nth j best no_footprint) (upd i (fun _ => nth i best no_footprint) best) = best).
        { rewrite upd_nth_id. apply upd_nth_id. }
        rewrite U. split.
        + intros H. apply I1. auto.
        + intros (ij & [<-|H] & K); [simpl in K; tauto|]. eauto.
    Qed.

    Lemma pairs_in n i j : In (i, j) (pairs n) <-> i < j < n.
    Proof.
      unfold pairs. rewrite in_flat_map. split.
      - intros (a & A & H). apply in_map_iff in H. destruct H as (b & E & B). injection E as <- <-.
        apply in_seq in A. apply in_seq in B. lia.
      - intros H. exists i. split; [apply in_seq; lia|]. apply in_map_iff. exists j. split; auto. apply in_seq. lia.
    Qed.
  End Resolve.

  (* ---------------------------------------------------------------- the workers *)
  Section Workers.
    Variable z : list pt.
    Variable purity : Q.
    Variable y_bin : list (list bool).
    Variable p : list Z.
    Variable labels : list string.
    Notation process := (process_algorithm z purity y_bin p labels).

    Lemma collect_spec order : forall good best,
      (forall good' best', collect z purity y_bin p labels order good best = Ok (good', best') ->
         length good' = length good /\ length best' = length best /\
         (forall i, In i order -> i < length good -> i < length best ->
            process i = Ok (nth i good' no_footprint, nth i best' no_footprint)) /\
         (forall i, ~ In i order -> nth i good' no_footprint = nth i good no_footprint /\ nth i best' no_footprint = nth i best no_footprint)) /\
      ((forall i, In i order -> exists r, process i = Ok r) -> exists r, collect z purity y_bin p labels order good best = Ok r) /\
      ((exists i e, In i order /\ process i = Err e) -> exists e, collect z purity y_bin p labels order good best = Err e).
    Proof.
      induction order as [|i t IH]; intros good best; simpl.
      - split; [|split].
        + intros good' best' H. injection H as <- <-. repeat split; auto; intros; contradiction.
        + eauto.
        + intros (i & e & [] & _).
      - destruct (process i) as [[g b]|e] eqn:E.
        + destruct (IH (upd i (fun _ => g) good) (upd i (fun _ => b) best)) as (I1 & I2 & I3).
          split; [|split].
          * intros good' best' H. destruct (I1 _ _ H) as (Lg & Lb & A & B). rewrite !upd_length in *.
            repeat split; auto.
            -- intros j [<-|Hj] Gj Bj; [|apply A; auto].
               destruct (in_dec Nat.eq_dec i t) as [Hi|Hi]; [apply A; auto|].
               destruct (B i Hi) as [X Y]. rewrite X, Y, !upd_same by auto. auto.
            -- destruct (B i0) as [X Y]; [tauto|]. rewrite X, upd_other by tauto. auto.
            -- destruct (B i0) as [X Y]; [tauto|]. rewrite Y, upd_other by tauto. auto.
          * intros H. apply I2. auto.
          * intros (j & e & [<-|Hj] & X); [congruence|]. apply I3. eauto.
        + split; [discriminate|]. split; [|eauto].
          intros H. destruct (H i) as [r X]; auto. congruence.
    Qed.

    (** the workers' results, whatever order they finish in *)
    Lemma collect_order order nalgos : Permutation order (seq 0 nalgos) ->
      forall good best,
        collect z purity y_bin p labels order (repeat no_footprint nalgos) (repeat no_footprint nalgos) = Ok (good, best) <->
        (length good = nalgos /\ length best = nalgos /\
         forall i, i < nalgos -> process i = Ok (nth i good no_footprint, nth i best no_footprint)).
    Proof.
      intros P good best.
      assert (I : forall i, In i order <-> i < nalgos).
      { intros i. split; intros H.
        - apply (Permutation_in _ P) in H. apply in_seq in H. lia.
        - apply (Permutation_in _ (Permutation_sym P)). apply in_seq. lia. }
      destruct (collect_spec order (repeat no_footprint nalgos) (repeat no_footprint nalgos)) as (A & B & C).
      rewrite !repeat_length in A. split.
      - intros H. destruct (A _ _ H) as (Lg & Lb & X & _). repeat split; auto. intros i Hi. apply X; auto. apply I; auto.
      - intros (Lg & Lb & X). destruct B as [[g' b'] E].
        { intros i Hi. rewrite X by (apply I; auto). eauto. }
        rewrite E. destruct (A _ _ E) as (Lg' & Lb' & X' & _).
        assert (N : forall i, i < nalgos -> nth i g' no_footprint = nth i good no_footprint /\ nth i b' no_footprint = nth i best no_footprint).
        { intros i Hi. specialize (X' i (proj2 (I i) Hi) Hi Hi). rewrite X in X' by auto. injection X' as U V. auto. }
        do 2 f_equal; apply (nth_ext _ _ no_footprint no_footprint); try congruence; intros i Hi;
          apply N; congruence.
    Qed.
    Lemma collect_order_fails order order' nalgos : Permutation order (seq 0 nalgos) -> Permutation order' (seq 0 nalgos) ->
      (exists e, collect z purity y_bin p labels order (repeat no_footprint nalgos) (repeat no_footprint nalgos) = Err e) ->
      (exists e, collect z purity y_bin p labels order' (repeat no_footprint nalgos) (repeat no_footprint nalgos) = Err e).
    Proof.
      intros P P' [e E].
      destruct (collect z purity y_bin p labels order' _ _) as [[g b]|e'] eqn:E'; eauto. exfalso.
      pose proof (proj1 (@collect_order _ _ P' g b) E') as X. apply (@collect_order _ _ P g b) in X. congruence.
    Qed.
  End Workers.

  (* ---------------------------------------------------------------- the whole stage *)
  Section Whole.
    Hypothesis removed_points : forall a c s q l,
      In s (geoms (difference a c)) -> contains c q = true -> In q l -> contains_all s l = false.
    Hypothesis empty_intersection : forall a b, is_empty a = true -> is_empty (intersection a b) = true.
    Variable z : list pt.
    Variable purity : Q.
    Variable y_bin : list (list bool).
    Variable p : list Z.
    Variable beta : list bool.
    Variable labels : list string.
    Variable nalgos : nat.
    Variable cores : Z.

    Lemma trace_spec order out : Permutation order (seq 0 nalgos) ->
      trace z purity y_bin p beta labels nalgos cores order = Ok out <->
      ((1 <= cores)%Z /\ length labels = nalgos /\
       build z purity (map (fun _ => true) y_bin) = Ok (t_space out) /\
       length (t_good out) = nalgos /\ length (t_best out) = nalgos /\
       (forall i, i < nalgos -> build z purity (column false y_bin i) = Ok (nth i (t_good out) no_footprint)) /\
       (forall i, i < nalgos -> build z purity (is_best p i) = Ok (nth i (t_best out) no_footprint)) /\
       (forall i j, i < j < nalgos ->
          ~ conflict z (is_best p i) (is_best p j) (nth i (t_best out) no_footprint) (nth j (t_best out) no_footprint)) /\
       build z purity (map negb beta) = Ok (t_hard out) /\
       t_summary out =
         map (fun i => (nth i labels EmptyString, summary (nth i (t_good out) no_footprint) (t_space out)
                                        ++ summary (nth i (t_best out) no_footprint) (t_space out))) (seq 0 nalgos)).
    Proof.
      intros P.
      assert (S : forall good best space,
        map (fun il : nat * string => (snd il, summary (nth (fst il) good no_footprint) space ++ summary (nth (fst il) best no_footprint) space))
            (combine (seq 0 (length labels)) labels)
        = map (fun i => (nth i labels EmptyString, summary (nth i good no_footprint) space ++ summary (nth i best no_footprint) space)) (seq 0 (length labels))).
      { intros good best space.
        assert (X : forall (h : nat -> list Q) l s, map (fun il : nat * string => (snd il, h (fst il))) (combine (seq s (length l)) l)
                      = map (fun i => (nth (i - s) l EmptyString, h i)) (seq s (length l))).
        { intros h. induction l as [|a l IH]; intros s; simpl; auto. rewrite Nat.sub_diag. f_equal. rewrite IH.
          apply map_ext_in. intros i Hi. apply in_seq in Hi. replace (i - s) with (S (i - S s)) by lia. auto. }
        etransitivity; [apply (X (fun i => summary (nth i good no_footprint) space ++ summary (nth i best no_footprint) space) labels 0)|].
        apply map_ext. intros i. rewrite Nat.sub_0_r. auto. }
      assert (Fa : forall i f, build z purity (is_best p i) = Ok f -> faithful z (is_best p i) f).
      { intros i f H. split; [eapply build_length; eauto|]. eapply build_remeasure; eauto. }
      unfold TraceModel.trace, compute_algorithm_qualities. split.
      - destruct (build z purity (map (fun _ => true) y_bin)) as [space|] eqn:Es; [|discriminate].
        destruct (Z.leb_spec cores 0); [discriminate|].
        destruct (collect _ _ _ _ _ _ _ _) as [[good best]|] eqn:Ec; [|discriminate].
        apply (@collect_order z purity y_bin p labels _ _ P) in Ec. destruct Ec as (Lg & Lb & Pr).
        assert (Ll : forall i, i < nalgos -> i < length labels).
        { intros i Hi. specialize (Pr i Hi). unfold TraceModel.process_algorithm in Pr.
          destruct (Nat.ltb_spec i (length labels)); auto. discriminate. }
        assert (Bd : forall i, i < nalgos -> build z purity (column false y_bin i) = Ok (nth i good no_footprint) /\
                                             build z purity (is_best p i) = Ok (nth i best no_footprint)).
        { intros i Hi. specialize (Pr i Hi). unfold TraceModel.process_algorithm in Pr.
          destruct (Nat.ltb _ _); [|discriminate].
          destruct (build z purity (column false y_bin i)); [|discriminate]. destruct (build z purity (is_best p i)); [|discriminate].
          injection Pr as -> ->. auto. }
        destruct (@resolve_spec removed_points empty_intersection z p (pairs nalgos) best) as [R1 R2].
        { intros i Hi. apply Fa. apply Bd. congruence. }
        { intros [i j] H'. apply pairs_in in H'. simpl. lia. }
        assert (NC : forall r, resolve z p (pairs nalgos) best = Ok r ->
          r = best /\ forall i j, i < j < nalgos ->
            ~ conflict z (is_best p i) (is_best p j) (nth i best no_footprint) (nth j best no_footprint)).
        { intros r Er.
          assert (N : forall i j, i < j < nalgos ->
            ~ conflict z (is_best p i) (is_best p j) (nth i best no_footprint) (nth j best no_footprint)).
          { intros i j Hij C. destruct R2 as [e E]; [|congruence]. exists (i, j). split; auto. apply pairs_in. auto. }
          split; auto. rewrite R1 in Er; [congruence|]. intros [i j] Hij. apply N. apply pairs_in. auto. }
        destruct (resolve z p (pairs nalgos) best) as [best'|] eqn:Er; [|discriminate].
        destruct (NC _ eq_refl) as [-> N].
        destruct (build z purity (map negb beta)) as [hard|] eqn:Eh; [|discriminate].
        destruct (Nat.leb_spec (length labels) nalgos) as [L|]; [|discriminate].
        intros H'. injection H' as <-. cbn [t_space t_good t_best t_hard t_summary].
        assert (El : length labels = nalgos).
        { destruct (Nat.eq_dec (length labels) nalgos); auto. specialize (Ll (length labels)). lia. }
        split; [lia|]. split; auto. split; auto. split; auto. split; auto.
        split; [intros; apply Bd; auto|]. split; [intros; apply Bd; auto|]. split; auto. split; auto.
        etransitivity; [apply (S good best space)|]. rewrite El. auto.
      - intros (Hc & El & Es & Lg & Lb & Hg & Hb & N & Eh & Sm).
        rewrite Es. destruct (Z.leb_spec cores 0); [lia|].
        assert (Ec : collect z purity y_bin p labels order (repeat no_footprint nalgos) (repeat no_footprint nalgos) = Ok (t_good out, t_best out)).
        { apply (@collect_order z purity y_bin p labels _ _ P). repeat split; auto. intros i Hi. unfold TraceModel.process_algorithm.
          destruct (Nat.ltb_spec i (length labels)); [|lia]. rewrite Hg, Hb by auto. auto. }
        rewrite Ec.
        destruct (@resolve_spec removed_points empty_intersection z p (pairs nalgos) (t_best out)) as [R1 R2].
        { intros i Hi. apply Fa. apply Hb. congruence. }
        { intros [i j] H'. apply pairs_in in H'. simpl. lia. }
        rewrite R1 by (intros [i j] Hij; apply N, pairs_in; auto).
        rewrite Eh. destruct (Nat.leb_spec (length labels) nalgos); [|lia].
        rewrite S, El, <- Sm. destruct out; auto.
    Qed.
  End Whole.
End T.
