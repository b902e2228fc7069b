(** Property C122: in which direction the options act. *)
From Coq Require Import Lia Lqa String.
From Verif Require Import BaseLemmas Num Ext FilterModel FilterSpec PrelimModel PrelimSpec SiftedModel SiftedSpec SiftedProofs.
From Verif Require CloisterModel CloisterSpec CloisterProofs CloisterProps TraceModel TraceProps MonoProofs.
Set Implicit Arguments.
Open Scope nat_scope.
Open Scope list_scope.

(* ------------------------------------------------------------ PRELIM *)
(** A larger epsilon makes no good performance bad: in relative mode and for minimised performances;
    with an absolute threshold for maximised performances it is the other way round.  This holds
    for every row of performances, with missing values, zeros and negative values. *)
Lemma ele_mono v a b : (a <= b)%Q -> ele v (Fin a) = true -> ele v (Fin b) = true.
Proof. intros H. destruct v; simpl; auto. rewrite !Qle_bool_iff. intros. eapply Qle_trans; eauto. Qed.
Lemma ele_mono_l v a b : (a <= b)%Q -> ele (Fin b) v = true -> ele (Fin a) v = true.
Proof. intros H. destruct v; simpl; auto. rewrite !Qle_bool_iff. intros. eapply Qle_trans; eauto. Qed.
Theorem C122_goodness_threshold :
  forall o o' row j, max_perf o' = max_perf o -> abs_perf o' = abs_perf o ->
    (if abs_perf o && max_perf o then epsilon o' <= epsilon o else epsilon o <= epsilon o')%Q ->
    good_at (r_bin (prelim_row o row)) j -> good_at (r_bin (prelim_row o' row)) j.
Proof.
  intros o o' row j Em Ea H. unfold good_at, prelim_row.
  assert (Ey : forall v, y_aux o' v = y_aux o v) by (intros v; unfold y_aux; rewrite Em; auto).
  assert (Eb : best_of o' row = best_of o row).
  { unfold best_of. rewrite (map_ext _ _ Ey), Em. auto. }
  rewrite Eb. destruct (best_of o row) as [bi bv]. cbn [r_bin]. rewrite (map_ext _ _ Ey), Em, Ea, !nth_error_map.
  destruct (nth_error row j) as [v|]; simpl; auto. intros X. injection X as X. f_equal.
  destruct (max_perf o), (abs_perf o); simpl in H; eauto using ele_mono, ele_mono_l.
Qed.
(** A larger beta threshold makes fewer instances easy. *)
Theorem C122_beta_threshold :
  forall o o' row, max_perf o' = max_perf o -> abs_perf o' = abs_perf o -> epsilon o' = epsilon o ->
    (beta_threshold o <= beta_threshold o')%Q ->
    r_beta (prelim_row o' row) = true -> r_beta (prelim_row o row) = true.
Proof.
  intros o o' row Em Ea Ee H. unfold prelim_row.
  assert (Ey : forall v, y_aux o' v = y_aux o v) by (intros v; unfold y_aux; rewrite Em; auto).
  assert (Eb : best_of o' row = best_of o row).
  { unfold best_of. rewrite (map_ext _ _ Ey), Em. auto. }
  rewrite Eb. destruct (best_of o row) as [bi bv]. cbn [r_beta]. rewrite (map_ext _ _ Ey), Em, Ea, Ee.
  set (g := count_true _). rewrite !negb_true_iff. intros X.
  destruct (Qle_bool (inject_Z (Z.of_nat g)) (beta_threshold o * _)) eqn:E; auto. exfalso.
  apply Qle_bool_iff in E. rewrite <- not_true_iff_false, Qle_bool_iff in X. apply X.
  assert (P : (0 <= inject_Z (Z.of_nat (length row)))%Q) by (change 0%Q with (inject_Z 0); rewrite <- Zle_Qle; lia).
  eapply Qle_trans; [exact E|]. apply Qmult_le_compat_r; auto.
Qed.

(* ------------------------------------------------------------ the purifier *)
(** "A larger min_distance retains no more instances": no. *)
Theorem C122_min_distance_refuted :
  exists x y y_bin r r' ex di vi ex' di' vi',
    matrices x y y_bin 2 1 /\ (0 < r)%Q /\ (r < r')%Q /\
    filter_instance x y y_bin 2 1 r "Ftr" = Ok (ex, di, vi) /\
    filter_instance x y y_bin 2 1 r' "Ftr" = Ok (ex', di', vi') /\
    length (filter negb ex) = 2 /\ length (filter negb ex') = 3.
Proof.
  exists [[Some 0; Some 0]; [Some (14#10); Some 0]; [Some (14#10); Some (12#10)]; [Some (14#10); Some (- (12#10))]]%Q,
    (repeat [Some 1%Q] 4), (repeat [true] 4), (12#10)%Q, (15#10)%Q.
  do 6 eexists. split; [|split; [|split; [|split; [vm_compute; reflexivity|split; [vm_compute; reflexivity|split; reflexivity]]]]].
  - repeat split; auto; repeat constructor.
  - lra.
  - lra.
Qed.

(* ------------------------------------------------------------ SIFTED *)
(** The features selected by correlation with a lower threshold include those selected with a
    higher one ... *)
Theorem C122_rho_threshold :
  forall rho order thr thr' nf na f, (thr' <= thr)%Q ->
    In f (where_true (perf_mask rho order thr nf na)) -> In f (where_true (perf_mask rho order thr' nf na)).
Proof.
  intros rho order thr thr' nf na f H. rewrite !perf_selected. intros [A B]. split; auto.
  destruct B as [B|(i & j & Hi & Hj & T & E)]; auto. right. exists i, j. repeat split; auto. lra.
Qed.
(** ... but the stage as a whole can return fewer features with a lower threshold: a fourth feature
    brings in the clustering. *)
Theorem C122_rho_threshold_refuted :
  exists pearson order sil km best x y labels k thr thr' out out',
    (thr' < thr)%Q /\
    (forall r, In r x -> length r = length labels) /\
    sifted pearson order sil km best x y labels 1 thr k None "Ftr" 0%Q = Ok out /\
    sifted pearson order sil km best x y labels 1 thr' k None "Ftr" 0%Q = Ok out' /\
    length (so_selvars out) = 3 /\ length (so_selvars out') = 2.
Proof.
  exists (fun l => match l with (a, _) :: _ => (Some a, Some 0%Q) | [] => (None, None) end),
    (fun _ _ => [0; 1; 2; 3]), (fun _ => [1; 0]%Q), (fun _ => [0; 0; 1; 1]), (fun _ => [0; 0]%Z),
    [[Some (9#10); Some (8#10); Some (7#10); Some (3#10)]; [Some 0; Some 0; Some 0; Some 0]]%Q,
    [[Some 1]; [Some 2]]%Q, ["a"; "b"; "c"; "d"]%string, 2, (1#2)%Q, (1#5)%Q.
  do 2 eexists. split; [lra|]. split; [simpl; intros r [<-|[<-|[]]]; auto|].
  split; [vm_compute; reflexivity|]. split; [vm_compute; reflexivity|]. split; reflexivity.
Qed.

(* ------------------------------------------------------------ CLOISTER *)
Section Cloister.
  Import CloisterModel CloisterSpec CloisterProofs.
  Lemma contradicts_mono {E} (pearson : list num -> list num -> res E (num * num)) x n p p' c c' v :
    (p <= p')%Q -> (c' <= c)%Q -> contradicts pearson x n p c v -> contradicts pearson x n p' c' v.
  Proof.
    intros Hp Hc (j & k & r & J & (q & E' & N) & D). exists j, k, r. split; auto. split.
    - exists q. split; auto. intros (w & -> & L). apply N. exists w. split; auto. lra.
    - destruct D as [[D1 D2]|[D1 D2]]; [left|right]; split; auto; lra.
  Qed.
  (** A lower correlation threshold and a higher significance level shrink the correlated boundary,
      unless the stage falls back to the plain boundary. *)
  Theorem C122_correlation_threshold :
    forall pearson hull x a n p p' c c' ze zc ze' zc',
      hull_correct hull -> (p <= p')%Q -> (0 <= c')%Q -> (c' <= c)%Q ->
      hull (map (mulv a) (x_edge x n)) <> None ->
      cloister pearson hull x a n p c = Ok (ze, zc) ->
      cloister pearson hull x a n p' c' = Ok (ze', zc') ->
      ze' = ze /\ (zc' <> ze' -> forall q, in_hull zc' q -> in_hull zc q).
  Proof.
    intros pearson hull x a n p p' c c' ze zc ze' zc' HC Hp H0 Hc Hn H H'.
    destruct (cloister_inv _ _ _ _ _ _ _ H) as (_ & rho & R & Ez & Ec). cbv zeta in Ec.
    destruct (cloister_inv _ _ _ _ _ _ _ H') as (_ & rho' & R' & Ez' & Ec'). cbv zeta in Ec'.
    split; [congruence|]. intros Nf q Hq. eapply in_hull_sub; [|exact Hq]. clear q Hq. intros q Hq.
    set (kept' := select (map negb (map (removed rho' c' n) (x_edge x n))) (x_edge x n)) in *.
    set (kept := select (map negb (map (removed rho c n) (x_edge x n))) (x_edge x n)) in *.
    destruct (compute_convex_hull hull (map (mulv a) kept')) as [|k0 kt] eqn:E; [congruence|].
    subst zc'. rewrite <- E in Hq. apply hull_points in Hq; auto. apply in_map_iff in Hq. destruct Hq as (v & Ev & Hv).
    apply kept_in in Hv. destruct Hv as [Hv Rv].
    destruct (compute_convex_hull hull (map (mulv a) kept)) as [|k1 kt'] eqn:F; subst zc.
    - rewrite Ez. apply hull_contains; auto. rewrite <- Ev. apply in_map. auto.
    - rewrite <- F. apply hull_contains; auto.
      + unfold compute_convex_hull in F. destruct (hull (map (mulv a) kept)); [discriminate|congruence].
      + rewrite <- Ev. apply in_map. apply kept_in. split; auto.
        destruct (removed rho c n v) eqn:X; auto. exfalso.
        assert (H0' : (0 <= c)%Q) by lra. apply (@removed_iff _ _ _ _ _ _ _ R H0') in X.
        pose proof (contradicts_mono Hp Hc X) as Y. apply (@removed_iff _ _ _ _ _ _ _ R' H0) in Y. congruence.
  Qed.
  (** With the fall-back the boundary can grow: three features, of which the first goes with the
      second (0.8) and with the third (0.6), in -1..1.  The routine fails for fewer than three points. *)
  Definition hull3 (pts : list (list num)) : option (list nat) :=
    if Nat.ltb (length pts) 3 then None else Some (seq 0 (length pts)).
  Lemma hull3_correct : hull_correct hull3.
  Proof.
    intros pts vs H. unfold hull3 in H. destruct (Nat.ltb (length pts) 3); [discriminate|].
    apply (CloisterProps.hull_met H).
  Qed.
  Definition mono_pearson (u v : list num) : res clerr (num * num) :=
    match u, v with
    | Some a :: _, Some b :: _ => Ok (Some (if Qeq_bool a (-1) then if Qeq_bool b (-2) then 8#10 else if Qeq_bool b (-3) then 6#10 else 0 else 0), Some 0)%Q
    | _, _ => Ok (Some 0, Some 0)%Q
    end.
  Theorem C122_correlation_threshold_refuted :
    exists pearson hull x a p c c' ze zc zc' q,
      hull_correct hull /\ complete x 3 /\ (0 <= c')%Q /\ (c' < c)%Q /\
      cloister pearson hull x a 3 p c = Ok (ze, zc) /\ cloister pearson hull x a 3 p c' = Ok (ze, zc') /\
      in_hull zc' q /\ ~ in_hull zc q.
  Proof.
    exists mono_pearson, hull3, [[Some (-1); Some (-2); Some (-3)]; [Some 1; Some 2; Some 3]]%Q,
      [[Some 1; Some 0; Some 0]; [Some 0; Some 1; Some (1#3)]]%Q, (5#100)%Q, (7#10)%Q, (1#2)%Q.
    do 3 eexists. exists [-1; 3]%Q. split; [apply hull3_correct|]. split.
    { split; [discriminate|]. intros row [<-|[<-|[]]]; split; auto; simpl; intuition discriminate. }
    split; [lra|]. split; [lra|]. split; [vm_compute; reflexivity|]. split; [vm_compute; reflexivity|]. split.
    - apply conv_point with [-1; 9#3]%Q; [|repeat constructor]. simpl. auto 20.
    - intros X. apply CloisterProps.conv_halfspace with (w := [-2; 1]%Q) (c := 1%Q) in X.
      + vm_compute in X. apply X. auto.
      + intros l Hl. simpl in Hl.
        assert (G : forall m : list Q, map Some m = map Some l -> m = l).
        { intros m Y. apply (f_equal (map (fun v : num => match v with Some q => q | None => 0%Q end))) in Y. rewrite !map_map, !map_id in Y. auto. }
        repeat (destruct Hl as [Hl|Hl]; [match type of Hl with [Some ?u; Some ?v] = _ => rewrite <- (G [u; v] Hl); vm_compute; discriminate end|]).
        contradiction.
  Qed.
End Cloister.

(* ------------------------------------------------------------ TRACE *)
(** A higher purity shrinks every footprint: with ideal geometry operations, everything in the
    footprint of the higher purity is in that of the lower one. *)
Theorem C122_purity :
  forall (G : Type) is_empty area (contains : G -> TraceModel.pt -> bool) difference union no_polygon smooth triangulate convex_hull alphashape radius,
    (forall g h q, contains (difference g h) q = contains g q && negb (contains h q)) ->
    (forall g h q, contains (union g h) q = contains g q || contains h q) ->
    (forall g q, is_empty g = true -> contains g q = false) ->
    (forall q, contains no_polygon q = false) ->
    (forall g h, (forall q, contains g q = true -> contains h q = true) -> forall q, contains (smooth g) q = true -> contains (smooth h) q = true) ->
    let build := TraceModel.build is_empty area contains difference union no_polygon smooth triangulate convex_hull alphashape radius in
    forall z flags purity purity' f', length z = length flags -> (purity <= purity')%Q ->
      build z purity' flags = Ok f' ->
      exists f, build z purity flags = Ok f /\ TraceModel.f_elements f' <= TraceModel.f_elements f /\
        forall q g', TraceModel.f_polygon f' = Some g' -> contains g' q = true ->
          exists g, TraceModel.f_polygon f = Some g /\ contains g q = true.
Proof.
  intros G is_empty area contains difference union no_polygon smooth triangulate convex_hull alphashape radius
    D U Em N S build z flags p p' f' E Hp H.
  subst build. cbv beta in H.
  edestruct MonoProofs.build_mono as (f & B & R & L); [exact D|exact U|exact Em|exact N|exact E|exact Hp|exact S|exact H|]. exists f. split; auto. split; auto.
  intros q g' Eg Hq. specialize (R q). rewrite Eg in R. simpl in R. specialize (R Hq).
  destruct (TraceModel.f_polygon f) as [g|]; [eauto|discriminate].
Qed.

(* ------------------------------------------------------------ the hypotheses are met *)
Example C122_met :
  r_bin (prelim_row {| max_perf := true; abs_perf := false; epsilon := 1#5; beta_threshold := 1#2; bound := true; norm := true |} [Some 10; Some 8; None]%Q) = [true; true; false] /\
  r_beta (prelim_row {| max_perf := true; abs_perf := false; epsilon := 1#5; beta_threshold := 1#2; bound := true; norm := true |} [Some 10; Some 8; None]%Q) = true /\
  where_true (perf_mask [[9#10]; [8#10]; [3#10]] (fun _ => [0; 1; 2]) (1#2) 3 1) = [0; 1].
Proof. vm_compute. auto. Qed.
(** Regions as lists of points meet the assumptions on the geometry operations; the four corners of
    a square, with a bad row in its middle, lose the middle at the higher purity. *)
Example C122_met_geometry :
  (forall g h q, TraceProps.Pixels.contains (TraceProps.Pixels.difference g h) q = TraceProps.Pixels.contains g q && negb (TraceProps.Pixels.contains h q)) /\
  (forall g h q, TraceProps.Pixels.contains (TraceProps.Pixels.union g h) q = TraceProps.Pixels.contains g q || TraceProps.Pixels.contains h q) /\
  (forall g q, TraceProps.Pixels.is_empty g = true -> TraceProps.Pixels.contains g q = false) /\
  exists f f',
    TraceProps.Pixels.build [(0, 0); (2, 0); (0, 2); (2, 2); (1, 1)]%Z 0 [true; true; true; true; false] = Ok f /\
    TraceProps.Pixels.build [(0, 0); (2, 0); (0, 2); (2, 2); (1, 1)]%Z (9#10) [true; true; true; true; false] = Ok f' /\
    TraceModel.f_elements f = 5 /\ TraceModel.f_elements f' = 4.
Proof.
  split; [intros; apply TraceProps.Pixels.diff_exact|]. split; [|split].
  - intros g h q. unfold TraceProps.Pixels.union. unfold TraceProps.Pixels.contains at 1. rewrite existsb_app.
    change (TraceProps.Pixels.contains g q || TraceProps.Pixels.contains (TraceProps.Pixels.difference h g) q = TraceProps.Pixels.contains g q || TraceProps.Pixels.contains h q).
    rewrite TraceProps.Pixels.diff_exact. destruct (TraceProps.Pixels.contains g q), (TraceProps.Pixels.contains h q); auto.
  - intros [|? ?] q H; [auto|discriminate].
  - do 2 eexists. split; [vm_compute; reflexivity|]. split; [vm_compute; reflexivity|]. split; reflexivity.
Qed.

Print Assumptions C122_goodness_threshold.
Print Assumptions C122_beta_threshold.
Print Assumptions C122_min_distance_refuted.
Print Assumptions C122_rho_threshold.
Print Assumptions C122_rho_threshold_refuted.
Print Assumptions C122_correlation_threshold.
Print Assumptions C122_correlation_threshold_refuted.
Print Assumptions C122_purity.
