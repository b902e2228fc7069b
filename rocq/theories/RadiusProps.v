(** Property C121 (TRACE's clusters: the neighbourhood radius). *)
From Coq Require Import Reals List Bool Lia Lra QArith.
From Verif Require Import Num.
From Verif Require TraceModel TraceSpec TraceProofs.
From Verif Require Import RadiusSpec RadiusModel RadiusProofs.
Import ListNotations.
Open Scope R_scope.

(** The clusters are those of a radius whose disc has the share k / (number of rows) of the area of
    the upright rectangle around the rows. *)
Theorem C121_radius :
  forall y_bin x, x <> [] ->
    exists k eps lab, run_dbscan y_bin x = Some lab /\ clustering x k eps lab /\ 0 <= eps /\
      (forall area, is_box_area x area -> PI * (eps * eps) = area * INR k / INR (length x)) /\
      (let good := length (filter (fun b => b) y_bin) in
       (3 <= k)%nat /\ (good <= 60 -> k = 3)%nat /\ (60 <= good <= 1000 -> 20 * (k - 1) < good <= 20 * k)%nat /\ (1000 <= good -> k = 50)%nat).
Proof.
  intros y x H. set (k := TraceModel.min_points y). exists k, (epsilon x k).
  destruct (dbscan_correct x k (epsilon x k) (epsilon_nonneg x k)) as (lab & E & C).
  exists lab. split; [exact E|]. split; auto. split; [apply epsilon_nonneg|].
  split; [intros; apply epsilon_area; auto|]. cbv zeta.
  unfold k, TraceModel.min_points. set (g := length (filter (fun b => b) y)).
  pose proof (Nat.div_mod (g + 19) 20 ltac:(lia)) as D. pose proof (Nat.mod_upper_bound (g + 19) 20 ltac:(lia)) as M.
  set (q := ((g + 19) / 20)%nat) in *. set (r := ((g + 19) mod 20)%nat) in *.
  repeat apply conj; lia.
Qed.
(** Moving, stretching by one factor, mirroring and exchanging the axes change no label. *)
Theorem C121_position_and_scale :
  forall y_bin x p q c mirror_1 mirror_2, c <> 0 ->
    run_dbscan y_bin (map (moved p q c mirror_1 mirror_2) x) = run_dbscan y_bin x /\
    run_dbscan y_bin (map exchanged x) = run_dbscan y_bin x.
Proof.
  intros y x p q c m1 m2 H. unfold run_dbscan, dbscan. rewrite !map_length. split; apply labels_ext; intros i j.
  - apply near_moved. auto.
  - apply near_exchanged.
Qed.
(** Rows that share a coordinate are all noise, however many and however close they are. *)
Theorem C121_rows_on_an_upright_line :
  forall y_bin x v, NoDup x -> (forall a, In a x -> fst a = v) \/ (forall a, In a x -> snd a = v) ->
    run_dbscan y_bin x = Some (repeat (-1)%Z (length x)).
Proof.
  intros y x v N F. destruct x as [|a x0]; [reflexivity|]. set (x := a :: x0) in *. assert (H : x <> []) by discriminate.
  unfold run_dbscan. rewrite (flat_radius x (TraceModel.min_points y) v H F).
  destruct (dbscan_correct x (TraceModel.min_points y) 0 ltac:(lra)) as (lab & E & C). rewrite E. f_equal.
  eapply all_noise; eauto. intros i Hi. apply flat_not_crowded; auto. unfold TraceModel.min_points. lia.
Qed.
(** "The clusters do not depend on the orientation of the plane": no.  Turning the rows, which
    changes none of their distances, can remove a cluster. *)
Theorem C121_orientation_is_irrelevant_refuted :
  exists y_bin x angle, run_dbscan y_bin x = Some [1; 1; 1; 1; -1]%Z /\
    run_dbscan y_bin (map (turned angle) x) = Some [-1; -1; -1; -1; -1]%Z.
Proof.
  exists (repeat true 5), diagonal, (- (PI / 4)). split; [exact diagonal_labels|].
  rewrite (C121_rows_on_an_upright_line _ _ 0); [reflexivity| |].
  - apply nodup_map; [apply turned_inj|]. unfold diagonal.
    repeat (constructor; [simpl; intros X; repeat (destruct X as [X|X]; [injection X; lra|]); exact X|]). constructor.
  - right. intros b Hb. apply in_map_iff in Hb. destruct Hb as (a & <- & Ha).
    assert (D : fst a = snd a) by (simpl in Ha; repeat (destruct Ha as [<-|Ha]; [reflexivity|]); destruct Ha).
    unfold turned. simpl. rewrite D, sin_neg, cos_neg, sin_PI4, cos_PI4. ring.
Qed.

(** A cluster has more rows than the threshold, so three different points, or many copies of a few,
    never make a footprint although three points pass the check of C85. *)
Theorem C121_few_points_make_no_footprint :
  forall (G : Type) is_empty area contains difference union (no_polygon : G) smooth triangulate convex_hull alphashape radius
         z purity flags points,
    length z = length flags -> NoDup points -> (forall q, In q points <-> TraceSpec.flagged z flags q) ->
    (length points = 3)%nat \/
    (3 < length points <= 50 /\ 20 * (length points - 1) < length (filter (fun b => b) flags))%nat ->
    forall f,
      TraceModel.build is_empty area contains difference union no_polygon smooth triangulate convex_hull alphashape radius z purity flags = Ok f ->
      TraceModel.f_polygon f = Some (smooth no_polygon) /\ TraceModel.f_area f = area (smooth no_polygon).
Proof.
  intros G is_empty area contains difference union no_polygon smooth triangulate convex_hull alphashape radius
    z purity flags points E N F C f H.
  unfold TraceModel.build in H. rewrite TraceProofs.take_rows_ok in H by auto.
  assert (L : length (TraceModel.unique (select flags z)) = length points).
  { apply Nat.le_antisymm; apply NoDup_incl_length; auto using TraceProofs.unique_nodup.
    - intros q Hq. apply F. apply TraceProofs.select_flagged; auto. apply TraceProofs.unique_in; auto.
    - intros q Hq. apply TraceProofs.unique_in. apply TraceProofs.select_flagged; auto. apply F; auto. }
  destruct (Nat.ltb_spec (length (TraceModel.unique (select flags z))) 3) as [X|_]; [lia|].
  unfold TraceModel.run_dbscan, TraceModel.dbscan in H.
  rewrite few_labels in H.
  - rewrite zmax_noise in H. simpl in H. unfold TraceModel.from_polygon in H. rewrite TraceProofs.take_rows_ok in H by auto.
    injection H as <-. auto.
  - rewrite L. unfold TraceModel.min_points. set (g := length (filter (fun b => b) flags)) in *.
    pose proof (Nat.div_mod (g + 19) 20 ltac:(lia)) as D. pose proof (Nat.mod_upper_bound (g + 19) 20 ltac:(lia)) as M.
    set (q := ((g + 19) / 20)%nat) in *. set (r := ((g + 19) mod 20)%nat) in *. lia.
Qed.

Example C121_met :
  run_dbscan (repeat true 5) diagonal = Some [1; 1; 1; 1; -1]%Z /\ is_box_area diagonal 400 /\
  NoDup [(0, 1); (0, 2); (0, 3)] /\ (forall a, In a [(0, 1); (0, 2); (0, 3)] -> fst a = 0).
Proof.
  split; [exact diagonal_labels|]. split.
  - assert (H : diagonal <> []) by discriminate. destruct (ranges_spec diagonal H) as [A B]. rewrite diagonal_ranges in A, B.
    exists 20, 20. repeat split; auto. ring.
  - split.
    + repeat (constructor; [simpl; intros X; repeat (destruct X as [X|X]; [injection X; lra|]); exact X|]). constructor.
    + simpl. intros a Ha. repeat (destruct Ha as [<-|Ha]; [reflexivity|]). destruct Ha.
Qed.
(** four distinct points among 70 good instances *)
Example C121_met_copies :
  let z := ([(0, 0); (1, 0); (0, 1)] ++ repeat (1, 1) 67)%Z in
  NoDup [(0, 0); (1, 0); (0, 1); (1, 1)]%Z /\
  (forall q, In q [(0, 0); (1, 0); (0, 1); (1, 1)]%Z <-> TraceSpec.flagged z (repeat true 70) q) /\
  (3 < 4 <= 50 /\ 20 * (4 - 1) < length (filter (fun b : bool => b) (repeat true 70)))%nat.
Proof.
  cbv zeta. split; [|split].
  - repeat (constructor; [simpl; intuition discriminate|]). constructor.
  - intros q. unfold TraceSpec.flagged. split.
    + intros H. simpl in H. repeat (destruct H as [<-|H]; [simpl; auto 10|]). destruct H.
    + intros H. simpl in H. repeat (destruct H as [H|H]; [injection H as <-; simpl; auto 10|]). destruct H.
  - simpl. lia.
Qed.

Print Assumptions C121_radius.
Print Assumptions C121_position_and_scale.
Print Assumptions C121_rows_on_an_upright_line.
Print Assumptions C121_orientation_is_irrelevant_refuted.
Print Assumptions C121_few_points_make_no_footprint.
