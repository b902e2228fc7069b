(** C136: what moving and stretching the map does to TRACE's results. *)
From Coq Require Import Lia Lqa Permutation.
From Verif Require Import TraceModel TraceSpec TraceMoveSpec TraceProofs TraceProps TraceMoveProofs.
Set Implicit Arguments.
Open Scope nat_scope.
Open Scope list_scope.

(** the same numbers, the polygon moved *)
Definition same_but_moved {G} (move : G -> G) (f f' : footprint G) : Prop :=
  f_polygon f' = option_map move (f_polygon f) /\ f_area f' = f_area f /\ f_elements f' = f_elements f /\
  f_good f' = f_good f /\ f_density f' = f_density f /\ f_purity f' = f_purity f.

(** Adding the same vector to every instance moves the polygons along and changes no number and no error. *)
Theorem C136_position_of_the_map :
  forall (G : Type) (v : Z * Z) (move : G -> G) is_empty area contains contains_all intersection difference union no_polygon smooth
         triangulate convex_hull geoms alphashape epsilon,
    moves_along v move is_empty area contains contains_all intersection difference union no_polygon smooth triangulate convex_hull geoms alphashape ->
    (forall l k, epsilon (map (shifted v) l) k = epsilon l k) ->
    let run := run is_empty area contains contains_all intersection difference union no_polygon smooth triangulate convex_hull geoms alphashape epsilon in
    forall use_sim z purity selection0 p y_hat y_bin beta labels nalgos cores order,
      match run use_sim z purity selection0 p y_hat y_bin beta labels nalgos cores order,
            run use_sim (map (shifted v) z) purity selection0 p y_hat y_bin beta labels nalgos cores order with
      | Ok o, Ok o' =>
          t_summary o' = t_summary o /\ same_but_moved move (t_space o) (t_space o') /\ same_but_moved move (t_hard o) (t_hard o') /\
          Forall2 (same_but_moved move) (t_good o) (t_good o') /\ Forall2 (same_but_moved move) (t_best o) (t_best o')
      | Err e, Err e' => e' = e
      | _, _ => False
      end.
Proof.
  intros G v move is_empty area contains contains_all intersection difference union no_polygon smooth
         triangulate convex_hull geoms alphashape epsilon MV EP run0 use_sim z purity sel p y_hat y_bin beta labels n cores order.
  assert (F : forall l, Forall2 (same_but_moved move) l (map (mfp move) l)).
  { induction l as [|f l IH]; simpl; constructor; auto. repeat split. }
  unfold run0, run. change (map (shifted v) z) with (map (sh v) z).
  destruct use_sim; rewrite (trace_sh epsilon MV EP); destruct (trace _ _ _ _ _ _ _ _ _ _ _ _ _ _ _ _ _ _ _ _ _ _ _); simpl; auto;
    (split; [auto|]; split; [repeat split|]; split; [repeat split|]; split; apply F).
Qed.

(** A polygon measured on the map stretched by [c]: areas grow by the square of c, densities shrink by it, the counts and
    the purity stay, and relative to a space measured on the same map nothing changes. *)
Definition stretched (c : Z) (q : Z * Z) : Z * Z := (c * fst q, c * snd q)%Z.
Theorem C136_stretched_polygons :
  forall (G : Type) (c : Z) (stretch : G -> G) area contains smooth,
    (0 < c)%Z -> (forall g, area (stretch g) == inject_Z (c * c) * area g)%Q ->
    (forall g q, contains (stretch g) (stretched c q) = contains g q) ->
    forall g space z flags flags' f f' s s',
      from_polygon area contains smooth (Some g) z flags false = Ok f ->
      from_polygon area contains smooth (Some (stretch g)) (map (stretched c) z) flags false = Ok f' ->
      from_polygon area contains smooth (Some space) z flags' false = Ok s ->
      from_polygon area contains smooth (Some (stretch space)) (map (stretched c) z) flags' false = Ok s' ->
      (0 < area g)%Q -> (0 < area space)%Q -> (exists q, In q z /\ contains space q = true) ->
      f_elements f' = f_elements f /\ f_good f' = f_good f /\ f_purity f' = f_purity f /\
      (f_area f' == inject_Z (c * c) * f_area f)%Q /\ (f_density f' == f_density f / inject_Z (c * c))%Q /\
      exists a r d e p a' r' d' e' p', summary f s = [a; r; d; e; p] /\ summary f' s' = [a'; r'; d'; e'; p'] /\
        (r' == r)%Q /\ (e' == e)%Q /\ (p' == p)%Q.
Proof.
  intros G c stretch area contains smooth Hc HA HC g space z flags flags' f f' s s' Hf Hf' Hs Hs' Ag As (q0 & Iq & Cq).
  assert (K : (0 < inject_Z (c * c))%Q) by (rewrite <- (Zlt_Qlt 0); nia).
  assert (CN : forall g (l : list pt), count_in contains (stretch g) (map (stretched c) l) = count_in contains g l).
  { intros g0 l. unfold count_in. induction l as [|q l IH]; simpl; auto. rewrite HC. destruct (contains g0 q); simpl; auto. }
  assert (M : forall g fl f f', (0 < area g)%Q -> from_polygon area contains smooth (Some g) z fl false = Ok f ->
      from_polygon area contains smooth (Some (stretch g)) (map (stretched c) z) fl false = Ok f' ->
      f_elements f = count_in contains g z /\ f_area f = area g /\ (f_density f == qnat (f_elements f) / area g)%Q /\
      f_elements f' = f_elements f /\ f_good f' = f_good f /\ f_purity f' = f_purity f /\
      (f_area f' == inject_Z (c * c) * f_area f)%Q /\ (f_density f' == f_density f / inject_Z (c * c))%Q).
  { clear - HA CN K. intros g fl f f' Ag Hf Hf'. unfold from_polygon in *. rewrite (@take_rows_map pt pt) in Hf'.
    destruct (take_rows z fl) as [zg|]; [|discriminate]. cbn [rmap] in Hf'. rewrite !CN in Hf'. injection Hf as <-. injection Hf' as <-. simpl.
    assert (Ne : Qeq_bool (area g) 0 = false) by (apply not_true_iff_false; rewrite Qeq_bool_iff; lra).
    assert (Ne' : Qeq_bool (area (stretch g)) 0 = false).
    { apply not_true_iff_false. rewrite Qeq_bool_iff, HA. intro X. assert (0 < inject_Z (c * c) * area g)%Q by (apply Qmult_lt_0_compat; auto). lra. }
    rewrite Ne, Ne'. repeat split; auto; try apply Qeq_refl. rewrite HA. field. split; lra. }
  destruct (M _ _ _ _ Ag Hf Hf') as (E1 & E2 & E3 & E4 & E5 & E6 & E7 & E8).
  destruct (M _ _ _ _ As Hs Hs') as (D1 & D2 & D3 & D4 & D5 & D6 & D7 & D8).
  repeat (split; [solve [auto]|]).
  unfold summary. do 10 eexists. split; [reflexivity|]. split; [reflexivity|].
  assert (Z1 : Qeq_bool (f_area s) 0 = false) by (apply not_true_iff_false; rewrite Qeq_bool_iff, D2; lra).
  assert (Z2 : Qeq_bool (f_area s') 0 = false).
  { apply not_true_iff_false. rewrite Qeq_bool_iff, D7, D2. intro X. assert (0 < inject_Z (c * c) * area space)%Q by (apply Qmult_lt_0_compat; auto). lra. }
  assert (P : (0 < f_density s)%Q).
  { rewrite D3. apply Qlt_shift_div_l; auto. rewrite D1. unfold count_in.
    assert (X : In q0 (@filter pt (contains space) z)) by (apply filter_In; auto).
    assert (Y : 0 < length (@filter pt (contains space) z)) by (destruct (@filter pt (contains space) z); [destruct X|simpl; lia]).
    unfold qnat. rewrite Qmult_0_l. rewrite <- (Zlt_Qlt 0). lia. }
  assert (P' : (0 < f_density s')%Q) by (rewrite D8; apply Qlt_shift_div_l; auto; rewrite Qmult_0_l; auto).
  assert (Z3 : Qeq_bool (f_density s) 0 = false) by (apply not_true_iff_false; rewrite Qeq_bool_iff; lra).
  assert (Z4 : Qeq_bool (f_density s') 0 = false) by (apply not_true_iff_false; rewrite Qeq_bool_iff; lra).
  rewrite Z1, Z2, Z3, Z4. split; [|split].
  - rewrite E7, D7, D2. field. split; lra.
  - rewrite E8, D8. field. split; lra.
  - rewrite E6. apply Qeq_refl.
Qed.

(** The pixel geometry moves along with the points. *)
Example C136_met :
  let v := (100, -7)%Z in
  moves_along v (map (shifted v)) Pixels.is_empty Pixels.area Pixels.contains Pixels.contains_all Pixels.intersection Pixels.difference
    Pixels.union [] Pixels.smooth Pixels.pieces Pixels.hull Pixels.geoms Pixels.box /\
  (forall l k, Pixels.eps (map (shifted v) l) k = Pixels.eps l k) /\
  exists out, Pixels.trace (map (shifted v) [(0, 0); (2, 0); (0, 2); (2, 2)]%Z) 0%Q (repeat [true] 4) [0; 0; 0; 0]%Z [true; true; true; true] ["a"]%string 1 1%Z [0] = Ok out /\
    f_polygon (t_space out) = Some [(100, -7); (100, -6); (100, -5); (101, -7); (101, -6); (101, -5); (102, -7); (102, -6); (102, -5)]%Z.
Proof.
  intros v. split; [|split; [reflexivity|eexists; split; [vm_compute; reflexivity|reflexivity]]].
  generalize v. clear v. intros v.
  assert (C : forall g q, Pixels.contains (map (shifted v) g) (shifted v q) = Pixels.contains g q).
  { intros g q. unfold Pixels.contains. induction g as [|a g IH]; simpl; auto. rewrite IH. f_equal. apply (peqb_sh v). }
  assert (FI : forall (p p' : pt -> bool) l, (forall q, p (shifted v q) = p' q) -> filter p (map (shifted v) l) = map (shifted v) (filter p' l)).
  { intros p p' l H. induction l as [|a l IH]; simpl; auto. rewrite H. destruct (p' a); simpl; rewrite IH; auto. }
  constructor.
  - intros []; auto.
  - intros g. unfold Pixels.area. rewrite map_length. auto.
  - auto.
  - intros g l. unfold Pixels.contains_all. f_equal; [destruct l; auto|]. induction l as [|a l IH]; simpl; auto. rewrite C, IH. auto.
  - intros g h. unfold Pixels.intersection. apply FI. auto.
  - intros g h. unfold Pixels.difference. apply FI. intros q. rewrite C. auto.
  - intros g h. unfold Pixels.union, Pixels.difference. rewrite map_app. f_equal. apply FI. intros q. rewrite C. auto.
  - reflexivity.
  - reflexivity.
  - intros g. unfold Pixels.pieces. rewrite !map_map. reflexivity.
  - reflexivity.
  - reflexivity.
  - intros [|q l]; simpl; auto. f_equal.
    assert (R : forall d a b, Pixels.range (d + a) (d + b) = map (Z.add d) (Pixels.range a b)).
    { intros d a b. unfold Pixels.range. rewrite map_map. replace (d + b - (d + a) + 1)%Z with (b - a + 1)%Z by lia. apply map_ext. intros; lia. }
    assert (Mi : forall d l a, fold_left Z.min (map (Z.add d) l) (d + a)%Z = (d + fold_left Z.min l a)%Z).
    { intros d l0. induction l0 as [|b l0 IH]; intros a; simpl; auto. rewrite Z.add_min_distr_l. auto. }
    assert (Ma : forall d l a, fold_left Z.max (map (Z.add d) l) (d + a)%Z = (d + fold_left Z.max l a)%Z).
    { intros d l0. induction l0 as [|b l0 IH]; intros a; simpl; auto. rewrite Z.add_max_distr_l. auto. }
    assert (E1 : map fst (map (shifted v) l) = map (Z.add (fst v)) (map fst l)) by (rewrite !map_map; reflexivity).
    assert (E2 : map snd (map (shifted v) l) = map (Z.add (snd v)) (map snd l)) by (rewrite !map_map; reflexivity).
    unfold pt in *. rewrite E1, E2, !Mi, !Ma, !R. generalize (Pixels.range (fold_left Z.min (map fst l) (fst q)) (fold_left Z.max (map fst l) (fst q))).
    generalize (Pixels.range (fold_left Z.min (map snd l) (snd q)) (fold_left Z.max (map snd l) (snd q))).
    intros ys xs. induction xs as [|x xs IH]; simpl; auto. rewrite IH, map_app. f_equal. rewrite !map_map. reflexivity.
Qed.
(** A square of four instances in a space of the same four, doubled. *)
Example C136_met_stretched :
  let area := fun w : Z => (inject_Z w * inject_Z w)%Q in
  let contains := fun (w : Z) (q : pt) => Z.leb 0 (fst q) && Z.leb (fst q) w && Z.leb 0 (snd q) && Z.leb (snd q) w in
  (forall g, area (2 * g)%Z == inject_Z (2 * 2) * area g)%Q /\
  (forall g q, contains (2 * g)%Z (stretched 2 q) = contains g q) /\
  exists f f', from_polygon area contains (fun g => g) (Some 3%Z) [(0, 0); (3, 0); (3, 2); (5, 5)]%Z [true; false; true; true] false = Ok f /\
    from_polygon area contains (fun g => g) (Some 6%Z) (map (stretched 2) [(0, 0); (3, 0); (3, 2); (5, 5)]%Z) [true; false; true; true] false = Ok f' /\
    f_elements f' = 3 /\ f_good f' = 2 /\ (f_density f == 1 # 3)%Q /\ (f_density f' == 1 # 12)%Q.
Proof.
  intros area contains. split; [|split].
  - intros g. unfold area. rewrite !inject_Z_mult. ring.
  - intros g [a b]. unfold contains, stretched. cbn [fst snd]. apply eq_true_iff_eq. rewrite !andb_true_iff, !Z.leb_le. lia.
  - do 2 eexists. split; [vm_compute; reflexivity|]. split; [vm_compute; reflexivity|]. vm_compute. auto.
Qed.

Print Assumptions C136_position_of_the_map.
Print Assumptions C136_stretched_polygons.
