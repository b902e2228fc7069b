(** Property C140: when CLOISTER finds a boundary. *)
From Coq Require Import Lqa.
From Verif Require Import BaseLemmas Mat CloisterModel CloisterSpec PilotProofs SiftedProofs CloisterProofs CloisterProps EdgeSpec EdgeProofs.
Set Implicit Arguments.
Open Scope nat_scope.
Open Scope list_scope.

(** There is a plain boundary exactly if two features that vary are projected in different directions. *)
Theorem C140_when_there_is_a_boundary :
  forall pearson hull x a1 a2 n p_val c_thres ze zc,
    hull_correct hull -> fails_on_lines hull -> complete x n -> length a1 = n -> length a2 = n ->
    cloister pearson hull x [map Some a1; map Some a2] n p_val c_thres = Ok (ze, zc) ->
    (ze <> [] <-> exists j k, j < n /\ k < n /\ varies x j /\ varies x k /\ independent a1 a2 j k).
Proof.
  intros pearson hull x a1 a2 n p_val c ze zc HC HF C L1 L2 H.
  destruct (@cloister_inv _ _ _ _ _ _ _ _ _ H) as (_ & rho & _ & -> & _).
  assert (P : forall v, In v (map (mulv [map Some a1; map Some a2]) (x_edge x n)) -> exists p, v = in_plane p).
  { intros v Hv. destruct (@edge_plane x n a1 a2 _ C (fun w Hw => Hw) v Hv) as (b & _ & ->). eauto. }
  rewrite (@hull_empty _ _ HC HF P). split.
  - intro N. destruct (@search_pair n (fun j k => ~ (hi x j == lo x j)%Q /\ ~ (hi x k == lo x k)%Q /\ independent a1 a2 j k)) as [(j & k & Hj & Hk & Vj & Vk & I)|F].
    + intros j k. unfold independent. destruct (Qeq_dec (hi x j) (lo x j)), (Qeq_dec (hi x k) (lo x k)), (Qeq_dec (nth j a1 0 * nth k a2 0)%Q (nth k a1 0 * nth j a2 0)%Q); tauto.
    + exists j, k. split; auto. split; auto. split; [apply (varies_iff C Hj); auto|]. split; [apply (varies_iff C Hk); auto|auto].
    + exfalso. apply N. apply (@edge_flat x n a1 a2 (x_edge x n)); auto. intros j k Hj Hk Vj Vk.
      destruct (Qeq_dec (nth j a1 0 * nth k a2 0)%Q (nth k a1 0 * nth j a2 0)%Q) as [|X]; auto. destruct (F j k Hj Hk). auto.
  - intros (j & k & Hj & Hk & Vj & Vk & I) O. apply (varies_iff C Hj) in Vj. apply (varies_iff C Hk) in Vk.
    assert (T := @turn_two a1 a2 n x j k L1 L2 Hj Hk). rewrite (O _ _ _) in T.
    + apply I. symmetry in T. apply Qmult_integral in T. destruct T as [T|T]; [apply Qmult_integral in T; destruct T; [destruct Vj|destruct Vk]; lra|lra].
    + rewrite <- corner_placed by auto. apply in_map, corner_in.
    + rewrite <- corner_placed by auto. apply in_map, corner_in.
    + rewrite <- corner_placed by auto. apply in_map, corner_in.
Qed.

(** There is a boundary of the correlated features exactly if there is a plain one. *)
Theorem C140_both_or_neither :
  forall pearson hull x a1 a2 n p_val c_thres ze zc,
    hull_correct hull -> fails_on_lines hull -> complete x n ->
    cloister pearson hull x [map Some a1; map Some a2] n p_val c_thres = Ok (ze, zc) -> (zc = [] <-> ze = []).
Proof.
  intros pearson hull x a1 a2 n p_val c ze zc HC HF C H.
  destruct (@cloister_inv _ _ _ _ _ _ _ _ _ H) as (_ & rho & _ & Ez & Ec). cbv zeta in Ec.
  set (kept := select (map negb (map (removed rho c n) (x_edge x n))) (x_edge x n)) in *.
  assert (I : forall v, In v kept -> In v (x_edge x n)) by (intros v Hv; apply kept_in in Hv; apply Hv).
  assert (P : forall v, In v (map (mulv [map Some a1; map Some a2]) (x_edge x n)) -> exists p, v = in_plane p).
  { intros v Hv. destruct (@edge_plane x n a1 a2 _ C (fun w Hw => Hw) v Hv) as (b & _ & ->). eauto. }
  assert (S : forall v, In v (map (mulv [map Some a1; map Some a2]) kept) -> In v (map (mulv [map Some a1; map Some a2]) (x_edge x n))).
  { intros v Hv. apply in_map_iff in Hv. destruct Hv as (w & <- & Hw). apply in_map. auto. }
  split; intro E.
  - destruct (compute_convex_hull hull (map (mulv [map Some a1; map Some a2]) kept)); [congruence|]. subst zc. discriminate.
  - assert (K : compute_convex_hull hull (map (mulv [map Some a1; map Some a2]) kept) = []).
    { apply (@hull_empty _ _ HC HF); [auto|]. rewrite Ez in E. apply (@hull_empty _ _ HC HF P) in E. intros p q r Hp Hq Hr. apply E; auto. }
    rewrite K in Ec. congruence.
Qed.

(** If the corners that contradict no correlation are projected onto one line, the plain boundary is reported for
    both. *)
Theorem C140_flat_correlated_boundary :
  forall pearson hull x a1 a2 n p_val c_thres ze zc,
    hull_correct hull -> fails_on_lines hull -> complete x n -> (0 <= c_thres)%Q ->
    cloister pearson hull x [map Some a1; map Some a2] n p_val c_thres = Ok (ze, zc) ->
    kept_on_a_line pearson x [map Some a1; map Some a2] n p_val c_thres -> zc = ze.
Proof.
  intros pearson hull x a1 a2 n p_val c ze zc HC HF C Hc H K.
  destruct (@cloister_inv _ _ _ _ _ _ _ _ _ H) as (_ & rho & R & Ez & Ec). cbv zeta in Ec.
  set (kept := select (map negb (map (removed rho c n) (x_edge x n))) (x_edge x n)) in *.
  assert (I : forall v, In v kept -> In v (x_edge x n)) by (intros v Hv; apply kept_in in Hv; apply Hv).
  assert (N : forall b, In (corner x n b) kept -> ~ contradicts pearson x n p_val c (corner x n b)).
  { intros b Hb X. apply kept_in in Hb. destruct Hb as [_ Hb]. apply (@removed_iff _ _ _ _ _ _ _ R Hc) in X. congruence. }
  assert (X : compute_convex_hull hull (map (mulv [map Some a1; map Some a2]) kept) = []).
  { apply (@hull_empty _ _ HC HF).
    - intros v Hv. destruct (@edge_plane x n a1 a2 _ C I v Hv) as (b & _ & ->). eauto.
    - intros p q r Hp Hq Hr.
      destruct (@edge_plane x n a1 a2 _ C I _ Hp) as (b1 & I1 & E1), (@edge_plane x n a1 a2 _ C I _ Hq) as (b2 & I2 & E2), (@edge_plane x n a1 a2 _ C I _ Hr) as (b3 & I3 & E3).
      apply (K b1 b2 b3); auto; rewrite corner_placed by auto; auto. }
  rewrite X in Ec. auto.
Qed.

(** With a single feature there is no boundary, however the instances differ. *)
Theorem C140_one_feature :
  forall pearson hull x a1 a2 p_val c_thres ze zc,
    hull_correct hull -> fails_on_lines hull -> complete x 1 -> length a1 = 1 -> length a2 = 1 ->
    cloister pearson hull x [map Some a1; map Some a2] 1 p_val c_thres = Ok (ze, zc) -> ze = [] /\ zc = [].
Proof.
  intros pearson hull x a1 a2 p_val c ze zc HC HF C L1 L2 H.
  assert (E : ze = []).
  { destruct ze as [|z ze]; auto. exfalso.
    destruct (proj1 (@C140_when_there_is_a_boundary _ _ _ _ _ _ _ _ _ _ HC HF C L1 L2 H)) as (j & k & Hj & Hk & _ & _ & I); [discriminate|].
    assert (j = 0) by lia. assert (k = 0) by lia. subst. apply I. reflexivity. }
  split; auto. apply (@C140_both_or_neither _ _ _ _ _ _ _ _ _ _ HC HF C H). auto.
Qed.

(* ------------------------------------------------------------------ instances *)
Definition spot (v : list num) : Q * Q := (val (nth 0 v None), val (nth 1 v None)).
Definition flat (pts : list (list num)) : bool :=
  forallb (fun p => forallb (fun q => forallb (fun r => Qeq_bool (turn (spot p) (spot q) (spot r)) 0) pts) pts) pts.
Definition plane_hull (pts : list (list num)) : option (list nat) := if flat pts then None else Some (seq 0 (length pts)).
Lemma plane_hull_correct : hull_correct plane_hull.
Proof.
  intros pts vs H. unfold plane_hull in H. destruct (flat pts); [discriminate|]. injection H as <-. split.
  - intros i Hi. apply in_seq in Hi. lia.
  - intros p Hp. apply conv_point with p; [|apply same_refl]. replace (map (fun i => nth i pts []) (seq 0 (length pts))) with pts; auto.
    clear. induction pts as [|a pts IH]; auto. simpl. f_equal. rewrite <- seq_shift, map_map. auto.
Qed.
Lemma plane_hull_lines : fails_on_lines plane_hull.
Proof.
  intros pts P. unfold plane_hull. assert (F : flat pts = true <-> on_a_line pts).
  { assert (S : forall p, spot (in_plane p) = p) by (intros [a b]; reflexivity). unfold flat. rewrite forallb_forall. split.
    - intros H p q r Hp Hq Hr. specialize (H _ Hp). rewrite forallb_forall in H. specialize (H _ Hq). rewrite forallb_forall in H.
      specialize (H _ Hr). rewrite !S in H. apply Qeq_bool_iff. auto.
    - intros H p Hp. rewrite forallb_forall. intros q Hq. rewrite forallb_forall. intros r Hr.
      destruct (P _ Hp) as (p0 & ->), (P _ Hq) as (q0 & ->), (P _ Hr) as (r0 & ->). rewrite !S. apply Qeq_bool_iff. auto. }
  destruct (flat pts); split; intro X; try discriminate; auto; [apply F; auto|apply F in X; discriminate].
Qed.
Definition free_pearson (u v : list num) : res clerr (num * num) := Ok (Some 0%Q, Some 1%Q).
Definition opposed_pearson (u v : list num) : res clerr (num * num) := Ok (Some 1%Q, Some 0%Q).
Definition two_x : list (list num) := [[Some (-1); Some (-1)]; [Some 1; Some 0]; [Some 0; Some 1]]%Q.
(** Two features: a boundary of four points if they are projected in different directions; the corners that a
    correlation of 1 leaves are on a line, and the plain boundary is reported for both. *)
Example C140_met :
  hull_correct plane_hull /\ fails_on_lines plane_hull /\ complete two_x 2 /\ varies two_x 0 /\ varies two_x 1 /\ independent [1; 0]%Q [0; 1]%Q 0 1 /\
  (exists ze, cloister free_pearson plane_hull two_x [map Some [1; 0]; map Some [0; 1]]%Q 2 (5#100) (7#10) = Ok (ze, ze) /\ length ze = 4) /\
  (exists ze, cloister opposed_pearson plane_hull two_x [map Some [1; 0]; map Some [0; 1]]%Q 2 (5#100) (7#10) = Ok (ze, ze) /\ length ze = 4 /\
     contradicts opposed_pearson two_x 2 (5#100) (7#10) (corner two_x 2 (fun j => Nat.eqb j 0))) /\
  cloister free_pearson plane_hull two_x [map Some [1; 2]; map Some [2; 4]]%Q 2 (5#100) (7#10) = Ok ([], []).
Proof.
  split; [apply plane_hull_correct|]. split; [apply plane_hull_lines|].
  split. { split; [discriminate|]. intros row [<-|[<-|[<-|[]]]]; (split; [reflexivity|]); simpl; intuition discriminate. }
  split. { exists [Some (-1); Some (-1)]%Q, [Some 1; Some 0]%Q, (-1)%Q, 1%Q. simpl. repeat split; auto. discriminate. }
  split. { exists [Some (-1); Some (-1)]%Q, [Some 1; Some 0]%Q, (-1)%Q, 0%Q. simpl. repeat split; auto. discriminate. }
  split; [unfold independent; simpl; discriminate|].
  split; [eexists; split; [vm_compute; reflexivity|reflexivity]|].
  split; [|vm_compute; reflexivity].
  eexists. split; [vm_compute; reflexivity|]. split; [reflexivity|].
  exists 0, 1, 1%Q. split; [lia|]. split.
  { exists (Some 0%Q). split; [reflexivity|]. intros (q & E & L). injection E as <-. revert L. vm_compute. discriminate. }
  left. split; [reflexivity|]. intros (p & q & E & E' & S). vm_compute in E, E'. injection E as <-. injection E' as <-.
  destruct S as [[_ S]|[[S _]|[S _]]]; revert S; vm_compute; discriminate.
Qed.
(** A completed CLOISTER need not have found a boundary, although the instances differ: one feature with three values. *)
Theorem C140_always_a_boundary_refuted :
  exists x a1 a2, complete x 1 /\ varies x 0 /\ length x = 3 /\
    forall hull, hull_correct hull -> fails_on_lines hull ->
      cloister free_pearson hull x [map Some a1; map Some a2] 1 (5#100) (7#10) = Ok ([], []).
Proof.
  exists [[Some 1]; [Some 2]; [Some 4]]%Q, [1]%Q, [3]%Q.
  assert (C : complete [[Some 1]; [Some 2]; [Some 4]]%Q 1).
  { split; [discriminate|]. intros row [<-|[<-|[<-|[]]]]; (split; [reflexivity|]); simpl; intuition discriminate. }
  split; auto. split. { exists [Some 1]%Q, [Some 2]%Q, 1%Q, 2%Q. simpl. repeat split; auto. discriminate. }
  split; auto. intros hull HC HF.
  destruct (cloister free_pearson hull [[Some 1]; [Some 2]; [Some 4]]%Q [map Some [1]; map Some [3]]%Q 1 (5#100) (7#10)) as [[ze zc]|e] eqn:H.
  - destruct (@C140_one_feature _ _ _ [1]%Q [3]%Q _ _ _ _ HC HF C eq_refl eq_refl H) as [-> ->]. reflexivity.
  - vm_compute in H. discriminate.
Qed.

Print Assumptions C140_when_there_is_a_boundary.
Print Assumptions C140_both_or_neither.
Print Assumptions C140_flat_correlated_boundary.
Print Assumptions C140_one_feature.
Print Assumptions C140_always_a_boundary_refuted.
