(** Properties C50, C51, C53, C84-C89 (TRACE). *)
From Coq Require Import Lia Permutation Lqa.
From Verif Require Import TraceModel TraceSpec TraceDbscan TraceProofs TracePurity.
Set Implicit Arguments.
Open Scope nat_scope.
Open Scope list_scope.

Arguments cl_length {x k eps lab}.
Arguments cl_noise {x k eps lab} _ {i}.
Arguments cl_positive {x k eps lab} _ {i}.
Arguments cl_same {x k eps lab} _ {i j}.

(* ============================================================ C51, C84 *)
(** dbscan always ends and labels the rows by the connected components of the "at most eps apart"
    graph that have a crowded row. *)
Theorem C51_clustering :
  forall x k eps, (0 <= eps)%Z -> exists lab, dbscan x k eps = Some lab /\ clustering x k eps lab.
Proof. intros x k eps. apply dbscan_correct. Qed.
(** The clustering leaves no choice but the numbering: two clusterings of the same rows put the
    same rows together and leave the same rows out. *)
Theorem C51_partition_is_determined :
  forall x k eps lab lab', clustering x k eps lab -> clustering x k eps lab' ->
    forall i j, i < length x -> j < length x ->
      ((nth i lab 0 = -1)%Z <-> (nth i lab' 0 = -1)%Z) /\
      (nth i lab 0%Z = nth j lab 0%Z <-> nth i lab' 0%Z = nth j lab' 0%Z).
Proof.
  intros x k eps lab lab' C C' i j Hi Hj.
  assert (N : forall i, i < length x -> ((nth i lab 0 = -1)%Z <-> (nth i lab' 0 = -1)%Z)).
  { intros a Ha. rewrite (cl_noise C Ha), (cl_noise C' Ha). tauto. }
  split; auto.
  destruct (cl_positive C Hi) as [Ei|Ei], (cl_positive C' Hi) as [Ei'|Ei'].
  - rewrite Ei, Ei'. split; intros H; symmetry; apply N; auto.
  - exfalso. apply N in Ei; auto. lia.
  - exfalso. apply N in Ei'; auto. lia.
  - rewrite (cl_same C Hi Hj Ei), (cl_same C' Hi Hj Ei'). tauto.
Qed.
Example C51_met :
  dbscan [(0, 0); (1, 0); (0, 1); (1, 1); (9, 9); (20, 0); (21, 0); (20, 1); (21, 1); (30, 30)]%Z 3 2
  = Some [1; 1; 1; 1; -1; 2; 2; 2; 2; -1]%Z.
Proof. reflexivity. Qed.

(** Every cluster has more than k rows. *)
Theorem C84_cluster_size :
  forall x k eps lab c, (0 <= eps)%Z -> dbscan x k eps = Some lab -> (1 <= c)%Z -> In c lab ->
    k + 1 <= length (filter (Z.eqb c) lab).
Proof.
  intros x k eps lab c He E Hc I. destruct (@dbscan_correct x k eps He) as (lab' & E' & C).
  rewrite E in E'. injection E' as <-.
  apply In_nth with (d := 0%Z) in I. destruct I as (i & Hi & <-). rewrite (cl_length C) in Hi.
  destruct (cl_noise C Hi) as [_ N].
  assert (D : ~ ~ exists j, linked x eps i j /\ crowded x k eps j).
  { intros X. apply N in X. lia. }
  apply Nat.nlt_ge. intros L. apply D. intros (j & Lk & l & Nd & Ll & W).
  assert (Hl : forall a, In a l -> a < length x /\ nth a lab 0%Z = nth i lab 0%Z).
  { intros a Ha. pose proof (W a Ha) as Wa. pose proof (within_lt Wa). split; [tauto|]. symmetry.
    apply (cl_same C Hi); try tauto. eapply linked_step; eauto. }
  assert (k + 1 <= length (filter (Z.eqb (nth i lab 0%Z)) lab)); [|lia].
  rewrite <- Ll. clear - Hl Nd C.
  assert (X : length (filter (fun a => Z.eqb (nth i lab 0%Z) (nth a lab 0%Z)) (seq 0 (length lab))) = length (filter (Z.eqb (nth i lab 0%Z)) lab)).
  { generalize (nth i lab 0%Z). intros c. clear. induction lab as [|v t IH]; simpl; auto.
    rewrite <- seq_shift. assert (S : forall l, length (filter (fun a => Z.eqb c (nth a (v :: t) 0%Z)) (map S l)) = length (filter (fun a => Z.eqb c (nth a t 0%Z)) l)).
    { induction l as [|a l IHl]; simpl; auto. destruct (Z.eqb c (nth a t 0%Z)); simpl; auto. }
    simpl in S. destruct (Z.eqb c v); simpl; rewrite S, IH; auto. }
  rewrite <- X. apply NoDup_incl_length; auto. intros a Ha. destruct (Hl a Ha) as [A B].
  apply filter_In. split; [apply in_seq; rewrite (cl_length C); unfold pt in *; lia|]. rewrite B. apply Z.eqb_refl.
Qed.
(** The textbook definition does not hold: a chain of points that are not crowded joins two
    groups into one cluster. *)
Theorem C84_textbook_dbscan_refuted :
  exists x k eps lab i j, dbscan x k eps = Some lab /\ (0 <= eps)%Z /\ k = 3 /\
    crowded x k eps i /\ crowded x k eps j /\ (1 <= nth i lab 0)%Z /\ nth i lab 0%Z = nth j lab 0%Z /\
    ~ density_reachable x k eps i j.
Proof.
  set (x := [(0, 0); (0, 1); (1, 0); (-1, 0); (2, 0); (3, 0); (4, 0); (5, 0); (5, 1); (6, 0)]%Z).
  exists x, 3, 1%Z, [1; 1; 1; 1; 1; 1; 1; 1; 1; 1]%Z, 0, 7. split; [reflexivity|].
  split; [lia|]. split; auto.
  assert (Cr : forall a, a < length x -> core (near x 1) (length x) 3 a <-> crowded x 3 1 a) by (intros; apply core_crowded; auto; lia).
  split; [apply Cr; [simpl; lia|split; simpl; lia]|]. split; [apply Cr; [simpl; lia|split; simpl; lia]|].
  split; [simpl; lia|]. split; [reflexivity|].
  intros D.
  assert (H : forall b, density_reachable x 3 1 0 b -> In b [0; 1; 2; 3]).
  { intros b Hb. induction Hb as [|j l Hj IH C W]; [left; auto|].
    assert (Lj : j < length x) by (apply within_lt in W; tauto).
    assert (Ll : l < length x) by (apply within_lt in W; tauto).
    apply Cr in C; auto. destruct C as [_ C].
    destruct IH as [<-|[<-|[<-|[<-|[]]]]]; try (vm_compute in C; lia).
    apply near_within in W; auto; [|lia].
    do 10 (destruct l as [|l]; [vm_compute in W; try discriminate W; simpl; tauto|]). simpl in Ll. lia. }
  apply H in D. simpl in D. lia.
Qed.

Section Footprints.
  Variable G : Type.
  Variable is_empty : G -> bool.
  Variable area : G -> Q.
  Variable contains : G -> pt -> bool.
  Variable contains_all : G -> list pt -> bool.
  Variable intersection difference union : G -> G -> G.
  Variable no_polygon : G.
  Variable smooth : G -> G.
  Variable triangulate : G -> list G.
  Variable convex_hull : G -> G.
  Variable geoms : G -> list G.
  Variable alphashape : list pt -> option G.
  Variable epsilon : list pt -> nat -> Z.
  Notation build := (build is_empty area contains difference union no_polygon smooth triangulate convex_hull alphashape epsilon).
  Notation fit_poly := (fit_poly is_empty contains difference triangulate convex_hull alphashape).
  Notation from_polygon := (from_polygon area contains smooth).
  Notation trace := (trace is_empty area contains contains_all intersection difference union no_polygon smooth triangulate convex_hull geoms alphashape epsilon).
  Notation no_footprint := (no_footprint G).

  (* ========================================================== C50 *)
  (** The order in which the workers finish changes neither the result nor whether there is one. *)
  Theorem C50_completion_order_is_irrelevant :
    forall z purity y_bin p beta labels nalgos cores order order' out,
      Permutation order (seq 0 nalgos) -> Permutation order' (seq 0 nalgos) ->
      trace z purity y_bin p beta labels nalgos cores order = Ok out ->
      trace z purity y_bin p beta labels nalgos cores order' = Ok out.
  Proof.
    intros z purity y_bin p beta labels nalgos cores order order' out P P'.
    unfold TraceModel.trace, compute_algorithm_qualities. destruct (build z purity _); [|discriminate].
    destruct (Z.leb cores 0); [discriminate|].
    destruct (collect _ _ _ _ _ _ _ _ _ _ _ _ _ _ _ _ order _ _) as [[good best]|] eqn:E; [|discriminate].
    rewrite (proj2 (collect_order is_empty area contains contains_all intersection difference union no_polygon smooth triangulate convex_hull geoms alphashape epsilon z purity y_bin p labels nalgos P' good best)); auto.
    apply (collect_order is_empty area contains contains_all intersection difference union no_polygon smooth triangulate convex_hull geoms alphashape epsilon z purity y_bin p labels nalgos P good best). auto.
  Qed.

  (* ========================================================== C53 *)
  (** The statistics of a footprint describe its polygon: counts, purity, density. *)
  Theorem C53_statistics :
    forall polygon z y_bin smoothen f, from_polygon (Some polygon) z y_bin smoothen = Ok f ->
      exists g, g = (if smoothen then smooth polygon else polygon) /\
        f_polygon f = Some g /\ f_area f = area g /\
        f_elements f = inside (contains g) z /\
        f_good f = flagged_inside (contains g) z y_bin /\
        f_good f <= f_elements f /\
        (0 <= f_purity f <= 1)%Q /\
        (f_purity f * inject_Z (Z.of_nat (f_elements f)) == inject_Z (Z.of_nat (f_good f)))%Q /\
        (f_elements f = 0 -> (f_purity f == 0)%Q) /\
        (~ (area g == 0)%Q -> (f_density f * area g == inject_Z (Z.of_nat (f_elements f)))%Q) /\
        ((area g == 0)%Q -> (f_density f == 0)%Q) /\
        ((0 <= area g)%Q -> (0 <= f_density f)%Q).
  Proof.
    intros polygon z y s f H. apply from_polygon_spec in H. destruct H as (E & g & Eg & Ep & Ea & Ee & Ego & Le & Ed & Epu).
    exists g. repeat (split; [assumption|]).
    fold (qnat (f_elements f)) (qnat (f_good f)).
    assert (Pu : (0 <= f_purity f <= 1)%Q /\ (f_purity f * qnat (f_elements f) == qnat (f_good f))%Q /\
                 (f_elements f = 0 -> (f_purity f == 0)%Q)).
    { rewrite Epu. destruct (Nat.eqb_spec (f_elements f) 0) as [Z|N].
      - rewrite Z. replace (f_good f) with 0 by lia. split; [split; lra|]. split; [unfold qnat; simpl; ring|]. intros _. lra.
      - pose proof (qnat_pos N) as P. pose proof (qnat_nonneg (f_good f)) as P'. pose proof (qnat_le Le) as P''.
        assert (M : (qnat (f_good f) / qnat (f_elements f) * qnat (f_elements f) == qnat (f_good f))%Q) by (field; lra).
        split; [|split; auto; intros; contradiction]. split.
        + apply Qle_shift_div_l; auto; rewrite Qmult_0_l; auto.
        + apply Qle_shift_div_r; auto; rewrite Qmult_1_l; auto. }
    destruct Pu as (A & B & C). split; [exact A|]. split; [exact B|]. split; [exact C|].
    rewrite Ed. destruct (Qeq_bool (area g) 0) eqn:Ez.
    - apply Qeq_bool_iff in Ez. split; [intros X; contradiction|]. split; intros; lra.
    - apply Qeq_bool_neq in Ez. split; [intros _; field; auto|]. split; [intros X; contradiction|].
      intros X. assert (X' : (0 < area g)%Q) by lra.
      apply Qle_shift_div_l; auto; rewrite Qmult_0_l; apply qnat_nonneg.
  Qed.

  Theorem C53_no_polygon :
    forall z y_bin smoothen, from_polygon None z y_bin smoothen =
      Ok {| f_polygon := None; f_area := 0%Q; f_elements := 0; f_good := 0; f_density := 0%Q; f_purity := 0%Q |}.
  Proof. reflexivity. Qed.

  (* ========================================================== C85 *)
  (** A footprint has no polygon, and all its statistics are 0, exactly when the instances it is
      built from do not include three different points. *)
  Theorem C85_three_points_needed :
    forall z purity flags,
      length z = length flags -> ~ three_distinct (flagged z flags) ->
      build z purity flags = Ok {| f_polygon := None; f_area := 0%Q; f_elements := 0; f_good := 0; f_density := 0%Q; f_purity := 0%Q |}.
  Proof. intros z purity flags E N. apply (build_few is_empty area contains difference union no_polygon smooth triangulate convex_hull alphashape epsilon); auto. Qed.
  Theorem C85_otherwise_a_polygon :
    forall z purity flags f, three_distinct (flagged z flags) -> build z purity flags = Ok f ->
      exists g, f_polygon f = Some (smooth g).
  Proof.
    intros z purity flags f T H. destruct (build_many is_empty area contains difference union no_polygon smooth triangulate convex_hull alphashape epsilon purity T H) as [g Hg].
    apply from_polygon_spec in Hg. destruct Hg as (_ & h & -> & E & _). eauto.
  Qed.
  (** The clustering inside it always ends. *)
  Theorem C85_building_terminates : forall z purity flags, build z purity flags <> Err EFuel.
  Proof. intros. apply build_terminates. Qed.

  (* ========================================================== C87 *)
  (** A fitted polygon contains nothing outside the alpha shape and nothing of a triangle that is
      impure. *)
  Theorem C87_impure_triangles_are_removed :
    (forall a b q, contains (difference a b) q = true -> contains a q = true /\ contains b q = false) ->
    forall z purity flags data g, length z = length flags -> In false flags ->
      fit_poly z purity data flags = Ok (Some g) ->
      exists a, alphashape data = Some a /\ 3 <= length data /\
        forall q, contains g q = true -> contains a q = true /\
          forall t, In t (triangulate a) -> impure (contains (convex_hull t)) z flags purity -> contains t q = false.
  Proof.
    intros D z purity flags data g E I H.
    assert (N : forallb (fun b => b) flags = false).
    { destruct (forallb (fun b => b) flags) eqn:X; auto. rewrite forallb_forall in X. apply X in I. discriminate. }
    destruct (fit_spec is_empty contains difference triangulate convex_hull alphashape z flags purity data E N H) as (a & Ea & L & ->). exists a. split; auto. split; auto.
    intros q Hq. apply removed_forward in Hq; auto. destruct Hq as [A B]. split; auto.
    intros t Ht Im. apply B; auto. apply bad_impure; auto.
  Qed.
  (** If the triangles tile the shape and no instance lies on an edge, the fitted polygon itself
      is pure enough. *)
  Theorem C87_purity :
    forall z purity flags data a g, length z = length flags -> In false flags ->
      alphashape data = Some a ->
      (forall u v q, In q z -> contains (difference u v) q = contains u q && negb (contains v q)) ->
      (forall t q, In t (triangulate a) -> In q z -> contains (convex_hull t) q = contains t q) ->
      (forall q, In q z -> contains a q = true -> length (filter (fun t => contains t q) (triangulate a)) = 1) ->
      (forall t q, In t (triangulate a) -> In q z -> contains t q = true -> contains a q = true) ->
      fit_poly z purity data flags = Ok (Some g) ->
      (purity * inject_Z (Z.of_nat (inside (contains g) z)) <= inject_Z (Z.of_nat (flagged_inside (contains g) z flags)))%Q.
  Proof.
    intros z purity flags data a g E I Ea D Hc One Sub H.
    assert (N : forallb (fun b => b) flags = false).
    { destruct (forallb (fun b => b) flags) eqn:X; auto. rewrite forallb_forall in X. apply X in I. discriminate. }
    destruct (fit_spec is_empty contains difference triangulate convex_hull alphashape z flags purity data E N H) as (a' & Ea' & L & Eg).
    assert (a' = a) by congruence. subst a'. eapply purity_kept; eauto.
  Qed.

  (* ========================================================== C88 *)
  (** Listing the instances in another order changes nothing. *)
  Theorem C88_instance_order_is_irrelevant :
    (forall g l l', Permutation l l' -> contains_all g l = contains_all g l') ->
    forall (rows rows' : list (pt * list bool * Z * bool)) purity labels nalgos cores order,
      Permutation rows rows' ->
      let go rs := trace (map (fun r => fst (fst (fst r))) rs) purity (map (fun r => snd (fst (fst r))) rs)
                         (map (fun r => snd (fst r)) rs) (map snd rs) labels nalgos cores order in
      go rows = go rows'.
  Proof. intros A rows rows' purity labels nalgos cores order P. cbv zeta. apply trace_perm; auto. Qed.

  (* ========================================================== C86, C89 *)
  (** C86: [tight] never returns a polygon.  It raises when a part of the footprint holds every
      instance of the space and at least three of them are good, and returns nothing otherwise. *)
  Theorem C86_tightening_gives_no_polygon :
    forall z g y, length z = length y ->
      (forall r, tight contains_all geoms z (Some g) y = Ok r -> r = None) /\
      ((exists e, tight contains_all geoms z (Some g) y = Err e) <->
       exists s, In s (geoms g) /\ contains_all s z = true /\ 3 <= length (filter (fun b => b) y)).
  Proof.
    intros z g y E. unfold tight.
    assert (L : forall s, length (select (map (fun b => contains_all s z && b) y) z) =
                          if contains_all s z then length (filter (fun b => b) y) else 0).
    { intros s. revert y E. generalize (contains_all s z) as c. intros c. induction z as [|q z IH]; intros [|b y] E; simpl in *; try discriminate.
      - destruct c; auto.
      - destruct c; simpl; [destruct b; simpl|]; rewrite IH by lia; auto. }
    induction (geoms g) as [|s t [IH1 IH2]]; simpl.
    - split; [intros r [= <-]; auto|]. split; [intros [e He]; discriminate|intros (s & [] & _)].
    - rewrite take_rows_ok by (rewrite map_length; auto). rewrite L.
      destruct (contains_all s z) eqn:C; simpl.
      + destruct (Nat.ltb_spec (length (filter (fun b => b) y)) 3) as [H|H].
        * split; auto. rewrite IH2. split; [intros (s' & I & A); eauto|]. intros (s' & [->|I] & A & B); [lia|eauto].
        * split; [discriminate|]. split; eauto 6.
      + split; auto. rewrite IH2. split; [intros (s' & I & A); eauto|]. intros (s' & [->|I] & A & B); [congruence|eauto].
  Qed.
  Section Facts.
    (** Facts about shapely: what is contained in c is not in a minus c, and the empty region meets
        nothing. *)
    Hypothesis removed_points : forall a c s q l,
      In s (geoms (difference a c)) -> contains c q = true -> In q l -> contains_all s l = false.
    Hypothesis empty_intersection : forall a b, is_empty a = true -> is_empty (intersection a b) = true.
    Variable z : list pt.
    Variable purity : Q.
    Variable y_bin : list (list bool).
    Variable p : list Z.
    Variable beta : list bool.
    Variable labels : list string.
    Variable nalgos : nat.
    Variable cores : Z.
    Variable order : list nat.
    Hypothesis P : Permutation order (seq 0 nalgos).
    Definition best_at (i : nat) : list bool := map (fun v => Z.eqb v (Z.of_nat i)) p.
    Lemma best_at_eq i : best_at i = is_best p i.
    Proof. unfold best_at, is_best. apply map_ext. intros v. apply Z.eqb_sym. Qed.

    (** The result, when there is one: every footprint is the one built from its instances. *)
    Theorem C89_result :
      forall out, trace z purity y_bin p beta labels nalgos cores order = Ok out ->
        build z purity (map (fun _ => true) y_bin) = Ok (t_space out) /\
        build z purity (map negb beta) = Ok (t_hard out) /\
        length (t_good out) = nalgos /\ length (t_best out) = nalgos /\
        (forall i, i < nalgos -> build z purity (map (fun r => nth i r false) y_bin) = Ok (nth i (t_good out) no_footprint)) /\
        (forall i, i < nalgos -> build z purity (best_at i) = Ok (nth i (t_best out) no_footprint)) /\
        length (t_summary out) = nalgos /\
        forall i, i < nalgos -> nth i (t_summary out) (EmptyString, []) =
          (nth i labels EmptyString, summary (nth i (t_good out) no_footprint) (t_space out) ++ summary (nth i (t_best out) no_footprint) (t_space out)).
    Proof.
      intros out H. apply (trace_spec is_empty area contains contains_all intersection difference union no_polygon smooth triangulate convex_hull geoms alphashape epsilon removed_points empty_intersection z purity y_bin p beta labels nalgos cores out P) in H.
      destruct H as (_ & El & Es & Lg & Lb & Hg & Hb & _ & Eh & Sm).
      split; auto. split; auto. split; auto. split; auto. split; [exact Hg|].
      split; [intros i Hi; rewrite best_at_eq; auto|]. rewrite Sm. rewrite map_length, seq_length. split; auto.
      intros i Hi. set (h := fun i => _).
      rewrite (nth_indep _ _ (h 0)) by (rewrite map_length, seq_length; auto).
      rewrite map_nth, seq_nth by auto. reflexivity.
    Qed.
    (** When there is one: every footprint can be built, there is a label per algorithm, at least
        one worker, and no two best-performance footprints contradict each other. *)
    Theorem C89_when_it_succeeds :
      (exists out, trace z purity y_bin p beta labels nalgos cores order = Ok out) <->
      ((1 <= cores)%Z /\ length labels = nalgos /\
       (exists f, build z purity (map (fun _ => true) y_bin) = Ok f) /\
       (exists f, build z purity (map negb beta) = Ok f) /\
       (forall i, i < nalgos -> exists f, build z purity (map (fun r => nth i r false) y_bin) = Ok f) /\
       (forall i, i < nalgos -> exists f, build z purity (best_at i) = Ok f) /\
       (forall i j, i < j < nalgos ->
          ~ exists fi fj gi gj, build z purity (best_at i) = Ok fi /\ build z purity (best_at j) = Ok fj /\
              f_polygon fi = Some gi /\ f_polygon fj = Some gj /\
              let c := intersection gi gj in
              is_empty c = false /\
              flagged_inside (contains c) z (best_at i) <> flagged_inside (contains c) z (best_at j))).
    Proof.
      split.
      - intros [out H]. apply (trace_spec is_empty area contains contains_all intersection difference union no_polygon smooth triangulate convex_hull geoms alphashape epsilon removed_points empty_intersection z purity y_bin p beta labels nalgos cores out P) in H.
        destruct H as (Hc & El & Es & Lg & Lb & Hg & Hb & N & Eh & Sm).
        split; auto. split; auto. split; eauto. split; eauto. split; [intros i Hi; specialize (Hg i Hi); eauto|].
        split; [intros i Hi; rewrite best_at_eq; eauto|].
        intros i j Hij (fi & fj & gi & gj & Bi & Bj & Gi & Gj & C). rewrite best_at_eq in *.
        apply (N i j Hij). exists gi, gj. rewrite Hb in Bi, Bj by lia. injection Bi as ->. injection Bj as ->.
        rewrite best_at_eq in C. unfold own. destruct C. auto.
      - intros (Hc & El & [fs Es] & [fh Eh] & Hg & Hb & N).
        assert (Pick : forall Q : nat -> footprint G -> Prop, (forall i, i < nalgos -> exists f, Q i f) ->
                 exists l, length l = nalgos /\ forall i, i < nalgos -> Q i (nth i l no_footprint)).
        { intros Q. clear. induction nalgos as [|n IH]; intros H; [exists []; split; auto; lia|].
          destruct IH as (l & L & A); [intros; apply H; lia|]. destruct (H n) as [f Hf]; [lia|].
          exists (l ++ [f]). rewrite app_length, L. simpl. split; [lia|]. intros i Hi.
          destruct (Nat.eq_dec i n) as [->|].
          - rewrite app_nth2 by lia. rewrite L, Nat.sub_diag. auto.
          - rewrite app_nth1 by lia. apply A. lia. }
        destruct (Pick _ Hg) as (good & Lg & Gg). destruct (Pick _ Hb) as (best & Lb & Gb).
        eexists. apply (trace_spec is_empty area contains contains_all intersection difference union no_polygon smooth triangulate convex_hull geoms alphashape epsilon removed_points empty_intersection z purity y_bin p beta labels nalgos cores
          {| t_space := fs; t_good := good; t_best := best; t_hard := fh; t_summary := map (fun i => (nth i labels EmptyString,
              summary (nth i good no_footprint) fs ++ summary (nth i best no_footprint) fs)) (seq 0 nalgos) |} P). simpl.
        split; auto. split; auto. split; auto. split; auto. split; auto. split; auto.
        split; [intros i Hi; rewrite <- best_at_eq; auto|]. split; [|split; auto].
        intros i j Hij (gi & gj & Gi & Gj & C). apply (N i j Hij).
        exists (nth i best no_footprint), (nth j best no_footprint), gi, gj.
        split; [apply Gb; lia|]. split; [apply Gb; lia|]. rewrite !best_at_eq. auto.
    Qed.
    (** C86: TRACE never takes a contradictory area away from a footprint: the best-performance
        footprints it returns are those it built, whatever they share. *)
    Theorem C86_footprints_are_never_reduced :
      forall out i, trace z purity y_bin p beta labels nalgos cores order = Ok out -> i < nalgos ->
        build z purity (best_at i) = Ok (nth i (t_best out) no_footprint).
    Proof. intros out i H Hi. apply C89_result in H. apply H. auto. Qed.
    (** If two of them overlap in a region with more of one algorithm's instances than of the
        other's, the stage raises instead. *)
    Theorem C86_contradiction_raises :
      forall i j fi fj gi gj, i < j < nalgos ->
        build z purity (best_at i) = Ok fi -> build z purity (best_at j) = Ok fj ->
        f_polygon fi = Some gi -> f_polygon fj = Some gj ->
        is_empty (intersection gi gj) = false ->
        flagged_inside (contains (intersection gi gj)) z (best_at i) <> flagged_inside (contains (intersection gi gj)) z (best_at j) ->
        exists e, trace z purity y_bin p beta labels nalgos cores order = Err e.
    Proof.
      intros i j fi fj gi gj Hij Bi Bj Gi Gj E C.
      destruct (trace z purity y_bin p beta labels nalgos cores order) as [out|e] eqn:T; eauto. exfalso.
      destruct (proj1 C89_when_it_succeeds (ex_intro _ out T)) as (_ & _ & _ & _ & _ & _ & N).
      apply (N i j Hij). exists fi, fj, gi, gj. cbv zeta. auto 10.
    Qed.
  End Facts.

  (** The summary rows: areas and densities relative to those of the whole space. *)
  Theorem C89_summary_row :
    forall (f space : footprint G), exists area_n density_n,
      summary f space = [f_area f; area_n; f_density f; density_n; f_purity f] /\
      (~ (f_area space == 0)%Q -> (area_n * f_area space == f_area f)%Q) /\
      ((f_area space == 0)%Q -> area_n = f_area f) /\
      (~ (f_density space == 0)%Q -> (density_n * f_density space == f_density f)%Q) /\
      ((f_density space == 0)%Q -> density_n = f_density f).
  Proof.
    intros f space. unfold summary. do 2 eexists. split; [reflexivity|].
    assert (X : forall a b : Q, (~ (b == 0) -> ((if Qeq_bool b 0 then a else a / b) * b == a))%Q /\
                                ((b == 0)%Q -> (if Qeq_bool b 0 then a else (a / b)%Q) = a)).
    { intros a b. destruct (Qeq_bool b 0) eqn:E.
      - apply Qeq_bool_iff in E. split; auto. intros N. contradiction.
      - apply Qeq_bool_neq in E. split; [intros _; field; auto|]. intros N. contradiction. }
    destruct (X (f_area f) (f_area space)), (X (f_density f) (f_density space)). auto.
  Qed.
End Footprints.

(* ============================================================ a concrete geometry *)
(** Finite sets of integer points, the shape around some points being their bounding box. *)
Module Pixels.
  Definition G := list pt.
  Definition is_empty (g : G) := match g with [] => true | _ => false end.
  Definition area (g : G) : Q := inject_Z (Z.of_nat (length g)).
  Definition contains (g : G) (q : pt) := existsb (peqb q) g.
  Definition contains_all (g : G) (l : list pt) := negb (is_empty l) && forallb (contains g) l.
  Definition intersection (a b : G) : G := filter (contains b) a.
  Definition difference (a b : G) : G := filter (fun q => negb (contains b q)) a.
  Definition union (a b : G) : G := a ++ difference b a.
  Definition smooth (g : G) := g.
  Definition pieces (g : G) : list G := map (fun q => [q]) g.
  Definition hull (g : G) := g.
  Definition geoms (g : G) := [g].
  Definition range (a b : Z) : list Z := map (fun i => (a + Z.of_nat i)%Z) (seq 0 (Z.to_nat (b - a + 1))).
  Definition box (l : list pt) : option G :=
    match l with
    | [] => None
    | q :: t =>
        let lo f := fold_left Z.min (map f t) (f q) in let hi f := fold_left Z.max (map f t) (f q) in
        Some (flat_map (fun x => map (fun y => (x, y)) (range (lo snd) (hi snd))) (range (lo fst) (hi fst)))
    end.
  Definition eps (_ : list pt) (_ : nat) : Z := 10%Z.

  Lemma contains_in g q : contains g q = true <-> In q g.
  Proof.
    unfold contains. rewrite existsb_exists. split.
    - intros (a & I & E). apply peqb_eq in E. subst. auto.
    - intros I. exists q. split; auto. apply peqb_eq. auto.
  Qed.
  Lemma diff_exact u v q : contains (difference u v) q = contains u q && negb (contains v q).
  Proof.
    apply eq_true_iff_eq. rewrite andb_true_iff, !contains_in. unfold difference. rewrite filter_In. tauto.
  Qed.
  Lemma removed_points a c s q l :
    In s (geoms (difference a c)) -> contains c q = true -> In q l -> contains_all s l = false.
  Proof.
    intros [<-|[]] C I. apply not_true_iff_false. unfold contains_all. rewrite andb_true_iff, forallb_forall. intros [_ H].
    specialize (H q I). rewrite diff_exact, C, andb_false_r in H. discriminate.
  Qed.
  Lemma empty_intersection a b : is_empty a = true -> is_empty (intersection a b) = true.
  Proof. destruct a; [auto|discriminate]. Qed.
  Lemma all_perm g l l' : Permutation l l' -> contains_all g l = contains_all g l'.
  Proof.
    intros P. unfold contains_all. rewrite (forallb_perm _ P). f_equal.
    destruct l, l'; auto; apply Permutation_length in P; discriminate.
  Qed.
  Definition trace := trace is_empty area contains contains_all intersection difference union [] smooth pieces hull geoms box eps.
  Definition build := build is_empty area contains difference union [] smooth pieces hull box eps.
End Pixels.

(** Two overlapping regions with one instance of each algorithm in the overlap: both footprints
    are returned with the overlap. *)
Definition tie_z : list pt := [(0, 0); (2, 0); (0, 2); (2, 2); (1, 1); (3, 1); (1, 3); (3, 3)]%Z.
Definition tie_p : list Z := [0; 0; 0; 0; 1; 1; 1; 1]%Z.
Theorem C86_best_footprints_are_disjoint_refuted :
  exists out b0 b1,
    Pixels.trace tie_z 0%Q (map (fun v => [Z.eqb v 0; Z.eqb v 1]) tie_p) tie_p (repeat true 8) ["a"; "b"]%string 2 1%Z [1; 0] = Ok out /\
    f_polygon (nth 0 (t_best out) (no_footprint _)) = Some b0 /\ f_polygon (nth 1 (t_best out) (no_footprint _)) = Some b1 /\
    Pixels.intersection b0 b1 = [(1, 1); (1, 2); (2, 1); (2, 2)]%Z.
Proof. do 3 eexists. split; [vm_compute; reflexivity|]. vm_compute. auto. Qed.
(** The same with one instance moved out of the overlap: the stage raises. *)
Definition clash_z : list pt := [(0, 0); (2, 0); (0, 2); (0, 1); (1, 1); (3, 1); (1, 3); (3, 3)]%Z.
Example C86_tightening_met : let z := [(0, 0); (1, 0); (0, 1)]%Z in
  tight (fun _ _ => true) (fun _ => [tt]) z (Some tt) [true; true; true] = Err EIndex /\
  tight (fun _ _ => true) (fun _ => [tt]) z (Some tt) [true; false; true] = Ok None.
Proof. split; reflexivity. Qed.
Example C86_met :
  exists e, Pixels.trace clash_z 0%Q (map (fun v => [Z.eqb v 0; Z.eqb v 1]) tie_p) tie_p (repeat true 8) ["a"; "b"]%string 2 1%Z [1; 0] = Err e.
Proof.
  refine (@C86_contradiction_raises _ _ _ _ _ _ _ _ _ _ _ _ _ _ _ Pixels.removed_points Pixels.empty_intersection
           clash_z 0%Q _ tie_p _ _ 2 1%Z [1; 0] _ 0 1 _ _ _ _ _ _ _ _ _ _ _).
  - apply perm_swap.
  - lia.
  - vm_compute; reflexivity.
  - vm_compute; reflexivity.
  - reflexivity.
  - reflexivity.
  - reflexivity.
  - vm_compute. discriminate.
Qed.
Example C89_met :
  (forall a c s q l, In s (Pixels.geoms (Pixels.difference a c)) -> Pixels.contains c q = true -> In q l -> Pixels.contains_all s l = false) /\
  (forall a b, Pixels.is_empty a = true -> Pixels.is_empty (Pixels.intersection a b) = true) /\
  (forall g l l', Permutation l l' -> Pixels.contains_all g l = Pixels.contains_all g l') /\
  Permutation [1; 0] (seq 0 2) /\
  exists out, Pixels.trace tie_z 0%Q (map (fun v => [Z.eqb v 0; Z.eqb v 1]) tie_p) tie_p (repeat true 8) ["a"; "b"]%string 2 1%Z [1; 0] = Ok out /\
    map (@f_elements _) (t_best out) = [5; 5] /\ map (@f_good _) (t_best out) = [4; 4].
Proof.
  split; [exact Pixels.removed_points|]. split; [exact Pixels.empty_intersection|]. split; [exact Pixels.all_perm|].
  split; [apply perm_swap|]. eexists. split; [vm_compute; reflexivity|]. vm_compute. auto.
Qed.
(** n_cores = -1, which PYTHIA's library understands as "all", makes this stage raise. *)
Theorem C89_all_cores_refuted :
  forall G is_empty area contains contains_all intersection difference union no_polygon smooth triangulate convex_hull geoms alphashape epsilon
         z purity y_bin p beta labels nalgos order out,
    @trace G is_empty area contains contains_all intersection difference union no_polygon smooth triangulate convex_hull geoms alphashape epsilon
       z purity y_bin p beta labels nalgos (-1)%Z order <> Ok out.
Proof. intros. unfold trace, compute_algorithm_qualities. destruct (build _ _ _ _ _ _ _ _ _ _ _ _ _ _); simpl; discriminate. Qed.

(** Pixels as pieces tile the shape, so C87_purity applies; with a threshold of 55% the pixels of
    the other algorithm's instances are cut out. *)
Example C87_met :
  exists g, fit_poly Pixels.is_empty Pixels.contains Pixels.difference Pixels.pieces Pixels.hull Pixels.box
              tie_z (55 # 100) [(0, 0); (2, 0); (0, 2); (2, 2)]%Z [true; true; true; true; false; false; false; false] = Ok (Some g) /\
    inside (Pixels.contains g) tie_z = 4 /\ flagged_inside (Pixels.contains g) tie_z [true; true; true; true; false; false; false; false] = 4 /\
    (forall a b q, Pixels.contains (Pixels.difference a b) q = true -> Pixels.contains a q = true /\ Pixels.contains b q = false) /\
    (forall u v q, In q tie_z -> Pixels.contains (Pixels.difference u v) q = Pixels.contains u q && negb (Pixels.contains v q)).
Proof.
  eexists. split; [vm_compute; reflexivity|]. split; [reflexivity|]. split; [reflexivity|]. split.
  - intros a b q. rewrite Pixels.diff_exact, andb_true_iff, negb_true_iff. auto.
  - intros. apply Pixels.diff_exact.
Qed.
(** When a triangle reaches outside the shape, as Delaunay triangles of a shape that is not convex
    do, the purity of what remains can be anything, here 0. *)
Theorem C87_purity_refuted :
  exists (triangulate : Pixels.G -> list Pixels.G) (alphashape : list pt -> option Pixels.G) z flags data a g,
    alphashape data = Some a /\
    (forall q, In q z -> Pixels.contains a q = true -> length (filter (fun t => Pixels.contains t q) (triangulate a)) = 1) /\
    fit_poly Pixels.is_empty Pixels.contains Pixels.difference triangulate Pixels.hull alphashape z (55 # 100) data flags = Ok (Some g) /\
    inside (Pixels.contains g) z = 1 /\ flagged_inside (Pixels.contains g) z flags = 0.
Proof.
  exists (fun _ => [[(0, 0); (1, 0); (2, 0); (3, 0)]%Z]), (fun _ => Some [(0, 0)%Z]),
    [(0, 0); (1, 0); (2, 0); (3, 0)]%Z, [false; true; true; true], [(1, 0); (2, 0); (3, 0)]%Z, [(0, 0)%Z], [(0, 0)%Z].
  split; auto. split; [|vm_compute; auto].
  intros q H C. apply Pixels.contains_in in C. destruct C as [<-|[]]. reflexivity.
Qed.
Example C53_met :
  exists f, from_polygon Pixels.area Pixels.contains Pixels.smooth (Some [(0, 0); (0, 1); (1, 0); (1, 1)]%Z)
              [(0, 0); (1, 1); (5, 5)]%Z [true; false; true] true = Ok f /\ f_elements f = 2 /\ f_good f = 1.
Proof. eexists. split; [vm_compute; reflexivity|]. auto. Qed.
Example C85_met :
  ~ three_distinct (flagged [(0, 0); (1, 1); (0, 0); (7, 7)]%Z [true; true; true; false]) /\
  three_distinct (flagged tie_z (repeat true 8)).
Proof.
  split.
  - intros (a & b & c & A & B & C & X). unfold flagged in *. simpl in *.
    intuition congruence.
  - exists (0, 0)%Z, (2, 0)%Z, (0, 2)%Z. unfold flagged. simpl. repeat split; try tauto; discriminate.
Qed.
Example C88_met :
  exists out, Pixels.trace (map fst (rev (combine tie_z tie_p))) 0%Q (map (fun v => [Z.eqb v 0; Z.eqb v 1]) (rev tie_p)) (rev tie_p) (repeat true 8) ["a"; "b"]%string 2 1%Z [0; 1] = Ok out /\
    map (@f_elements _) (t_best out) = [5; 5].
Proof. eexists. split; [vm_compute; reflexivity|]. auto. Qed.
Example C84_met : In 2%Z [1; 1; 1; 1; -1; 2; 2; 2; 2; -1]%Z.
Proof. simpl. tauto. Qed.

Print Assumptions C50_completion_order_is_irrelevant.
Print Assumptions C51_clustering.
Print Assumptions C51_partition_is_determined.
Print Assumptions C53_statistics.
Print Assumptions C53_no_polygon.
Print Assumptions C84_cluster_size.
Print Assumptions C84_textbook_dbscan_refuted.
Print Assumptions C85_three_points_needed.
Print Assumptions C85_otherwise_a_polygon.
Print Assumptions C85_building_terminates.
Print Assumptions C86_footprints_are_never_reduced.
Print Assumptions C86_tightening_gives_no_polygon.
Print Assumptions C86_contradiction_raises.
Print Assumptions C86_best_footprints_are_disjoint_refuted.
Print Assumptions C87_impure_triangles_are_removed.
Print Assumptions C87_purity.
Print Assumptions C87_purity_refuted.
Print Assumptions C88_instance_order_is_irrelevant.
Print Assumptions C89_result.
Print Assumptions C89_when_it_succeeds.
Print Assumptions C89_summary_row.
Print Assumptions C89_all_cores_refuted.
