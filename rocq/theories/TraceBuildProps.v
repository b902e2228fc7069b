(** Property C91: what a footprint is made of. *)
From Coq Require Import Lia Permutation.
From Verif Require Import TraceModel TraceSpec TraceDbscan TraceProofs TracePurity TraceProps.
Set Implicit Arguments.
Open Scope nat_scope.
Open Scope list_scope.

(** the rows with label c *)
Definition labelled {A} (rows : list A) (lab : list Z) (c : Z) : list A :=
  map fst (filter (fun rl => Z.eqb (snd rl) c) (combine rows lab)).

Lemma labelled_select {A} (rows : list A) lab c : select (map (Z.eqb c) lab) rows = labelled rows lab c.
Proof.
  unfold labelled. revert lab. induction rows as [|r t IH]; intros [|v lab]; simpl; auto.
  rewrite (Z.eqb_sym v c). destruct (Z.eqb c v); simpl; rewrite IH; auto.
Qed.
Lemma zmax_ge l c : In c l -> (c <= zmax l)%Z.
Proof. induction l as [|a t IH]; simpl; [tauto|]. intros [->|I]; [|specialize (IH I)]; lia. Qed.
Lemma zmax_in l : (1 <= zmax l)%Z -> In (zmax l) l.
Proof.
  induction l as [|a t IH]; simpl; [lia|]. intros H. destruct (Z.max_spec a (zmax t)) as [[_ E]|[_ E]]; rewrite E in *; auto.
Qed.

Section Made.
  Variable G : Type.
  Variable is_empty : G -> bool.
  Variable area : G -> Q.
  Variable contains : G -> pt -> bool.
  Variable difference union : G -> G -> G.
  Variable no_polygon : G.
  Variable smooth : G -> G.
  Variable triangulate : G -> list G.
  Variable convex_hull : G -> G.
  Variable alphashape : list pt -> option G.
  Variable epsilon : list pt -> nat -> Z.
  Notation build := (build is_empty area contains difference union no_polygon smooth triangulate convex_hull alphashape epsilon).
  Notation fit_poly := (fit_poly is_empty contains difference triangulate convex_hull alphashape).
  Notation from_polygon := (from_polygon area contains smooth).
  Hypothesis union_exact : forall a b q, contains (union a b) q = contains a q || contains b q.
  Hypothesis empty_contains : forall q, contains no_polygon q = false.
  Hypothesis radius : forall l k, (0 <= epsilon l k)%Z.

  (** the region the fits of the clusters [todo] add *)
  Lemma loop_spec z purity y rows lab todo : forall acc g,
    build_loop is_empty contains difference union triangulate convex_hull alphashape z purity y rows lab todo acc = Ok g ->
    (forall c, In c todo -> exists o, fit_poly z purity (labelled rows lab c) y = Ok o) /\
    forall q, contains (match g with Some h => h | None => no_polygon end) q = true <->
      contains (match acc with Some h => h | None => no_polygon end) q = true \/
      exists c h, In c todo /\ fit_poly z purity (labelled rows lab c) y = Ok (Some h) /\ is_empty h = false /\ contains h q = true.
  Proof.
    induction todo as [|c todo IH]; intros acc g H; simpl in H.
    { injection H as <-. split; [contradiction|]. intros q. split; auto. intros [X|(c & h & [] & _)]; auto. }
    rewrite labelled_select in H. destruct (fit_poly z purity (labelled rows lab c) y) as [[aux|]|] eqn:F; [| |discriminate].
    - destruct (is_empty aux) eqn:Em; apply IH in H; destruct H as [T H]; (split; [intros d [<-|Hd]; eauto|]); intros q; rewrite H.
      + split.
        * intros [X|(d & h & I & X)]; auto. right. exists d, h. simpl. tauto.
        * intros [X|(d & h & [->|I] & X & Em' & X')]; auto; [|right; exists d, h; auto].
          rewrite F in X. injection X as ->. congruence.
      + assert (U : contains (match acc with Some body => union body aux | None => aux end) q = true <->
                    contains (match acc with Some h => h | None => no_polygon end) q = true \/ contains aux q = true).
        { destruct acc; [rewrite union_exact, orb_true_iff; tauto|]. rewrite empty_contains.
          split; [auto|intros [X|]; [discriminate|auto]]. }
        replace (match match acc with Some body => Some (union body aux) | None => Some aux end with Some h => h | None => no_polygon end)
          with (match acc with Some body => union body aux | None => aux end) by (destruct acc; auto).
        rewrite U. split.
        * intros [[X|X]|(d & h & I & X)]; auto; right; [exists c, aux|exists d, h]; simpl; tauto.
        * intros [X|(d & h & [->|I] & X & Em' & X')]; auto; [|right; exists d, h; auto].
          rewrite F in X. injection X as ->. auto.
    - apply IH in H. destruct H as [T H]. split; [intros d [<-|Hd]; eauto|]. intros q. rewrite H. split.
      + intros [X|(d & h & I & X)]; auto. right. exists d, h. simpl. tauto.
      + intros [X|(d & h & [->|I] & X & X')]; auto; [congruence|right; exists d, h; tauto].
  Qed.

  (** A footprint with a polygon is measured on the smoothed union of the polygons fitted to the
      clusters of its distinct points; a cluster needs a point with more than k others around it,
      k being 5% of the number of instances, rounded up, but at least 3 and at most 50. *)
  Theorem C91_union_of_the_clusters :
    forall z purity flags f, three_distinct (flagged z flags) -> build z purity flags = Ok f ->
      exists rows lab k g,
        NoDup rows /\ (forall q, In q rows <-> flagged z flags q) /\
        k = Nat.max 3 (Nat.min 50 ((length (filter (fun b => b) flags) + 19) / 20)) /\
        clustering rows k (epsilon rows k) lab /\
        from_polygon (Some g) z flags true = Ok f /\
        (forall c, (1 <= c)%Z -> In c lab -> exists o, fit_poly z purity (labelled rows lab c) flags = Ok o) /\
        (forall q, contains g q = true <->
           exists c h, (1 <= c)%Z /\ In c lab /\ fit_poly z purity (labelled rows lab c) flags = Ok (Some h) /\
             is_empty h = false /\ contains h q = true).
  Proof.
    intros z purity flags f T H. unfold TraceModel.build in H.
    destruct (take_rows z flags) as [fz|] eqn:Tk; [|discriminate].
    assert (E : length z = length flags).
    { unfold take_rows in Tk. destruct (Nat.eqb_spec (length z) (length flags)); [auto|discriminate]. }
    rewrite (take_rows_ok z flags E) in Tk. injection Tk as <-.
    destruct (Nat.ltb_spec (length (unique (select flags z))) 3) as [L|L].
    { exfalso. assert (3 <= length (unique (select flags z))); [|lia]. apply unique_three.
      destruct T as (a & b & c & A & B & C & X). exists a, b, c. rewrite !select_flagged by auto. auto. }
    set (rows := unique (select flags z)) in *. set (k := Nat.max 3 (Nat.min 50 ((length (filter (fun b => b) flags) + 19) / 20))).
    assert (Ek : min_points flags = k) by (unfold min_points, k; rewrite (Nat.max_comm 3), (Nat.min_comm 50); reflexivity).
    unfold run_dbscan in H. rewrite Ek in H.
    destruct (@dbscan_correct rows k (epsilon rows k) (radius rows k)) as (lab & El & C). rewrite El in H.
    destruct (build_loop _ _ _ _ _ _ _ _ _ _ _ _ _ _) as [acc|] eqn:B; [|discriminate].
    apply loop_spec in B. destruct B as [Fits B].
    assert (Todo : forall c, In c (map Z.of_nat (seq 1 (Z.to_nat (zmax lab)))) <-> (1 <= c)%Z /\ In c lab).
    { intros c. rewrite in_map_iff. split.
      - intros (n & <- & I). apply in_seq in I. split; [lia|].
        assert (M : (1 <= zmax lab)%Z) by lia. pose proof (zmax_in _ M) as I'. apply In_nth with (d := 0%Z) in I'.
        destruct I' as (i & Hi & Ei). apply (@cl_no_gap _ _ _ _ C i); [rewrite (cl_length C) in Hi; auto|rewrite Ei; lia].
      - intros [H1 I]. exists (Z.to_nat c). split; [lia|]. apply in_seq. pose proof (zmax_ge _ _ I). lia. }
    exists rows, lab, k, (match acc with Some h => h | None => no_polygon end).
    split; [apply unique_nodup|]. split; [intros q; unfold rows; rewrite unique_in; apply select_flagged; auto|].
    split; auto. split; auto.
    split; [destruct acc; exact H|].
    split; [intros c H1 I; apply Fits, Todo; auto|].
    intros q. rewrite B. rewrite empty_contains. split.
    - intros [X|(c & h & I & X)]; [discriminate|]. apply Todo in I. exists c, h. tauto.
    - intros (c & h & H1 & I & X). right. exists c, h. split; auto. apply Todo. auto.
  Qed.

  (** What a fit is: nothing for fewer than three points; the alpha shape itself if every instance is
      flagged; nothing if the shape is empty; otherwise the shape minus the impure triangles (C87). *)
  Theorem C91_fit :
    forall z purity data flags,
      (length data < 3 -> fit_poly z purity data flags = Ok None) /\
      (3 <= length data -> alphashape data = None -> exists e, fit_poly z purity data flags = Err e) /\
      (forall a, 3 <= length data -> alphashape data = Some a -> (forall b, In b flags -> b = true) -> fit_poly z purity data flags = Ok (Some a)) /\
      (forall a, 3 <= length data -> alphashape data = Some a -> In false flags -> is_empty a = true -> fit_poly z purity data flags = Ok None) /\
      (forall a, 3 <= length data -> alphashape data = Some a -> length z = length flags -> In false flags -> is_empty a = false ->
         (forall u v q, contains (difference u v) q = contains u q && negb (contains v q)) ->
         exists g, fit_poly z purity data flags = Ok (Some g) /\
           forall q, contains g q = true <->
             contains a q = true /\ forall t, In t (triangulate a) -> impure (contains (convex_hull t)) z flags purity -> contains t q = false).
  Proof.
    intros z purity data flags. unfold TraceModel.fit_poly.
    assert (Some_false : In false flags -> forallb (fun b => b) flags = false).
    { intros I. destruct (forallb (fun b => b) flags) eqn:X; auto. rewrite forallb_forall in X. apply X in I. discriminate. }
    split; [intros L; apply Nat.ltb_lt in L; rewrite L; auto|].
    split. { intros L E. apply Nat.ltb_ge in L. rewrite L, E. eauto. }
    split. { intros a L E A. apply Nat.ltb_ge in L. rewrite L, E. rewrite (proj2 (forallb_forall _ _)); auto. }
    split. { intros a L E I Em. apply Nat.ltb_ge in L. rewrite L, E, Some_false, Em; auto. }
    intros a L E Len I Em D. apply Nat.ltb_ge in L. rewrite L, E, Some_false, Em by auto.
    assert (R : forall pieces g0, exists g, remove_impure contains difference convex_hull z purity flags pieces g0 = Ok g /\
      forall q, contains g q = true <-> contains g0 q = true /\
        forall t, In t pieces -> impure (contains (convex_hull t)) z flags purity -> contains t q = false).
    { induction pieces as [|t l IH]; intros g0; [exists g0; split; [reflexivity|]; intros q; split; [intros; split; auto; contradiction|tauto]|].
      simpl. rewrite (take_rows_ok z flags Len).
      set (b := Nat.ltb 0 (count_in contains (convex_hull t) z) && negb (Qle_bool purity (qnat (count_in contains (convex_hull t) (select flags z)) / qnat (count_in contains (convex_hull t) z))%Q)).
      assert (Hb : b = true <-> impure (contains (convex_hull t)) z flags purity) by (apply (@bad_impure G contains convex_hull z flags purity t Len)).
      destruct (IH (if b then difference g0 t else g0)) as (g & Eg & Hg). exists g. split; auto. intros q. rewrite Hg. destruct b eqn:Eb.
      - rewrite D, andb_true_iff, negb_true_iff. split.
        + intros [[A B] X]. split; auto. intros u [<-|Iu]; auto.
        + intros [A X]. split; [split; auto; apply X; [left; auto|tauto]|]. intros u Iu. apply X. right. auto.
      - split.
        + intros [A X]. split; auto. intros u [<-|Iu] Im; [apply Hb in Im; discriminate|]. auto.
        + intros [A X]. split; auto. }
    destruct (R (triangulate a) a) as (g & Eg & Hg). rewrite Eg. eauto.
  Qed.
End Made.

Example C91_met :
  (forall a b q, Pixels.contains (Pixels.union a b) q = Pixels.contains a q || Pixels.contains b q) /\
  (forall q, Pixels.contains [] q = false) /\ (forall l k, (0 <= Pixels.eps l k)%Z) /\
  three_distinct (flagged tie_z (repeat true 8)) /\
  exists f, Pixels.build tie_z 0%Q (repeat true 8) = Ok f /\ f_elements f = 8.
Proof.
  split.
  - intros a b q. apply eq_true_iff_eq. rewrite orb_true_iff, !Pixels.contains_in. unfold Pixels.union.
    rewrite in_app_iff. split.
    + intros [X|X]; auto. right. apply filter_In in X. tauto.
    + intros [X|X]; auto. destruct (Pixels.contains a q) eqn:C; [apply Pixels.contains_in in C; auto|].
      right. apply filter_In. rewrite C. auto.
  - split; auto. split; [intros; unfold Pixels.eps; lia|]. split; [apply C85_met|].
    eexists. split; [vm_compute; reflexivity|]. reflexivity.
Qed.

Print Assumptions C91_union_of_the_clusters.
Print Assumptions C91_fit.
