(** Properties C52 and C90: TRACE fed with what PRELIM and PYTHIA produce. *)
From Coq Require Import Lia Permutation.
From Verif Require Import BaseLemmas Num Ext PrelimModel PrelimSpec PrelimProps.
From Verif Require PythiaModel PythiaSpec PythiaProps.
From Verif Require Import TraceModel TraceSpec TraceProofs TraceProps.
Set Implicit Arguments.
Open Scope nat_scope.
Open Scope list_scope.

Section Fed.
  Variable G : Type.
  Variable is_empty : G -> bool.
  Variable area : G -> Q.
  Variable contains : G -> pt -> bool.
  Variable contains_all : G -> list pt -> bool.
  Variable intersection difference union : G -> G -> G.
  Variable no_polygon : G.
  Variable smooth : G -> G.
  Variable triangulate : G -> list G.
  Variable convex_hull : G -> G.
  Variable geoms : G -> list G.
  Variable alphashape : list pt -> option G.
  Variable radius : list pt -> nat -> Z.
  Notation build := (build is_empty area contains difference union no_polygon smooth triangulate convex_hull alphashape radius).
  Notation run := (run is_empty area contains contains_all intersection difference union no_polygon smooth triangulate convex_hull geoms alphashape radius).
  Hypothesis removed_points : forall a c s q l,
    In s (geoms (difference a c)) -> contains c q = true -> In q l -> contains_all s l = false.
  Hypothesis empty_intersection : forall a b, is_empty a = true -> is_empty (intersection a b) = true.
  Variable z : list pt.
  Variable purity : Q.
  Variable y_bin y_hat : list (list bool).
  Variable beta : list bool.
  Variable labels : list string.
  Variable nalgos : nat.
  Variable cores : Z.
  Variable order : list nat.
  Hypothesis P : Permutation order (seq 0 nalgos).
  Notation nothing := {| f_polygon := @None G; f_area := 0%Q; f_elements := 0; f_good := 0; f_density := 0%Q; f_purity := 0%Q |}.

  Lemma no_flags fl f : (forall r, nth r fl false = false) -> build z purity fl = Ok f -> f = nothing.
  Proof.
    intros H B. pose proof (@build_length _ _ _ _ _ _ _ _ _ _ _ _ _ _ _ _ B) as L.
    rewrite (@C85_three_points_needed G is_empty area contains difference union no_polygon smooth triangulate convex_hull alphashape radius) in B; auto; [injection B as <-; auto|].
    intros (a & _ & _ & A & _). unfold flagged in A. apply in_combine_r in A. apply In_nth with (d := false) in A.
    destruct A as (r & _ & A). rewrite H in A. discriminate.
  Qed.

  (** C52: without simulated selections the "best algorithm" numbers come from PRELIM, which counts
      the algorithms from 1, while TRACE counts them from 0.  So the best-performance footprint of
      the first algorithm is always empty, that of algorithm i + 1 is built from the instances for
      which algorithm i is best, and the last algorithm's instances appear in no footprint. *)
  Theorem C52_best_footprints_are_shifted :
    forall (o : popts) (y : list (list num)) selection0 out,
      (abs_perf o = true \/ max_perf o = true) ->
      (forall row, In row y -> exists v, In (Some v) row) ->
      run false z purity selection0 (map (fun row => r_p (prelim_row o row)) y) y_hat y_bin beta labels nalgos cores order = Ok out ->
      (forall i, i < nalgos -> build z purity (map (fun r => nth i r false) y_bin) = Ok (nth i (t_good out) (no_footprint G))) /\
      (0 < nalgos -> nth 0 (t_best out) (no_footprint G) = nothing) /\
      (forall i, S i < nalgos ->
         exists flags, length flags = length y /\
           (forall r row, nth_error y r = Some row -> (nth r flags false = true <-> exists b, first_best o row i b)) /\
           build z purity flags = Ok (nth (S i) (t_best out) (no_footprint G))).
  Proof.
    intros o y s0 out Mode Some_value H. unfold TraceModel.run in H.
    apply (@C89_result G is_empty area contains contains_all intersection difference union no_polygon smooth triangulate convex_hull geoms alphashape radius removed_points empty_intersection z purity y_bin _ beta labels nalgos cores order P) in H.
    destruct H as (_ & _ & _ & _ & Gd & B & _). split; auto.
    assert (Rp : forall row, In row y -> exists k b, first_best o row k b /\ r_p (prelim_row o row) = S k).
    { intros row I. destruct (Some_value row I) as [v Hv]. assert (N : row <> []) by (intros ->; contradiction).
      destruct (C37_best_performance_and_algorithm o N) as [(k & b & F & _ & R)|(X & _)].
      - exists k, b. split; auto. apply R. tauto.
      - specialize (X _ Hv). discriminate. }
    assert (Fl : forall i r row, nth_error y r = Some row ->
               nth r (best_at (map Z.of_nat (map (fun row => r_p (prelim_row o row)) y)) i) false = Nat.eqb (r_p (prelim_row o row)) i).
    { intros i r row E. unfold best_at. rewrite !map_map. 
      erewrite nth_error_nth by (rewrite nth_error_map, E; reflexivity).
      destruct (Nat.eqb_spec (r_p (prelim_row o row)) i); [apply Z.eqb_eq|apply Z.eqb_neq]; lia. }
    assert (Len : forall i, length (best_at (map Z.of_nat (map (fun row => r_p (prelim_row o row)) y)) i) = length y)
      by (intros; unfold best_at; rewrite !map_length; auto).
    split.
    - intros H0. specialize (B 0 H0). eapply no_flags; eauto. intros r.
      destruct (nth_error y r) as [row|] eqn:E.
      + erewrite Fl by eauto. destruct (Rp row) as (k & b & _ & ->); [eapply nth_error_In; eauto|]. auto.
      + apply nth_overflow. rewrite Len. apply nth_error_None. auto.
    - intros i Hi. exists (best_at (map Z.of_nat (map (fun row => r_p (prelim_row o row)) y)) (S i)).
      split; auto. split; auto. intros r row E. erewrite Fl by eauto.
      destruct (Rp row) as (k & b & F & ->); [eapply nth_error_In; eauto|]. rewrite Nat.eqb_eq. split.
      + intros X. injection X as ->. eauto.
      + intros (b' & F'). f_equal. destruct F as (E1 & M & L), F' as (E1' & M' & L').
        destruct (Nat.lt_trichotomy k i) as [X|[X|X]]; auto; exfalso.
        * apply (M i b' E1'). apply (L' k b); auto.
          
        * apply (M' k b E1). apply (L i b'); auto.
  Qed.

  (** C90: with simulated selections the instances for which PYTHIA predicts no algorithm to be good
      are counted as instances for which the first algorithm is best.  The good-performance
      footprints are built from the predictions. *)
  Theorem C90_unselected_instances_go_to_the_first :
    forall fit round3 root y pb y_best plabels use_weights par po p out,
      PythiaProps.run fit round3 root y pb y_best plabels nalgos use_weights par = Ok po ->
      run true z purity (PythiaModel.o_selection0 po) p (PythiaModel.o_y_hat po) y_bin beta labels nalgos cores order = Ok out ->
      (forall i, i < nalgos -> build z purity (map (fun r => nth i r false) (PythiaModel.o_y_hat po)) = Ok (nth i (t_good out) (no_footprint G))) /\
      forall i, i < nalgos -> exists flags, length flags = length pb /\
        (forall r, r < length pb ->
           (nth r flags false = true <->
            PythiaSpec.best_candidate po nalgos r i \/ (i = 0 /\ ~ exists j, PythiaSpec.candidate po nalgos r j))) /\
        build z purity flags = Ok (nth i (t_best out) (no_footprint G)).
  Proof.
    intros fit round3 root y pb y_best pl uw par po p out Hp H. unfold TraceModel.run in H.
    apply (@C89_result G is_empty area contains contains_all intersection difference union no_polygon smooth triangulate convex_hull geoms alphashape radius removed_points empty_intersection z purity (PythiaModel.o_y_hat po) _ beta labels nalgos cores order P) in H.
    destruct H as (_ & _ & _ & _ & Gd & B & _). split; auto. intros i Hi. specialize (B i Hi).
    destruct (@PythiaProps.run_shapes fit round3 root y pb y_best pl nalgos uw par po Hp) as (_ & _ & _ & _ & _ & _ & Ls & _).
    exists (best_at (map Z.of_nat (PythiaModel.o_selection0 po)) i).
    split; [unfold best_at; rewrite !map_length; auto|]. split; auto.
    intros r Hr. unfold best_at. rewrite map_map.
    rewrite (nth_indep _ _ (Z.eqb (Z.of_nat 0) (Z.of_nat i))) by (rewrite map_length; lia).
    rewrite (map_nth (fun v => Z.eqb (Z.of_nat v) (Z.of_nat i))), Z.eqb_eq.
    assert (E : Z.of_nat (nth r (PythiaModel.o_selection0 po) 0) = Z.of_nat i <-> nth r (PythiaModel.o_selection0 po) 0 = i) by lia.
    rewrite E. destruct (@PythiaProps.C48_selection_is_the_best_candidate fit round3 root y pb y_best pl nalgos uw par po Hp r Hr) as [A N]. split.
    - intros <-. 
      assert (D : (exists j, PythiaSpec.candidate po nalgos r j) \/ ~ exists j, PythiaSpec.candidate po nalgos r j).
      { clear. generalize nalgos. intros n. unfold PythiaSpec.candidate.
        assert (X : forall m, (exists j, j < m /\ PythiaSpec.flag (PythiaModel.o_y_hat po) r j = true /\ (0 < nth j (PythiaModel.o_precision po) 0)%Q) \/
                   ~ exists j, j < m /\ PythiaSpec.flag (PythiaModel.o_y_hat po) r j = true /\ (0 < nth j (PythiaModel.o_precision po) 0)%Q).
        { induction m as [|m IH]; [right; intros (j & Hj & _); lia|].
          destruct IH as [(j & Hj & X)|N]; [left; exists j; split; auto; lia|].
          destruct (PythiaSpec.flag (PythiaModel.o_y_hat po) r m) eqn:F.
          - destruct (Qlt_le_dec 0%Q (nth m (PythiaModel.o_precision po) 0%Q)) as [L|L]; [left; exists m; auto|].
            right. intros (j & Hj & F' & L'). destruct (Nat.eq_dec j m) as [->|]; [exact (Qlt_not_le _ _ L' L)|].
            apply N. exists j. split; auto. lia.
          - right. intros (j & Hj & F' & L'). destruct (Nat.eq_dec j m) as [->|]; [congruence|].
            apply N. exists j. split; auto. lia. }
        apply X. }
      destruct D as [D|D]; auto.
    - intros [C|[-> C]]; auto.
      assert (D : exists j, PythiaSpec.candidate po nalgos r j) by (exists i; apply C).
      specialize (A D). destruct A as (A1 & A2 & A3), C as (C1 & C2 & C3).
      destruct (Nat.lt_trichotomy (nth r (PythiaModel.o_selection0 po) 0) i) as [X|[X|X]]; auto; exfalso.
      + apply (Qlt_not_le _ _ (C3 _ X A1)). apply A2. auto.
      + apply (Qlt_not_le _ _ (A3 _ X C1)). apply C2. auto.
  Qed.
End Fed.

(** Three algorithms, minimised absolute performance, eight instances: the first algorithm is best
    for the first four, the second for the others; TRACE reports the second and third. *)
Definition shift_y : list (list num) :=
  repeat [Some 1%Q; Some 2%Q; Some 3%Q] 4 ++ repeat [Some 3%Q; Some 1%Q; Some 2%Q] 4.
Definition shift_z : list pt := [(0, 0); (2, 0); (0, 2); (2, 2); (11, 11); (13, 11); (11, 13); (13, 13)]%Z.
Example C52_met :
  exists out, TraceModel.run Pixels.is_empty Pixels.area Pixels.contains Pixels.contains_all Pixels.intersection Pixels.difference
      Pixels.union [] Pixels.smooth Pixels.pieces Pixels.hull Pixels.geoms Pixels.box Pixels.eps
      false shift_z 0%Q [] (map (fun row => r_p (prelim_row (mk_opts false true 0) row)) shift_y) []
      (repeat [true; true; true] 8) (repeat true 8) ["a"; "b"; "c"]%string 3 1%Z [2; 0; 1] = Ok out /\
    map (@f_elements _) (t_best out) = [0; 4; 4].
Proof. eexists. split; [vm_compute; reflexivity|]. reflexivity. Qed.
Example C90_met :
  exists po, PythiaProps.run PythiaProps.ex_fit (fun v => v) (fun v => v) PythiaProps.ex_y [[true; false]; [true; false]; [false; true]; [false; false]]
               [Some 1; Some 2; Some 3; Some 4]%Q ["a"; "b"]%string 2 false None = Ok po /\
    exists out, TraceModel.run Pixels.is_empty Pixels.area Pixels.contains Pixels.contains_all Pixels.intersection Pixels.difference
      Pixels.union [] Pixels.smooth Pixels.pieces Pixels.hull Pixels.geoms Pixels.box Pixels.eps
      true [(0, 0); (2, 0); (0, 2); (2, 2)]%Z 0%Q (PythiaModel.o_selection0 po) [] (PythiaModel.o_y_hat po)
      [] (repeat true 4) ["a"; "b"]%string 2 1%Z [1; 0] = Ok out /\
    nth 3 (PythiaModel.o_y_hat po) [] = [false; false] /\ nth 3 (PythiaModel.o_selection0 po) 9 = 0.
Proof. eexists. split; [vm_compute; reflexivity|]. eexists. split; [vm_compute; reflexivity|]. split; vm_compute; reflexivity. Qed.

Print Assumptions C52_best_footprints_are_shifted.
Print Assumptions C90_unselected_instances_go_to_the_first.
