(** Proofs for C136. *)
From Coq Require Import Lia.
From Verif Require Import TraceModel TraceMoveSpec.
Set Implicit Arguments.
Open Scope nat_scope.
Open Scope list_scope.

Definition rmap {E A B} (f : A -> B) (r : res E A) : res E B := match r with Ok a => Ok (f a) | Err e => Err e end.

Lemma select_map {A B} (f : A -> B) m l : select m (map f l) = map f (select m l).
Proof. revert l. induction m as [|b m IH]; intros [|a l]; simpl; auto. destruct b; simpl; rewrite IH; auto. Qed.
Lemma take_rows_map {A B} (f : A -> B) l m : take_rows (map f l) m = rmap (map f) (take_rows l m).
Proof. unfold take_rows. rewrite map_length. destruct (Nat.eqb _ _); simpl; auto. rewrite select_map. auto. Qed.
Lemma nth_map_none {A} (f : A -> A) d l i : f d = d -> nth i (map f l) d = f (nth i l d).
Proof. intros E. rewrite <- E at 1. apply map_nth. Qed.
Lemma upd_map {A} (f : A -> A) i a (l : list A) : upd i (fun _ => f a) (map f l) = map f (upd i (fun _ => a) l).
Proof. revert i. induction l as [|b l IH]; intros [|i]; simpl; auto. rewrite IH. auto. Qed.

(** The loop of dbscan reads the neighbourhoods of rows of the table only through [near]. *)
Lemma expand_ext near near' m : (forall i j, near i j = near' i j) ->
  forall fuel no q c t, expand near m fuel no q c t = expand near' m fuel no q c t.
Proof.
  intros H. assert (N : forall i, nbrs near m i = nbrs near' m i) by (intros i; apply filter_ext; auto).
  induction fuel as [|fuel IH]; intros no q c t; simpl; destruct q as [|a q]; auto.
  rewrite N. destruct (Nat.ltb 1 (length (nbrs near' m a))); rewrite IH; auto.
Qed.
Lemma dbscan_labels_ext near near' m k : (forall i j, near i j = near' i j) -> dbscan_labels near m k = dbscan_labels near' m k.
Proof.
  intros H. unfold dbscan_labels.
  assert (N : forall i, nbrs near m i = nbrs near' m i) by (intros i; apply filter_ext; auto).
  assert (S : forall st i, dbscan_step near m k st i = dbscan_step near' m k st i).
  { intros [[[no c] t]|] i; auto. unfold dbscan_step. rewrite N. destruct (t i); auto.
    destruct (Nat.leb (k + 1) _); auto. rewrite (expand_ext _ _ m H). auto. }
  assert (F : forall l st, fold_left (dbscan_step near m k) l st = fold_left (dbscan_step near' m k) l st).
  { induction l as [|i l IH]; intros st; simpl; auto. rewrite S. auto. }
  rewrite F. auto.
Qed.

Section Move.
  Variable v : Z * Z.
  Definition sh : pt -> pt := shifted v.
  Lemma peqb_sh a b : peqb (sh a) (sh b) = peqb a b.
  Proof. apply eq_true_iff_eq. unfold peqb, sh, shifted. simpl. rewrite !andb_true_iff, !Z.eqb_eq. lia. Qed.
  Lemma pltb_sh a b : pltb (sh a) (sh b) = pltb a b.
  Proof. apply eq_true_iff_eq. unfold pltb, sh, shifted. simpl. rewrite !orb_true_iff, !andb_true_iff, !Z.eqb_eq, !Z.ltb_lt. lia. Qed.
  Lemma uins_sh a l : uins (sh a) (map sh l) = map sh (uins a l).
  Proof.
    induction l as [|b l IH]; simpl; auto. rewrite peqb_sh, pltb_sh.
    destruct (peqb a b); simpl; auto. destruct (pltb a b); simpl; auto. rewrite IH. auto.
  Qed.
  Lemma unique_sh l : unique (map sh l) = map sh (unique l).
  Proof. unfold unique. induction l as [|a l IH]; simpl; auto. rewrite IH. apply uins_sh. Qed.
  Lemma dbscan_sh x k eps : dbscan (map sh x) k eps = dbscan x k eps.
  Proof.
    unfold dbscan. rewrite map_length.
    (* rows outside the table are never reached *)
    assert (B : forall near near' m, (forall i j, i < m -> j < m -> near i j = near' i j) ->
              dbscan_labels near m k = dbscan_labels near' m k).
    { intros near near' m H.
      set (cut := fun (n : nat -> nat -> bool) i j => Nat.ltb i m && Nat.ltb j m && n i j).
      assert (X : forall n, dbscan_labels n m k = dbscan_labels (cut n) m k).
      { clear. intros n. unfold dbscan_labels.
        assert (N : forall i, i < m -> nbrs n m i = nbrs (cut n) m i).
        { intros i Hi. unfold nbrs. apply filter_ext_in. intros j Hj. apply in_seq in Hj. unfold cut.
          rewrite (proj2 (Nat.ltb_lt i m) Hi), (proj2 (Nat.ltb_lt j m)) by lia. auto. }
        assert (M : forall i j, In j (nbrs n m i) -> j < m) by (intros i j I; apply filter_In in I; destruct I as [I _]; apply in_seq in I; lia).
        assert (Ex : forall fuel no q c t, (forall j, In j q -> j < m) -> expand n m fuel no q c t = expand (cut n) m fuel no q c t).
        { induction fuel as [|fuel IH]; intros no q c t Hq; simpl; destruct q as [|a q]; auto.
          rewrite <- N by (apply Hq; left; auto). destruct (Nat.ltb 1 (length (nbrs n m a))); apply IH.
          - intros j I. apply in_app_or in I. destruct I as [I|I]; [apply Hq; right; auto|]. apply filter_In in I. destruct I. eapply M; eauto.
          - intros j I. apply Hq. right. auto. }
        assert (S : forall st i, i < m -> dbscan_step n m k st i = dbscan_step (cut n) m k st i).
        { intros [[[no c] t]|] i Hi; auto. unfold dbscan_step. rewrite <- N by auto. destruct (t i); auto.
          destruct (Nat.leb (k + 1) _); auto. rewrite Ex by (intros j I; eapply M; eauto). auto. }
        assert (F : forall l st, (forall i, In i l -> i < m) -> fold_left (dbscan_step n m k) l st = fold_left (dbscan_step (cut n) m k) l st).
        { induction l as [|i l IH]; intros st Hl; simpl; auto. rewrite S by (apply Hl; left; auto). apply IH. intros; apply Hl; right; auto. }
        rewrite F by (intros i I; apply in_seq in I; lia). auto. }
      rewrite (X near), (X near'). apply dbscan_labels_ext. intros i j. unfold cut.
      destruct (Nat.ltb_spec i m); auto. destruct (Nat.ltb_spec j m); auto. simpl. auto. }
    apply B. intros i j Hi Hj. unfold near. f_equal. f_equal.
    rewrite !(nth_indep (map sh x) (0, 0)%Z (sh (0, 0)%Z)) by (rewrite map_length; auto). rewrite !map_nth.
    unfold dist2, sh, shifted. simpl. set (a := nth i x (0, 0)%Z). set (b := nth j x (0, 0)%Z).
    replace (fst v + fst b - (fst v + fst a))%Z with (fst b - fst a)%Z by lia.
    replace (snd v + snd b - (snd v + snd a))%Z with (snd b - snd a)%Z by lia. auto.
  Qed.

  Variable G : Type.
  Variable move : G -> G.
  Variable is_empty : G -> bool.
  Variable area : G -> Q.
  Variable contains : G -> pt -> bool.
  Variable contains_all : G -> list pt -> bool.
  Variable intersection difference union : G -> G -> G.
  Variable no_polygon : G.
  Variable smooth : G -> G.
  Variable triangulate : G -> list G.
  Variable convex_hull : G -> G.
  Variable geoms : G -> list G.
  Variable alphashape : list pt -> option G.
  Variable epsilon : list pt -> nat -> Z.
  Hypothesis MV : moves_along v move is_empty area contains contains_all intersection difference union no_polygon smooth triangulate convex_hull geoms alphashape.
  Hypothesis EP : forall l k, epsilon (map sh l) k = epsilon l k.

  Definition mfp (f : footprint G) : footprint G :=
    {| f_polygon := option_map move (f_polygon f); f_area := f_area f; f_elements := f_elements f; f_good := f_good f;
       f_density := f_density f; f_purity := f_purity f |}.

  Lemma count_sh g z : count_in contains (move g) (map sh z) = count_in contains g z.
  Proof.
    unfold count_in. induction z as [|q z IH]; simpl; auto. rewrite (mv_contains MV). destruct (contains g q); simpl; auto.
  Qed.
  Lemma from_polygon_sh g z y s : from_polygon area contains smooth (option_map move g) (map sh z) y s
    = rmap mfp (from_polygon area contains smooth g z y s).
  Proof.
    unfold from_polygon. destruct g as [g|]; simpl; auto. rewrite (@take_rows_map pt pt).
    assert (E : (if s then smooth (move g) else move g) = move (if s then smooth g else g)) by (destruct s; auto; apply (mv_smooth MV)).
    rewrite E, (mv_area MV), count_sh. destruct (take_rows z y) as [zg|e]; simpl; auto. rewrite count_sh. auto.
  Qed.

  Section Stage.
    Variable z : list pt.
    Variable purity : Q.
    Lemma remove_impure_sh y pieces : forall g,
      remove_impure contains difference convex_hull (map sh z) purity y (map move pieces) (move g)
      = rmap move (remove_impure contains difference convex_hull z purity y pieces g).
    Proof.
      induction pieces as [|p t IH]; intros g; simpl; auto.
      rewrite (mv_hull MV), count_sh, (@take_rows_map pt pt). destruct (take_rows z y) as [zg|e]; simpl; auto. rewrite count_sh, <- IH.
      f_equal. destruct (_ && _); auto. apply (mv_difference MV).
    Qed.
    Lemma fit_poly_sh pd y : fit_poly is_empty contains difference triangulate convex_hull alphashape (map sh z) purity (map sh pd) y
      = rmap (option_map move) (fit_poly is_empty contains difference triangulate convex_hull alphashape z purity pd y).
    Proof.
      unfold fit_poly. rewrite map_length. destruct (Nat.ltb _ 3); simpl; auto. rewrite (mv_alpha MV).
      destruct (alphashape pd) as [g|]; simpl; auto. destruct (forallb _ y); simpl; auto.
      rewrite (mv_empty MV). destruct (is_empty g); simpl; auto. rewrite (mv_triangulate MV), remove_impure_sh.
      destruct (remove_impure _ _ _ _ _ _ _ _); auto.
    Qed.
    Lemma build_loop_sh y rows labels todo : forall acc,
      build_loop is_empty contains difference union triangulate convex_hull alphashape (map sh z) purity y (map sh rows) labels todo (option_map move acc)
      = rmap (option_map move) (build_loop is_empty contains difference union triangulate convex_hull alphashape z purity y rows labels todo acc).
    Proof.
      induction todo as [|i t IH]; intros acc; simpl; auto. rewrite (@select_map pt pt), fit_poly_sh.
      destruct (fit_poly _ _ _ _ _ _ _ _ _ _) as [[g|]|e]; simpl; auto.
      rewrite (mv_empty MV). destruct (is_empty g); auto. rewrite <- IH. f_equal. destruct acc as [b|]; simpl; auto.
      rewrite (mv_union MV). auto.
    Qed.
    Notation build' z := (build is_empty area contains difference union no_polygon smooth triangulate convex_hull alphashape epsilon z purity).
    Lemma build_sh y : build' (map sh z) y = rmap mfp (build' z y).
    Proof.
      unfold build. rewrite (@take_rows_map pt pt). destruct (take_rows z y) as [fz|e]; cbn [rmap]; auto.
      rewrite unique_sh, map_length. destruct (Nat.ltb _ 3); cbn [rmap]; auto.
      unfold run_dbscan. rewrite EP, dbscan_sh. destruct (dbscan _ _ _) as [labels|]; cbn [rmap]; auto.
      change (@None G) with (option_map move (@None G)) at 1. rewrite build_loop_sh. destruct (build_loop _ _ _ _ _ _ _ _ _ _ _ _ _ _) as [acc|e]; cbn [rmap]; auto.
      rewrite <- from_polygon_sh. f_equal. destruct acc; cbn [option_map]; auto. rewrite (mv_none MV). auto.
    Qed.
    Lemma tight_loop_sh y splits :
      tight_loop contains_all (map sh z) y (map move splits) = rmap (option_map move) (tight_loop contains_all z y splits).
    Proof.
      induction splits as [|s t IH]; simpl; auto. rewrite (@take_rows_map pt pt), (mv_contains_all MV).
      destruct (take_rows _ _); simpl; auto. rewrite map_length. destruct (Nat.ltb _ 3); auto.
    Qed.
    Lemma tight_sh g y : tight contains_all geoms (map sh z) (option_map move g) y = rmap (option_map move) (tight contains_all geoms z g y).
    Proof. unfold tight. destruct g as [g|]; simpl; auto. rewrite (mv_geoms MV). apply tight_loop_sh. Qed.
    Definition mpair {A} (f : A -> A) (p : A * A) : A * A := (f (fst p), f (snd p)).
    Lemma contra_loop_sh yb yt left : forall b t c,
      contra_loop is_empty area contains contains_all intersection difference geoms (map sh z) left yb yt (move b) (move t) (move c)
      = rmap (mpair (option_map move)) (contra_loop is_empty area contains contains_all intersection difference geoms z left yb yt b t c).
    Proof.
      induction left as [|left IH]; intros b t c; cbn [contra_loop]; [reflexivity|]. rewrite (mv_empty MV). destruct (is_empty c); cbn [rmap option_map]; auto.
      rewrite !(@take_rows_map pt pt). destruct (take_rows z yb) as [zb|]; cbn [rmap option_map]; auto. destruct (take_rows z yt) as [zt|]; cbn [rmap option_map]; auto.
      rewrite !count_sh, !(mv_area MV).
      destruct (nlt _ _).
      - destruct (Qeq_bool (area t) 0); cbn [rmap option_map]; auto. rewrite (mv_difference MV).
        assert (E : match left with O => Ok (Some (move (difference t c))) | S _ => tight contains_all geoms (map sh z) (Some (move (difference t c))) yt end
                  = rmap (option_map move) match left with O => Ok (Some (difference t c)) | S _ => tight contains_all geoms z (Some (difference t c)) yt end).
        { destruct left; auto. apply (tight_sh (Some (difference t c))). }
        rewrite E. clear E. generalize (match left with O => @Ok trerr _ (Some (difference t c)) | S _ => tight contains_all geoms z (Some (difference t c)) yt end).
        intros [[t'|]|e]; cbn [rmap option_map]; auto; rewrite !(mv_empty MV); destruct (is_empty b); cbn [rmap option_map]; auto.
        destruct (is_empty t'); cbn [rmap option_map]; auto. rewrite (mv_intersection MV). apply IH.
      - destruct (nlt _ _); cbn [rmap option_map]; auto. destruct (Qeq_bool (area b) 0); cbn [rmap option_map]; auto. rewrite (mv_difference MV).
        assert (E : match left with O => Ok (Some (move (difference b c))) | S _ => tight contains_all geoms (map sh z) (Some (move (difference b c))) yb end
                  = rmap (option_map move) match left with O => Ok (Some (difference b c)) | S _ => tight contains_all geoms z (Some (difference b c)) yb end).
        { destruct left; auto. apply (tight_sh (Some (difference b c))). }
        rewrite E. clear E. generalize (match left with O => @Ok trerr _ (Some (difference b c)) | S _ => tight contains_all geoms z (Some (difference b c)) yb end).
        intros [[b'|]|e]; cbn [rmap option_map]; auto.
        rewrite !(mv_empty MV); destruct (is_empty b'); cbn [rmap option_map]; auto. destruct (is_empty t); cbn [rmap option_map]; auto. rewrite (mv_intersection MV). apply IH.
    Qed.
    Notation contra' z := (contra is_empty area contains contains_all intersection difference smooth geoms z).
    Lemma contra_sh b t yb yt : contra' (map sh z) (mfp b) (mfp t) yb yt = rmap (mpair mfp) (contra' z b t yb yt).
    Proof.
      unfold contra. cbn [mfp f_polygon]. destruct (f_polygon b) as [gb|]; cbn [rmap option_map mpair fst snd]; auto. destruct (f_polygon t) as [gt|]; cbn [rmap option_map mpair fst snd]; auto.
      rewrite (mv_intersection MV), contra_loop_sh. destruct (contra_loop _ _ _ _ _ _ _ _ _ _ _ _ _ _) as [[b' t']|e]; cbn [rmap option_map mpair fst snd]; auto.
      rewrite !from_polygon_sh. destruct (from_polygon area contains smooth b' z yb false); cbn [rmap option_map mpair fst snd]; auto.
      destruct (from_polygon area contains smooth t' z yt false); cbn [rmap option_map mpair fst snd]; auto.
    Qed.

    Variable y_bin : list (list bool).
    Variable p : list Z.
    Variable beta : list bool.
    Variable labels : list string.
    Notation process' z := (process_algorithm is_empty area contains difference union no_polygon smooth triangulate convex_hull alphashape epsilon z purity y_bin p labels).
    Lemma process_sh i : process' (map sh z) i = rmap (mpair mfp) (process' z i).
    Proof.
      unfold process_algorithm. destruct (Nat.ltb _ _); simpl; auto. rewrite !build_sh.
      destruct (build _ _ _ _ _ _ _ _ _ _ _ z purity (column false y_bin i)); simpl; auto.
      destruct (build _ _ _ _ _ _ _ _ _ _ _ z purity (is_best p i)); simpl; auto.
    Qed.
    Notation collect' z := (collect is_empty area contains difference union no_polygon smooth triangulate convex_hull alphashape epsilon z purity y_bin p labels).
    Lemma collect_sh order : forall g b,
      collect' (map sh z) order (map mfp g) (map mfp b) = rmap (mpair (map mfp)) (collect' z order g b).
    Proof.
      induction order as [|i t IH]; intros g b; simpl; auto. rewrite process_sh. destruct (process_algorithm _ _ _ _ _ _ _ _ _ _ _ _ _ _ _ _ _) as [[f f']|e]; simpl; auto.
      rewrite !upd_map. apply IH.
    Qed.
    Notation resolve' z := (resolve is_empty area contains contains_all intersection difference smooth geoms z p).
    Lemma resolve_sh todo : forall b, resolve' (map sh z) todo (map mfp b) = rmap (map mfp) (resolve' z todo b).
    Proof.
      induction todo as [|[i j] t IH]; intros b; simpl; auto. rewrite !nth_map_none by auto. rewrite contra_sh.
      destruct (contra _ _ _ _ _ _ _ _ _ _ _ _ _) as [[f f']|e]; simpl; auto. rewrite !upd_map. apply IH.
    Qed.
    Definition mout (o : trace_out G) : trace_out G :=
      {| t_space := mfp (t_space o); t_good := map mfp (t_good o); t_best := map mfp (t_best o); t_hard := mfp (t_hard o);
         t_summary := t_summary o |}.
    Notation trace' z := (trace is_empty area contains contains_all intersection difference union no_polygon smooth triangulate convex_hull
      geoms alphashape epsilon z purity y_bin p beta labels).
    Lemma trace_sh n cores order : trace' (map sh z) n cores order = rmap mout (trace' z n cores order).
    Proof.
      unfold trace. rewrite !build_sh. destruct (build _ _ _ _ _ _ _ _ _ _ _ z purity (map (fun _ => true) y_bin)) as [s|e]; simpl; auto.
      unfold compute_algorithm_qualities. destruct (Z.leb cores 0); simpl; auto.
      assert (R : repeat (no_footprint G) n = map mfp (repeat (no_footprint G) n)) by (clear; induction n as [|n IH]; cbn [repeat map]; [reflexivity|rewrite <- IH; reflexivity]).
      rewrite R at 1 2. rewrite collect_sh. destruct (collect _ _ _ _ _ _ _ _ _ _ _ _ _ _ _ _ _ _ _) as [[g b]|e]; simpl; auto.
      rewrite resolve_sh. destruct (resolve _ _ _ _ _ _ _ _ _ _ _ _) as [b'|e]; simpl; auto.
      destruct (build _ _ _ _ _ _ _ _ _ _ _ z purity (map negb beta)) as [h|e]; simpl; auto.
      destruct (Nat.leb _ _); simpl; auto. f_equal. unfold mout. simpl. f_equal.
      apply map_ext. intros [i l]. simpl. rewrite !nth_map_none by auto. auto.
    Qed.
  End Stage.
End Move.
