(** Lemmas about PYTHIA's cost-sensitive weights (PythiaProps.v). *)
From Coq Require Import Lqa.
From Verif Require Import BaseLemmas Mat PreprocSpec CloisterModel CloisterSpec PilotSpec PilotProofs CloisterProofs PythiaModel PythiaSpec.
Set Implicit Arguments.
Open Scope nat_scope.
Open Scope list_scope.

Definition num_dec (a b : num) : {a = b} + {a <> b}.
Proof. decide equality. decide equality; [apply Pos.eq_dec|apply Z.eq_dec]. Defined.
Definition absq (q : Q) : Q := if Qle_bool 0 q then q else (- q)%Q.
Lemma absq_spec q : (0 <= absq q)%Q /\ ((absq q == 0)%Q <-> (q == 0)%Q) /\ (absq q == (if Qle_bool 0 q then q else - q))%Q.
Proof.
  unfold absq. destruct (Qle_bool 0 q) eqn:E.
  - apply Qle_bool_iff in E. split; auto. split; [tauto|reflexivity].
  - assert (q < 0)%Q by (apply Qnot_le_lt; intro X; apply Qle_bool_iff in X; congruence). split; [lra|]. split; [split; lra|reflexivity].
Qed.
Lemma absq_zero q : (absq q == 0)%Q <-> (q == 0)%Q.
Proof. apply absq_spec. Qed.
Lemma deviation_absq y m v d : nanmean (concat y) = Some m -> (deviation y v d <-> (d == absq (v - m))%Q).
Proof.
  intro E. unfold deviation, absq. split.
  - intros (m' & E' & D). rewrite E in E'. injection E' as <-. rewrite D. destruct (Qle_bool 0 (v - m)); ring.
  - intro D. exists m. split; auto. rewrite D. destruct (Qle_bool 0 (v - m)); ring.
Qed.

Lemma neqb_zero v : neqb v (Some 0%Q) = true <-> exists q, v = Some q /\ (q == 0)%Q.
Proof.
  unfold neqb. destruct v as [q|]; split.
  - intro H. apply Qeq_bool_iff in H. eauto.
  - intros (p & E & H). injection E as <-. apply Qeq_bool_iff. auto.
  - discriminate.
  - intros (p & E & _). discriminate.
Qed.
Lemma present_nil l : present l = [] <-> forall v, In v l -> v = None.
Proof.
  induction l as [|[q|] l IH]; simpl.
  - split; auto. intros _ v [].
  - split; [discriminate|]. intro H. specialize (H (Some q) (or_introl eq_refl)). discriminate.
  - rewrite IH. split; intros H v; [intros [<-|Hv]; auto|intro Hv; apply H; auto].
Qed.
Lemma qsum_const u l : (forall v, In v l -> (v == u)%Q) -> (qsum l == qlen l * u)%Q.
Proof.
  unfold qlen. induction l as [|a l IH]; intro H; [simpl; ring|].
  change (qsum (a :: l)) with (a + qsum l)%Q. rewrite IH by (intros; apply H; right; auto).
  change (length (a :: l)) with (S (length l)). rewrite Nat2Z.inj_succ. unfold Z.succ. rewrite inject_Z_plus.
  assert (E : (a == u)%Q) by (apply H; left; auto). rewrite E. ring.
Qed.
Lemma nanmean_const l m u : nanmean l = Some m -> (forall v, In (Some v) l -> (v == u)%Q) -> (m == u)%Q.
Proof.
  unfold nanmean. intros H C. destruct (present l) as [|a t] eqn:E; [discriminate|]. rewrite <- E in H.
  injection H as <-. rewrite (@qsum_const u) by (intros v Hv; apply C; apply present_in; auto).
  assert (P : (0 < qlen (present l))%Q) by (apply qlen_pos; congruence). field. lra.
Qed.

Lemma is_min_none l : In None l -> col_min l = None.
Proof.
  destruct l as [|a l]; [intros []|]. simpl. revert a. induction l as [|b l IH]; intros a H; simpl.
  - destruct H as [|[]]; auto.
  - apply IH. destruct H as [->|[->|H]]; [left; auto|left; destruct a; auto|right; auto].
Qed.

Section Weights.
  Variable y : list (list num).
  Let c := concat y.
  Lemma concat_mm (f : num -> num) : concat (map (map f) y) = map f c.
  Proof. unfold c. rewrite concat_map. auto. Qed.

  (** no value at all *)
  Lemma weights_none : nanmean c = None -> weights y = Err EReduction.
  Proof.
    intro E. unfold weights. fold c. rewrite E. rewrite concat_mm.
    assert (A : forall v, In v c -> v = None) by (apply nanmean_none; auto).
    set (w0 := map _ c). assert (W0 : forall v, In v w0 -> v = None).
    { intros v Hv. unfold w0 in Hv. apply in_map_iff in Hv. destruct Hv as (u & <- & Hu). destruct u; reflexivity. }
    destruct (filter _ w0) as [|n0 nz] eqn:F; auto. rewrite map_map.
    rewrite (proj2 (present_nil _)); auto. intros v Hv.
    assert (M : map (fun v => map (fun v0 => if neqb v0 (Some 0%Q) then col_min (n0 :: nz) else v0) (map (fun v => nabs (nsub v None)) v)) y
              = map (map (fun v => if neqb (nabs (nsub v None)) (Some 0%Q) then col_min (n0 :: nz) else nabs (nsub v None))) y).
    { apply map_ext. intro r. rewrite map_map. auto. }
    rewrite M, concat_mm in Hv. apply in_map_iff in Hv. destruct Hv as (u & <- & Hu). destruct u; reflexivity.
  Qed.

  Section Mean.
    Variable m : Q.
    Hypothesis Em : nanmean c = Some m.
    Let f (v : num) : num := nabs (nsub v (Some m)).
    Lemma f_some q : f (Some q) = Some (absq (q - m)).
    Proof. reflexivity. Qed.
    Lemma f_none : f None = None.
    Proof. reflexivity. Qed.
    Let nz := filter (fun v => negb (neqb v (Some 0%Q))) (map f c).
    Let lo := col_min nz.
    Let g (v : num) : num := if neqb (f v) (Some 0%Q) then lo else f v.
    Lemma weights_unfold : weights y =
      match nz with
      | [] => Err EReduction
      | _ => match present (map g c) with
             | [] => Err EReduction
             | pr => Ok (map (map (fun v => if isnan (g v) then col_max (map Some pr) else g v)) y)
             end
      end.
    Proof.
      unfold weights. fold c. rewrite Em, concat_mm. fold f. fold nz. destruct nz as [|n0 t] eqn:F; auto.
      assert (M : map (map (fun v => if neqb v (Some 0%Q) then col_min (n0 :: t) else v)) (map (map f) y) = map (map g) y).
      { rewrite map_map. apply map_ext. intro r. rewrite map_map. unfold g, lo. auto. }
      rewrite M, concat_mm. destruct (present (map g c)); auto.
      f_equal. rewrite map_map. apply map_ext. intro r. rewrite map_map. auto.
    Qed.
    Lemma in_nz v : In v nz <-> (v = None /\ In None c) \/ exists q, In (Some q) c /\ v = Some (absq (q - m)) /\ ~ (absq (q - m) == 0)%Q.
    Proof.
      unfold nz. rewrite filter_In, in_map_iff, negb_true_iff. split.
      - intros ((u & <- & Hu) & N). destruct u as [q|]; [right; exists q; split; auto; split; auto|left; auto].
        intro Z. assert (X : neqb (f (Some q)) (Some 0%Q) = true) by (apply neqb_zero; exists (absq (q - m)); auto). congruence.
      - intros [[-> H]|(q & H & -> & N)].
        + split; [exists None; auto|reflexivity].
        + split; [exists (Some q); auto|]. destruct (neqb _ _) eqn:X; auto. apply neqb_zero in X. destruct X as (p & E & Z). injection E as <-. contradiction.
    Qed.
    Lemma lo_missing : In None c -> lo = None.
    Proof. intro H. apply is_min_none. apply in_nz. auto. Qed.
    Lemma lo_some : ~ In None c -> nz <> [] -> exists l, lo = Some l /\ smallest_deviation y l.
    Proof.
      intros H N. assert (F : ~ In None nz).
      { intro X. apply in_nz in X. destruct X as [[_ X]|(q & _ & X & _)]; [contradiction|discriminate]. }
      destruct (col_min_spec N F) as (l & El & Il & Al). exists l. split; auto. fold lo in El. fold lo in Il. rewrite El in Il.
      apply in_nz in Il. destruct Il as [[X _]|(q & Hq & E & Z)]; [discriminate|]. injection E as ->.
      split; auto. split; [exists q; split; auto; apply (@deviation_absq y m); auto; reflexivity|].
      intros v d Hv D Nd. apply (@deviation_absq y m) in D; auto.
      destruct (Al (Some (absq (v - m)))) as (w & Ew & Lw); [apply in_nz; right; exists v; split; auto; split; auto; rewrite <- D; auto|].
      injection Ew as <-. rewrite D. auto.
    Qed.
    (** nothing left: every value present equals the mean *)
    Lemma all_zero_iff : (nz = [] \/ present (map g c) = []) <-> forall q, In (Some q) c -> (absq (q - m) == 0)%Q.
    Proof.
      split.
      - intros H q Hq. destruct (Qeq_dec (absq (q - m)) 0) as [|N]; auto. exfalso.
        assert (I : In (Some (absq (q - m))) nz) by (apply in_nz; right; eauto).
        destruct H as [H|H]; [rewrite H in I; contradiction|]. rewrite present_nil in H.
        assert (X : g (Some q) = None) by (apply H; apply in_map; auto). unfold g in X. rewrite f_some in X.
        destruct (neqb (Some (absq (q - m))) (Some 0%Q)) eqn:E; [|discriminate]. apply neqb_zero in E. destruct E as (p & E & Z). injection E as <-. contradiction.
      - intro H. destruct (list_eq_dec num_dec nz []) as [E|E]; [left; auto|right]. apply present_nil.
        assert (X : In None c).
        { assert (I : exists n0, In n0 nz) by (destruct nz as [|n0 t]; [congruence|exists n0; left; auto]). destruct I as (n0 & I). apply in_nz in I. destruct I as [[_ I]|(q & Hq & _ & N)]; auto.
          exfalso. apply N. auto. }
        intros v Hv. apply in_map_iff in Hv. destruct Hv as (u & <- & Hu). unfold g. rewrite (lo_missing X).
        destruct u as [q|]; [|reflexivity]. rewrite f_some.
        replace (neqb (Some (absq (q - m))) (Some 0%Q)) with true; auto. symmetry. apply neqb_zero. eauto.
    Qed.
    Lemma weights_err_iff : (exists e, weights y = Err e) <-> forall u v, In (Some u) c -> In (Some v) c -> (u == v)%Q.
    Proof.
      assert (A : (exists e, weights y = Err e) <-> (nz = [] \/ present (map g c) = [])).
      { rewrite weights_unfold. destruct nz as [|n0 t]; [split; eauto|]. destruct (present (map g c)); split; eauto; [intros [e H]; discriminate|intros [H|H]; discriminate]. }
      rewrite A, all_zero_iff. split.
      - intros H u v Hu Hv. pose proof (proj1 (absq_zero _) (H u Hu)) as E1. pose proof (proj1 (absq_zero _) (H v Hv)) as E2. clear - E1 E2. lra.
      - intros H q Hq. apply absq_zero. assert (m == q)%Q by (eapply nanmean_const; [exact Em|]; intros v Hv; apply H; auto). lra.
    Qed.
    Lemma in_present_g d : In d (present (map g c)) -> exists v, In (Some v) c /\ deviation y v d.
    Proof.
      intro H. apply present_in in H. apply in_map_iff in H. destruct H as (u & E & Hu). unfold g in E.
      destruct (neqb (f u) (Some 0%Q)) eqn:Z.
      - assert (I : In lo nz).
        { unfold lo. destruct (In_dec num_dec None c) as [X|X].
          - fold lo in E. rewrite (lo_missing X) in E. discriminate.
          - destruct (list_eq_dec num_dec nz []) as [F|F]; [unfold lo in E; rewrite F in E; discriminate|].
            assert (Fn : ~ In None nz) by (intro Y; apply in_nz in Y; destruct Y as [[_ Y]|(q & _ & Y & _)]; [contradiction|discriminate]).
            destruct (@col_min_spec nz F Fn) as (l & El & Il & _). exact Il. }
        rewrite E in I. apply in_nz in I. destruct I as [[X _]|(q & Hq & X & _)]; [discriminate|]. injection X as ->.
        exists q. split; auto. apply (@deviation_absq y m); auto. reflexivity.
      - destruct u as [q|]; [|discriminate]. rewrite f_some in E. injection E as <-. exists q. split; auto. apply (@deviation_absq y m); auto. reflexivity.
    Qed.
    Lemma hi_spec : present (map g c) <> [] -> exists h, col_max (map Some (present (map g c))) = Some h /\ largest_deviation y h /\ (0 < h)%Q.
    Proof.
      intro N. set (pr := present (map g c)) in *.
      assert (N' : map (@Some Q) pr <> []) by (destruct pr; [congruence|discriminate]).
      assert (F : ~ In None (map (@Some Q) pr)) by (intro X; apply in_map_iff in X; destruct X as (q & E & _); discriminate).
      destruct (@col_max_spec (map (@Some Q) pr) N' F) as (h & Eh & Ih & Ah). exists h. split; auto. rewrite Eh in Ih.
      apply in_map_iff in Ih. destruct Ih as (h' & E & Ih). injection E as ->.
      assert (D : forall q, In (Some q) c -> ~ (absq (q - m) == 0)%Q -> (absq (q - m) <= h)%Q).
      { intros q Hq Nz. assert (I : In (absq (q - m)) pr).
        { unfold pr. apply present_in. apply in_map_iff. exists (Some q). split; auto. unfold g. rewrite f_some.
          destruct (neqb _ _) eqn:Z; auto. apply neqb_zero in Z. destruct Z as (p & X & Y). injection X as <-. contradiction. }
        destruct (Ah (Some (absq (q - m)))) as (w & Ew & Lw); [apply in_map; auto|]. injection Ew as <-. auto. }
      assert (P : (0 < h)%Q).
      { assert (X : ~ forall q, In (Some q) c -> (absq (q - m) == 0)%Q) by (intro X; apply all_zero_iff in X; destruct X as [X|X]; [|contradiction];
          assert (Y : present (map g c) = []); [|contradiction]; apply present_nil; intros v Hv; apply in_map_iff in Hv; destruct Hv as (u & <- & Hu); unfold g;
          destruct (neqb (f u) (Some 0%Q)) eqn:Z; [unfold lo; rewrite X; reflexivity|]; exfalso; assert (W : In (f u) nz) by (unfold nz; apply filter_In; split; [apply in_map; auto|rewrite Z; auto]); rewrite X in W; contradiction).
        assert (E : exists q, In q (present c) /\ ~ (absq (q - m) == 0)%Q).
        { clear -X. assert (X' : ~ forall q, In q (present c) -> (absq (q - m) == 0)%Q) by (intro Y; apply X; intros q Hq; apply Y; apply present_in; auto).
          induction (present c) as [|a l IH]; [exfalso; apply X'; intros q []|].
          destruct (Qeq_dec (absq (a - m)) 0) as [Z|Z]; [|exists a; split; [left; auto|auto]].
          destruct IH as (q & Hq & Nq); [intro Y; apply X'; intros q [<-|Hq]; auto|]. exists q. split; [right; auto|auto]. }
        destruct E as (q & Hq & Nq). apply present_in in Hq. specialize (D q Hq Nq). destruct (absq_spec (q - m)) as [A _].
        assert (~ (0 == absq (q - m))%Q) by (intro Z; apply Nq; symmetry; auto). destruct (Qlt_le_dec 0 (absq (q - m))); [lra|]. exfalso. apply Nq. lra. }
      split; auto. split.
      - destruct (in_present_g _ Ih) as (v & Hv & Dv). eauto.
      - intros v d Hv Dv. apply (@deviation_absq y m) in Dv; auto. rewrite Dv.
        destruct (Qeq_dec (absq (v - m)) 0) as [Z|Z]; [lra|]. auto.
    Qed.
    Lemma weights_value w : weights y = Ok w -> exists k : num -> num, w = map (map k) y /\
      (forall v, In v c -> exists q, k v = Some q /\ (0 < q)%Q /\
         (forall p d, v = Some p -> deviation y p d -> ~ (d == 0)%Q -> (q == d)%Q) /\
         (forall p d, v = Some p -> deviation y p d -> (d == 0)%Q -> (~ is_missing y -> smallest_deviation y q) /\ (is_missing y -> largest_deviation y q)) /\
         (v = None -> largest_deviation y q)).
    Proof.
      rewrite weights_unfold. intro H. destruct (list_eq_dec num_dec nz []) as [En|Nz]; [rewrite En in H; discriminate|].
      assert (Mz : forall T (a b : T), match nz with [] => a | _ => b end = b) by (intros; destruct nz; congruence). rewrite Mz in H.
      destruct (present (map g c)) as [|p0 pr] eqn:Ep; [discriminate|]. rewrite <- Ep in H.
      assert (Np : present (map g c) <> []) by congruence.
      destruct (hi_spec Np) as (h & Eh & Lh & Ph). rewrite Eh in H. injection H as <-.
      eexists. split; [reflexivity|]. intros v Hv. cbv beta.
      destruct v as [q|].
      - unfold g. rewrite f_some. destruct (absq_spec (q - m)) as (A & _).
        destruct (neqb (Some (absq (q - m))) (Some 0%Q)) eqn:Z.
        + apply neqb_zero in Z. destruct Z as (p & X & Z). injection X as <-.
          destruct (In_dec num_dec None c) as [M|M].
          * rewrite (lo_missing M). simpl. exists h. split; auto. split; auto. split; [|split; [|discriminate]].
            -- intros p d E D N. injection E as <-. apply (@deviation_absq y m) in D; auto. exfalso. apply N. rewrite D. auto.
            -- intros p d E D _. split; [intro X; exfalso; apply X; exact M|auto].
          * destruct (lo_some M Nz) as (l & El & Sl). rewrite El. simpl. exists l. split; auto.
            assert (0 < l)%Q. { destruct Sl as (N & (v & _ & D) & _). apply (@deviation_absq y m) in D; auto. destruct (absq_spec (v - m)) as [B _].
              destruct (Qlt_le_dec 0 l); auto. exfalso. apply N. lra. }
            split; auto. split; [|split; [|discriminate]].
            -- intros p d E D N. injection E as <-. apply (@deviation_absq y m) in D; auto. exfalso. apply N. rewrite D. auto.
            -- intros p d E D _. split; [auto|intro X; exfalso; apply M; exact X].
        + simpl. exists (absq (q - m)). split; auto.
          assert (N : ~ (absq (q - m) == 0)%Q) by (intro X; assert (Y : neqb (Some (absq (q - m))) (Some 0%Q) = true) by (apply neqb_zero; eauto); congruence).
          split; [destruct (Qlt_le_dec 0 (absq (q - m))); auto; exfalso; apply N; lra|]. split; [|split; [|discriminate]].
          * intros p d E D _. injection E as <-. apply (@deviation_absq y m) in D; auto. symmetry. auto.
          * intros p d E D Z'. injection E as <-. apply (@deviation_absq y m) in D; auto. exfalso. apply N. rewrite <- D. auto.
      - unfold g. rewrite f_none. simpl. exists h. split; auto. split; auto. split; [intros; discriminate|]. split; [intros; discriminate|auto].
    Qed.
  End Mean.
End Weights.
