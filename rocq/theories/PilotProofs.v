(** Lemmas about the PILOT model. *)
From Coq Require Import Lqa.
From Verif Require Import BaseLemmas Mat PilotModel PilotSpec FilterProofs.
Set Implicit Arguments.
Open Scope nat_scope.
Open Scope list_scope.

(* ------------------------------------------------------------------ argmax *)
Lemma nargmax_from_spec (l : list num) : forall i bi (bv : num) (pre : list num),
  length pre = i -> bi < i -> nth_error pre bi = Some bv ->
  (In None pre -> bv = None /\ forall j, j < bi -> nth_error pre j <> Some None) ->
  (~ In None pre -> forall j v, nth_error pre j = Some (Some v) ->
     exists b, bv = Some b /\ (v <= b)%Q /\ (j < bi -> (v < b)%Q)) ->
  first_best (pre ++ l) (nargmax_from l i bi bv).
Proof.
  induction l as [|v t IH]; intros i bi bv pre L Hb Eb HN HF; simpl.
  - rewrite app_nil_r. split; [lia|]. split.
    + intros H j w Hj. destruct (HF H j w Hj) as (b & -> & X). eauto.
    + intro H. destruct (HN H) as [-> X]. auto.
  - destruct bv as [b|].
    + assert (Np : ~ In None pre) by (intro X; apply HN in X; destruct X; discriminate).
      replace (pre ++ v :: t) with ((pre ++ [v]) ++ t) by (rewrite <- app_assoc; auto).
      assert (Lp : length (pre ++ [v]) = S i) by (rewrite app_length; simpl; lia).
      destruct v as [v|]; simpl; [destruct (Qle_bool v b) eqn:Q|].
      * apply IH; auto.
        -- rewrite nth_error_app1; auto; lia.
        -- intro X. exfalso. apply in_app_or in X. destruct X as [X|[X|[]]]; [auto|discriminate].
        -- intros _ j w Hj. apply Qle_bool_iff in Q. destruct (Nat.lt_ge_cases j i) as [Hj'|Hj'].
           ++ rewrite nth_error_app1 in Hj by lia. eauto.
           ++ rewrite nth_error_app2 in Hj by lia. destruct (j - length pre) as [|[|]] eqn:E; simpl in Hj; try discriminate.
              injection Hj as <-. exists b. split; auto. split; auto. intro; lia.
      * assert (V : (b < v)%Q). { apply Qnot_le_lt. intro X. apply Qle_bool_iff in X. congruence. }
        apply IH; auto.
        -- rewrite nth_error_app2 by lia. rewrite L, Nat.sub_diag. auto.
        -- intro X. exfalso. apply in_app_or in X. destruct X as [X|[X|[]]]; [auto|discriminate].
        -- intros _ j w Hj. exists v. split; auto. destruct (Nat.lt_ge_cases j i) as [Hj'|Hj'].
           ++ rewrite nth_error_app1 in Hj by lia. destruct (HF Np j w Hj) as (b' & E & X & _). injection E as <-. split; [lra|]. intros; lra.
           ++ rewrite nth_error_app2 in Hj by lia. destruct (j - length pre) as [|[|]] eqn:E; simpl in Hj; try discriminate.
              injection Hj as <-. split; [lra|]. intro; lia.
      * apply IH; auto.
        -- rewrite nth_error_app2 by lia. rewrite L, Nat.sub_diag. auto.
        -- intros _. split; auto. intros j Hj X. rewrite nth_error_app1 in X by lia. apply Np. eapply nth_error_In; eauto.
        -- intros X. exfalso. apply X. apply in_or_app. right. left. auto.
    + split; [rewrite app_length; lia|]. split.
      * intro X. exfalso. apply X. apply in_or_app. left. eapply nth_error_In; eauto.
      * intros _. split; [rewrite nth_error_app1 by lia; auto|]. intros j Hj.
        rewrite nth_error_app1 by lia. apply HN; auto. eapply nth_error_In; eauto.
Qed.
Lemma nargmax_spec l : l <> [] -> first_best l (nargmax l).
Proof.
  destruct l as [|v t]; [congruence|]. intros _. unfold nargmax. change (v :: t) with ([v] ++ t).
  apply nargmax_from_spec; simpl; auto.
  - intros [->|[]]. split; auto. intros; lia.
  - intros H [|[|j]] w E; simpl in E; try discriminate. injection E as ->. exists w. split; auto. split; [lra|]. lia.
Qed.

(* ------------------------------------------------------------------ reshape *)
Lemma reshape_length A rows cols (v : list A) : length (reshape rows cols v) = rows.
Proof. revert v. induction rows; simpl; auto. Qed.
Lemma skipn_nth A k i (v : list A) d : nth i (skipn k v) d = nth (k + i) v d.
Proof. revert v. induction k; intros [|a v]; simpl; auto. destruct i; auto. Qed.
Lemma firstn_nth A k i (v : list A) d : i < k -> nth i (firstn k v) d = nth i v d.
Proof. revert i v. induction k; intros i [|a v] H; simpl; auto; try lia. destruct i; auto. apply IHk. lia. Qed.
Lemma reshape_row A rows cols (v : list A) r : r < rows ->
  nth r (reshape rows cols v) [] = firstn cols (skipn (r * cols) v).
Proof.
  revert v r. induction rows; intros v r H; [lia|]. destruct r; simpl; auto.
  rewrite IHrows by lia. f_equal. revert v. clear. generalize (r * cols). intros a v.
  revert v. induction cols; intros [|x v]; simpl; auto. apply skipn_nil.
Qed.
Lemma reshape_nth A rows cols (v : list A) r c d : r < rows -> c < cols ->
  nth c (nth r (reshape rows cols v) []) d = nth (r * cols + c) v d.
Proof. intros H1 H2. rewrite reshape_row, firstn_nth, skipn_nth; auto. Qed.
Lemma reshape_row_length A rows cols (v : list A) r : r < rows -> rows * cols <= length v ->
  length (nth r (reshape rows cols v) []) = cols.
Proof.
  intros H1 H2. rewrite reshape_row by auto. rewrite firstn_length, skipn_length.
  assert (r * cols + cols <= rows * cols) by nia. lia.
Qed.
Lemma reshape_map A B (f : A -> B) rows cols v : reshape rows cols (map f v) = map (map f) (reshape rows cols v).
Proof. revert v. induction rows; intro v; simpl; auto. rewrite firstn_map, skipn_map, IHrows. auto. Qed.

(* ------------------------------------------------------------------ dot products *)
Lemma dot_nsum u v n : length u = n -> length v = n ->
  dot u v = nsum (map (fun j => nmul (nth j u None) (nth j v None)) (seq 0 n)).
Proof.
  revert v n. induction u as [|a u IH]; intros [|b v] n H1 H2; simpl in *; subst; try lia; auto.
  injection H2 as H2. simpl. f_equal. rewrite (IH v (length u)) by auto. unfold nsum. rewrite <- seq_shift, map_map. auto.
Qed.
Lemma project_row al n row : length row = n -> 2 * n <= length al ->
  mulv (reshape 2 n (firstn (2 * n) al)) row = [coordinate al n 0 row; coordinate al n 1 row].
Proof.
  intros Hr Ha. unfold mulv, coordinate, weight_A. cbn [reshape map].
  assert (L : length (firstn (2 * n) al) = 2 * n) by (rewrite firstn_length; lia).
  f_equal; [|f_equal].
  - rewrite (@dot_nsum _ _ n) by (rewrite ?firstn_length; lia). f_equal. apply map_ext_in. intros j Hj. apply in_seq in Hj.
    rewrite !firstn_nth by lia. auto.
  - rewrite (@dot_nsum _ _ n) by (rewrite ?firstn_length, ?skipn_length; lia). f_equal. apply map_ext_in. intros j Hj. apply in_seq in Hj.
    rewrite firstn_nth, skipn_nth, firstn_nth by lia. do 2 f_equal. lia.
Qed.
Lemma project_all al n x : Forall (fun r => length r = n) x -> 2 * n <= length al ->
  map (mulv (reshape 2 n (firstn (2 * n) al))) x = projection al n x.
Proof.
  intros H Ha. unfold projection. apply map_ext_in. intros r Hr. rewrite Forall_forall in H.
  rewrite project_row; auto.
Qed.

(* ------------------------------------------------------------------ the loop *)
Section Loop.
  Variable bfgs : list num -> list num * num.
  Variable quality : list (list num) -> res pierr num.
  Variables (x x0 : list (list num)) (n : nat).

  Definition tried (i : nat) (al : list num) (e q : num) : Prop :=
    exists guess, nth_error x0 i = Some guess /\ bfgs guess = (al, e) /\
      quality (map (mulv (reshape 2 n (firstn (2 * n) al))) x) = Ok q.

  Lemma nth_error_upd_same A (l : list A) i v : i < length l -> nth_error (upd i (fun _ => v) l) i = Some v.
  Proof. revert i. induction l as [|a l IH]; intros [|i] H; simpl in *; try lia; auto. apply IH. lia. Qed.
  Lemma nth_error_upd_other A (l : list A) i j (f : A -> A) : i <> j -> nth_error (upd i f l) j = nth_error l j.
  Proof. revert i j. induction l as [|a l IH]; intros [|i] [|j] H; simpl; auto; try lia. Qed.
  Lemma upd_len A (l : list A) i (f : A -> A) : length (upd i f l) = length l.
  Proof. revert i. induction l as [|a l IH]; intros [|i]; simpl; auto. Qed.

  Lemma trials_spec : forall len s st st',
    trials bfgs quality x x0 n st (seq s len) = Ok st' ->
    length (s_alpha st') = length (s_alpha st) /\ length (s_eoptim st') = length (s_eoptim st) /\
    length (s_perf st') = length (s_perf st) /\
    (s_idx st' = if Nat.eqb len 0 then s_idx st else Some (nargmax (s_perf st'))) /\
    (forall i, i < s \/ s + len <= i ->
       nth_error (s_alpha st') i = nth_error (s_alpha st) i /\
       nth_error (s_eoptim st') i = nth_error (s_eoptim st) i /\
       nth_error (s_perf st') i = nth_error (s_perf st) i) /\
    (s + len <= length (s_alpha st) -> s + len <= length (s_eoptim st) -> s + len <= length (s_perf st) ->
     forall i, s <= i < s + len -> exists al e q, tried i al e q /\
       nth_error (s_alpha st') i = Some al /\ nth_error (s_eoptim st') i = Some e /\
       nth_error (s_perf st') i = Some q).
  Proof.
    induction len as [|len IH]; intros s st st' H; simpl in H.
    - injection H as <-. repeat split; auto; try lia. 
    - destruct (trial bfgs quality x x0 n st s) as [st1|e] eqn:T; [|discriminate].
      destruct (IH _ _ _ H) as (L1 & L2 & L3 & I & O & D).
      unfold trial in T. destruct (nth_error x0 s) as [g|] eqn:G; [|discriminate].
      destruct (bfgs g) as [al e] eqn:B. destruct (quality _) as [q|] eqn:Qq; [|discriminate].
      injection T as <-. cbn [s_alpha s_eoptim s_perf s_idx] in *. rewrite upd_len in *.
      split; auto. split; auto. split; auto. split.
      + destruct len; simpl in *; auto. injection H as <-. auto.
      + split.
        * intros i Hi. destruct (O i) as (O1 & O2 & O3); [lia|].
          rewrite O1, O2, O3, !nth_error_upd_other by lia. auto.
        * intros H1 H2 H3 i Hi. destruct (Nat.eq_dec i s) as [->|Hn]; [|apply D; rewrite ?upd_len; lia].
          destruct (O s) as (O1 & O2 & O3); [lia|]. exists al, e, q. split; [exists g; auto|].
          rewrite O1, O2, O3, !nth_error_upd_same by lia. auto.
  Qed.
End Loop.

Lemma numerical_spec bfgs quality x x0 n m tries st :
  numerical_solve bfgs quality x x0 n m tries = Ok st ->
  length (s_alpha st) = tries /\ length (s_eoptim st) = tries /\ length (s_perf st) = tries /\
  (s_idx st = if Nat.eqb tries 0 then None else Some (nargmax (s_perf st))) /\
  forall i, i < tries -> exists al e q, tried bfgs quality x x0 n i al e q /\
     nth_error (s_alpha st) i = Some al /\ nth_error (s_eoptim st) i = Some e /\ nth_error (s_perf st) i = Some q.
Proof.
  intro H. unfold numerical_solve in H. apply trials_spec in H.
  cbn [s_alpha s_eoptim s_perf s_idx] in H. rewrite !repeat_length in H.
  destruct H as (L1 & L2 & L3 & I & _ & D). repeat split; auto. intros i Hi. apply D; lia.
Qed.

(* ------------------------------------------------------------------ the objective *)
Lemma present_in l v : In v (present l) <-> In (Some v) l.
Proof.
  unfold present. rewrite in_flat_map. split.
  - intros ([q|] & H & E); simpl in E; [destruct E as [<-|[]]; auto|contradiction].
  - intro H. exists (Some v). simpl. auto.
Qed.
Lemma qsum_nonneg l : (forall v, In v l -> (0 <= v)%Q) -> (0 <= qsum l)%Q.
Proof.
  induction l as [|a l IH]; simpl; intro H; [lra|]. specialize (IH (fun v Hv => H v (or_intror Hv))).
  pose proof (H a (or_introl eq_refl)). lra.
Qed.
Lemma qsum_zero l : (forall v, In v l -> (0 <= v)%Q) -> ((qsum l == 0)%Q <-> forall v, In v l -> (v == 0)%Q).
Proof.
  induction l as [|a l IH]; simpl; intro H; [split; [intros _ v []|reflexivity]|].
  assert (Hl : forall v, In v l -> (0 <= v)%Q) by auto. specialize (IH Hl). pose proof (qsum_nonneg _ Hl) as P.
  pose proof (H a (or_introl eq_refl)) as Pa. split.
  - intros E v [<-|Hv]; [lra|]. apply IH; auto. lra.
  - intro Hz. rewrite (Hz a) by auto. rewrite (proj2 IH); [reflexivity|]. intros; auto.
Qed.
Lemma qlen_pos A (l : list A) : l <> [] -> (0 < qlen l)%Q.
Proof. destruct l; [congruence|]. intros _. unfold qlen. change 0%Q with (inject_Z 0). rewrite <- Zlt_Qlt. simpl. lia. Qed.
Lemma nanmean_none l : nanmean l = None <-> forall v, In v l -> v = None.
Proof.
  unfold nanmean. split.
  - intros H [v|] Hv; auto. apply present_in in Hv. destruct (present l); [contradiction|discriminate].
  - intro H. destruct (present l) as [|v t] eqn:E; auto. assert (X : In v (present l)) by (rewrite E; left; auto).
    apply present_in in X. apply H in X. discriminate.
Qed.
Lemma nanmean_some l e : (forall v, In (Some v) l -> (0 <= v)%Q) -> nanmean l = Some e ->
  (0 <= e)%Q /\ ((e == 0)%Q <-> forall v, In (Some v) l -> (v == 0)%Q).
Proof.
  intros H E. unfold nanmean in E. destruct (present l) as [|v0 t] eqn:P; [discriminate|].
  rewrite <- P in E. assert (E' : e = (qsum (present l) / qlen (present l))%Q) by congruence. subst e.
  assert (Hp : forall v, In v (present l) -> (0 <= v)%Q) by (intros v Hv; apply H, present_in, Hv).
  assert (L : (0 < qlen (present l))%Q) by (apply qlen_pos; rewrite P; discriminate).
  pose proof (qsum_nonneg _ Hp) as S. split.
  - apply Qle_shift_div_l; lra.
  - transitivity (qsum (present l) == 0)%Q.
    + split; intro X.
      * apply (Qmult_inj_r _ _ (/ qlen (present l))); [intro Y; apply Qinv_lt_0_compat in L; lra|].
        rewrite Qmult_0_l. exact X.
      * unfold Qdiv. rewrite X. ring.
    + rewrite qsum_zero by auto. split; intros X v Hv; apply X, present_in; auto.
Qed.

Fixpoint qdot (u v : list Q) : Q :=
  match u, v with a :: u', b :: v' => (a * b + qdot u' v')%Q | _, _ => 0%Q end.
Lemma dot_some u v : dot (map Some u) (map Some v) = Some (qdot u v).
Proof.
  revert v. induction u as [|a u IH]; intros [|b v]; auto. cbn [map dot qdot].
  assert (E : dot (map Some u) (map Some v) = Some (qdot u v)) by exact (IH v). rewrite E. reflexivity.
Qed.
Lemma dot_none u v : length v <= length u -> In None v -> dot u v = None.
Proof.
  revert v. induction u as [|a u IH]; intros [|b v] L H; simpl in *; try lia; try contradiction.
  destruct H as [->|H]; [destruct a; reflexivity|]. rewrite (IH v) by (auto; lia). destruct (nmul a b); auto.
Qed.
Lemma qdot_sum f fs n : length fs = n -> 
  (qdot (map f (seq 0 n)) fs == qsum (map (fun j => f j * nth j fs 0) (seq 0 n)))%Q.
Proof.
  revert f n. induction fs as [|a fs IH]; intros f n L; simpl in L; subst; [reflexivity|].
  simpl. rewrite <- seq_shift, !map_map. rewrite (IH (fun j => f (S j)) (length fs)) by auto. reflexivity.
Qed.
Lemma qsum_comb (u w : Q) p q x (l : list nat) :
  (qsum (map (fun j => (u * p j + (w * q j + 0)) * x j) l) ==
   u * qsum (map (fun j => p j * x j) l) + w * qsum (map (fun j => q j * x j) l))%Q.
Proof. induction l as [|j l IH]; simpl; [ring|]. rewrite IH. ring. Qed.
Lemma nth_map_some (l : list Q) i : i < length l -> nth i (map Some l) None = Some (nth i l 0%Q).
Proof. revert i. induction l; intros [|i] H; simpl in *; try lia; auto. apply IHl. lia. Qed.

Definition combo (a : list Q) n k j : Q :=
  (nth (2 * n + (2 * k + 0)) a 0 * nth (0 * n + j) a 0 + (nth (2 * n + (2 * k + 1)) a 0 * nth (1 * n + j) a 0 + 0))%Q.
Lemma ba_row a n m k : length a = 2 * n + 2 * m -> k < m ->
  nth k (matmul (reshape m 2 (skipn (2 * n) (map Some a))) (reshape 2 n (firstn (2 * n) (map Some a))) n) [] =
  map Some (map (combo a n k) (seq 0 n)).
Proof.
  intros L Hk. unfold matmul.
  assert (Lm : length (map (@Some Q) a) = 2 * n + 2 * m) by (rewrite map_length; auto).
  rewrite (nth_indep _ [] (map (fun j => dot [] (column None (reshape 2 n (firstn (2 * n) (map (@Some Q) a))) j)) (seq 0 n)))
    by (rewrite map_length, reshape_length; auto).
  rewrite (map_nth (fun r => map (fun j => dot r (column None (reshape 2 n (firstn (2 * n) (map (@Some Q) a))) j)) (seq 0 n))).
  rewrite map_map. apply map_ext_in. intros j Hj. apply in_seq in Hj.
  rewrite (@dot_nsum _ _ 2).
  - unfold nsum. cbn [seq map fold_right]. unfold column.
    rewrite !reshape_nth by lia. rewrite !skipn_nth.
    cbn [reshape map nth]. rewrite !firstn_nth by lia. rewrite skipn_nth, firstn_nth by lia.
    rewrite !nth_map_some by lia. cbn [nmul nadd]. unfold combo.
    repeat match goal with |- context [nth ?i a 0%Q] => let i' := eval simpl in i in progress change i with i' end.
    do 2 f_equal; [do 2 f_equal; lia|]. f_equal. f_equal; f_equal; lia.
  - rewrite reshape_row_length; auto. rewrite skipn_length. lia.
  - unfold column. rewrite map_length, reshape_length. auto.
Qed.
Lemma list_eq_nth A (d : A) l1 l2 : length l1 = length l2 -> (forall i, i < length l1 -> nth i l1 d = nth i l2 d) -> l1 = l2.
Proof.
  revert l2. induction l1 as [|a l1 IH]; intros [|b l2] L H; simpl in *; try lia; auto. f_equal.
  - exact (H 0 ltac:(lia)).
  - apply IH; [lia|]. intros i Hi. exact (H (S i) ltac:(lia)).
Qed.
Definition preds (a : list Q) n m fs : list Q := map (fun k => qdot (map (combo a n k) (seq 0 n)) fs) (seq 0 m).
Lemma preds_nth a n m fs k : length fs = n -> k < m -> (nth k (preds a n m fs) 0 == predicted a n k fs)%Q.
Proof.
  intros L Hk. unfold preds.
  rewrite (nth_indep _ 0%Q (qdot (map (combo a n 0) (seq 0 n)) fs)) by (rewrite map_length, seq_length; auto).
  rewrite (map_nth (fun k => qdot (map (combo a n k) (seq 0 n)) fs)), seq_nth by auto. cbn [plus].
  rewrite qdot_sum by auto. unfold combo. rewrite qsum_comb. reflexivity.
Qed.
Lemma approx_row a n m fs : length a = 2 * n + 2 * m -> length fs = n ->
  mulv (matmul (reshape m 2 (skipn (2 * n) (map Some a))) (reshape 2 n (firstn (2 * n) (map Some a))) n) (map Some fs)
  = map Some (preds a n m fs).
Proof.
  intros L Lf. unfold mulv, preds. rewrite map_map.
  set (ba := matmul _ _ n).
  assert (Lb : length ba = m) by (unfold ba, matmul; rewrite map_length, reshape_length; auto).
  apply (@list_eq_nth _ None); [rewrite !map_length, seq_length; auto|].
  intros i Hi. rewrite map_length, Lb in Hi.
  rewrite (nth_indep _ None (dot [] (map Some fs))) by (rewrite map_length; lia).
  rewrite (map_nth (fun r => dot r (map Some fs))). unfold ba. rewrite ba_row by auto.
  rewrite dot_some. erewrite nth_error_nth; [reflexivity|]. rewrite nth_error_map.
  rewrite (nth_error_nth' (seq 0 m) 0), seq_nth by (rewrite ?seq_length; auto). reflexivity.
Qed.
Lemma nsq_nonneg l v : In (Some v) (map nsq l) -> (0 <= v)%Q.
Proof. intro H. apply in_map_iff in H. destruct H as ([q|] & E & _); [|discriminate]. injection E as <-. nra. Qed.
Lemma sq_zero row ps : length row = length ps ->
  ((forall v, In (Some v) (map nsq (vsub row (map Some ps))) -> (v == 0)%Q) <->
   forall k v, nth_error row k = Some (Some v) -> (v == nth k ps 0)%Q).
Proof.
  revert ps. induction row as [|r row IH]; intros [|p ps] L; simpl in L; try lia.
  - split; [intros _ [|k] v H; discriminate|intros _ v []].
  - injection L as L. specialize (IH ps L). cbn [map vsub]. split.
    + intros H [|k] v E.
      * injection E as ->. specialize (H ((v - p) * (v - p))%Q (or_introl eq_refl)).
        simpl. assert (X : (v - p == 0)%Q) by (destruct (Qmult_integral _ _ H); auto). lra.
      * apply (proj1 IH); auto. intros w Hw. apply H. right. exact Hw.
    + intros H v [E|Hv].
      * destruct r as [r|]; [|discriminate]. injection E as <-. pose proof (H 0 r eq_refl) as X. simpl in X.
        rewrite X. ring.
      * apply (proj2 IH); auto. intros k w Hk. exact (H (S k) w Hk).
Qed.
Definition row_error (al : list num) n m row : num :=
  nanmean (map nsq (vsub row (mulv (matmul (reshape m 2 (skipn (2 * n) al)) (reshape 2 n (firstn (2 * n) al)) n) (firstn n row)))).
Lemma vsub_none u v w : In w (vsub u v) -> (forall y, In y v -> y = None) -> w = None.
Proof.
  revert v. induction u as [|a u IH]; intros [|b v] H Hv; simpl in H; try contradiction.
  destruct H as [<-|H]; [rewrite (Hv b (or_introl eq_refl)); destruct a; auto|]. apply (IH v); auto. intros y Hy. apply Hv. right. auto.
Qed.
Lemma row_error_missing al n m row : length al = 2 * n + 2 * m -> misses_a_feature n row -> row_error al n m row = None.
Proof.
  intros L H. apply nanmean_none. intros v Hv. apply in_map_iff in Hv. destruct Hv as (w & <- & Hw).
  rewrite (vsub_none _ _ _ Hw); auto. intros y Hy. unfold mulv in Hy. apply in_map_iff in Hy. destruct Hy as (r & <- & Hr).
  apply dot_none; auto. unfold matmul in Hr. apply in_map_iff in Hr. destruct Hr as (r' & <- & _).
  rewrite map_length, seq_length, firstn_length. lia.
Qed.
Lemma row_error_complete a n m row fs : length a = 2 * n + 2 * m -> length row = m -> 0 < n <= m -> complete n row fs ->
  exists e, row_error (map Some a) n m row = Some e /\ (0 <= e)%Q /\
    ((e == 0)%Q <-> forall k v, nth_error row k = Some (Some v) -> (v == predicted a n k fs)%Q).
Proof.
  intros L Lr Hn C. unfold complete in C.
  assert (Lf : length fs = n). { apply (f_equal (@length _)) in C. rewrite firstn_length, map_length in C. lia. }
  unfold row_error.
  assert (Lp : length (preds a n m fs) = m) by (unfold preds; rewrite map_length, seq_length; auto).
  rewrite C, approx_row by auto.
  destruct (nanmean _) as [e|] eqn:E.
  - exists e. split; auto. apply nanmean_some in E; [|intros v Hv; exact (nsq_nonneg _ _ Hv)]. destruct E as [E1 E2]. split; auto.
    rewrite E2. rewrite sq_zero by lia. split; intros H k v Hk; specialize (H k v Hk).
    + rewrite H. apply preds_nth; auto. assert (k < length row) by (apply nth_error_Some; congruence); lia.
    + rewrite H. symmetry. apply preds_nth; auto. assert (k < length row) by (apply nth_error_Some; congruence); lia.
  - exfalso. rewrite nanmean_none in E. destruct fs as [|f fs]; [simpl in Lf; lia|].
    destruct row as [|r row]; [simpl in Lr; lia|]. destruct n as [|n]; [lia|]. cbn [firstn map] in C. injection C as -> _.
    destruct (preds a (S n) m (f :: fs)) as [|p ps]; [simpl in Lp; lia|].
    specialize (E (Some ((f - p) * (f - p))%Q) (or_introl eq_refl)). discriminate.
Qed.
Lemma complete_or_missing n row : misses_a_feature n row \/ exists fs, complete n row fs.
Proof.
  unfold misses_a_feature, complete. induction (firstn n row) as [|[q|] l IH].
  - right. exists []. auto.
  - destruct IH as [H|[fs ->]]; [left; right; auto|]. right. exists (q :: fs). auto.
  - left. left. auto.
Qed.
Lemma complete_not_missing n row fs : complete n row fs -> ~ misses_a_feature n row.
Proof. unfold complete, misses_a_feature. intros ->. intro H. apply in_map_iff in H. destruct H as (? & ? & _). discriminate. Qed.
Lemma objective_spec a x_bar n m : 0 < n <= m -> length a = 2 * n + 2 * m -> Forall (fun r => length r = m) x_bar ->
  (error_function (map Some a) x_bar n m = None <-> forall row, In row x_bar -> misses_a_feature n row) /\
  (forall e, error_function (map Some a) x_bar n m = Some e ->
     (0 <= e)%Q /\
     ((e == 0)%Q <-> forall row fs, In row x_bar -> complete n row fs ->
        forall k v, nth_error row k = Some (Some v) -> (v == predicted a n k fs)%Q)).
Proof.
  intros Hn La Hx. rewrite Forall_forall in Hx.
  assert (F : error_function (map Some a) x_bar n m = nanmean (map (row_error (map Some a) n m) x_bar)) by reflexivity.
  assert (Lm : length (map (@Some Q) a) = 2 * n + 2 * m) by (rewrite map_length; auto).
  rewrite F. split.
  - rewrite nanmean_none. split.
    + intros H row Hr. destruct (complete_or_missing n row) as [?|[fs C]]; auto. exfalso.
      destruct (@row_error_complete a n m row fs La (Hx _ Hr) Hn C) as (e & E & _).
      assert (X : row_error (map Some a) n m row = None) by (apply H; apply in_map; auto). congruence.
    + intros H v Hv. apply in_map_iff in Hv. destruct Hv as (row & <- & Hr). apply row_error_missing; auto.
  - intros e E. apply nanmean_some in E.
    + destruct E as [E1 E2]. split; auto. rewrite E2. split.
      * intros H row fs Hr C. destruct (@row_error_complete a n m row fs La (Hx _ Hr) Hn C) as (e' & E' & _ & Z).
        apply Z. apply H. rewrite <- E'. apply in_map. auto.
      * intros H v Hv. apply in_map_iff in Hv. destruct Hv as (row & Ev & Hr).
        destruct (complete_or_missing n row) as [M|[fs C]].
        -- pose proof (@row_error_missing (map Some a) n m row Lm M). congruence.
        -- destruct (@row_error_complete a n m row fs La (Hx _ Hr) Hn C) as (e' & E' & _ & Z).
           assert (X : e' = v) by congruence. subst e'. apply Z. intros k w Hk. exact (H row fs Hr C k w Hk).
    + intros v Hv. apply in_map_iff in Hv. destruct Hv as (row & Ev & Hr).
      destruct (complete_or_missing n row) as [M|[fs C]].
      * pose proof (@row_error_missing (map Some a) n m row Lm M). congruence.
      * destruct (@row_error_complete a n m row fs La (Hx _ Hr) Hn C) as (e' & E' & P & _). congruence.
Qed.

(* ------------------------------------------------------------------ the whole stage *)
Lemma pilot_ok bfgs quality f16 random x y n na labels o out :
  pilot bfgs quality f16 random x y n na labels o = Ok out ->
  let m := n + na in
  let starts := match p_x0 o with Some s => s | None => random (2 * m + 2 * n) (p_tries o) end in
  length x = length y /\ precalculated o n m = false /\ length labels = n /\ po_x0 out = starts /\
  length (po_perf out) = p_tries o /\ length (po_eoptim out) = p_tries o /\ 0 < p_tries o /\
  exists sols : list (list num), length sols = p_tries o /\
    (forall i, i < p_tries o -> exists al e q, tried bfgs quality x starts n i al e q /\
       nth_error sols i = Some al /\ nth_error (po_eoptim out) i = Some e /\ nth_error (po_perf out) i = Some q) /\
    let idx := nargmax (po_perf out) in
    idx < p_tries o /\ 
    let best := map f16 (nth idx sols []) in
    let b := reshape m 2 (skipn (2 * n) best) in
    po_alpha out = map (map f16) (map (map f16) sols) /\
    po_a out = reshape 2 n (firstn (2 * n) best) /\ po_z out = map (mulv (po_a out)) x /\
    po_b out = firstn n b /\ po_c out = transpose None (firstn (m - (n + 1)) (skipn (n + 1) b)) 2 /\
    po_error out = nsum (map (fun rr => nsum (map nsq (vsub (fst rr) (snd rr)))) (combine (hcat x y) (map (mulv b) (po_z out)))) /\
    po_r2 out = map (fun r => nsq (self_corr r)) (hcat x y ++ map (mulv b) (po_z out)) /\
    po_summary out = (labels, combine ["Z_{1}"; "Z_{2}"]%string (po_a out)).
Proof.
  intro H. unfold pilot in H. cbv zeta in H.
  destruct (Nat.eqb (length x) (length y)) eqn:Ex; simpl negb in H; cbv iota in H; [|discriminate]. apply Nat.eqb_eq in Ex.
  destruct (precalculated o n (n + na)) eqn:Ep; [discriminate|].
  destruct (numerical_solve _ _ _ _ _ _ _) as [st|] eqn:En; [|discriminate].
  destruct (numerical_spec _ _ _ _ _ _ _ En) as (L1 & L2 & L3 & I & D).
  destruct (s_idx st) as [idx|] eqn:Ei; [|discriminate].
  destruct (Nat.eqb (length labels) n) eqn:El; simpl negb in H; cbv iota in H; [|discriminate]. apply Nat.eqb_eq in El.
  destruct (Nat.eqb (p_tries o) 0) eqn:Et; [discriminate|]. apply Nat.eqb_neq in Et. injection I as ->.
  injection H as <-. cbv zeta. cbn [po_x0 po_perf po_eoptim po_alpha po_a po_z po_b po_c po_error po_r2 po_summary].
  split; auto. split; auto. split; auto. split; auto. split; auto. split; auto. split; [lia|].
  exists (s_alpha st). split; auto. split; auto.
  assert (K : nargmax (s_perf st) < p_tries o).
  { rewrite <- L3. apply nargmax_spec. intro X. rewrite X in L3. simpl in L3. lia. }
  split; auto.
  assert (Eb : nth (nargmax (s_perf st)) (map (map f16) (s_alpha st)) [] = map f16 (nth (nargmax (s_perf st)) (s_alpha st) [])).
  { change (@nil num) with (map f16 []) at 1. apply map_nth. }
  rewrite Eb. repeat split; auto.
Qed.
Lemma column_nth A (d : A) m j k : k < length m -> nth k (column d m j) d = nth j (nth k m []) d.
Proof. revert k. induction m as [|r m IH]; intros [|k] H; simpl in *; try lia; auto. apply IH. lia. Qed.

(** When the correlation of a list of values with itself is present. *)
Lemma nsum_some l : exists s, nsum (map Some l) = Some s /\ s = fold_right Qplus 0%Q l.
Proof. exists (fold_right Qplus 0%Q l). split; auto. unfold nsum. induction l as [|a l IH]; simpl; auto. rewrite IH. reflexivity. Qed.
Lemma nsum_missing l : In None l -> nsum l = None.
Proof.
  unfold nsum. induction l as [|a l IH]; simpl; [tauto|]. intros [->|H]; [reflexivity|]. rewrite IH by auto. destruct a; reflexivity.
Qed.
Lemma square_nonneg (q : Q) : (0 <= q * q)%Q.
Proof. unfold Qle, Qmult. simpl. nia. Qed.
Lemma squares_zero m l : (fold_right Qplus 0 (map (fun v => (v - m) * (v - m)) l) == 0 <-> forall v, In v l -> v == m)%Q.
Proof.
  assert (N : forall l, (0 <= fold_right Qplus 0 (map (fun v => (v - m) * (v - m)) l))%Q).
  { induction l0; simpl; [lra|]. pose proof (square_nonneg (a - m)). lra. }
  induction l as [|a l IH]; simpl; [split; [tauto|reflexivity]|]. pose proof (N l). pose proof (square_nonneg (a - m)). split.
  - intros E v [<-|Hv]; [|apply IH; auto; lra].
    assert (Z : ((a - m) * (a - m) == 0)%Q) by lra. apply Qmult_integral in Z. destruct Z; lra.
  - intros H1. rewrite (proj2 IH) by auto. rewrite (H1 a) by auto. ring.
Qed.
Lemma sum_constant c l : (forall v, In v l -> (v == c)%Q) -> (fold_right Qplus 0 l == qlen l * c)%Q.
Proof.
  intros H. unfold qlen. induction l as [|a l IH]; [simpl; ring|]. cbn [fold_right length].
  rewrite Nat2Z.inj_succ. unfold Z.succ. rewrite inject_Z_plus. change (inject_Z 1) with 1%Q.
  assert (A1 : (a == c)%Q) by (apply H; simpl; auto). assert (A2 : (fold_right Qplus 0 l == inject_Z (Z.of_nat (length l)) * c)%Q) by (apply IH; intros; apply H; simpl; auto).
  rewrite A1, A2. ring.
Qed.
Lemma self_corr_present r : self_corr r <> None <-> ~ In None r /\ exists u v, In (Some u) r /\ In (Some v) r /\ ~ (u == v)%Q.
Proof.
  assert (C : In None r \/ exists l, r = map Some l).
  { clear. induction r as [|[a|] r IH]; [right; exists []; auto| |left; simpl; auto].
    destruct IH as [H|(l & ->)]; [left; simpl; auto|]. right. exists (a :: l). auto. }
  unfold self_corr, variance, nmean. destruct C as [C|(l & ->)].
  { rewrite nsum_missing by auto. destruct r; (split; [congruence|tauto]). }
  destruct l as [|a t] eqn:El.
  { simpl. split; [congruence|]. intros (_ & u & v & [] & _). }
  rewrite <- El in *. assert (E : map Some l <> []) by (rewrite El; discriminate).
  destruct (map Some l) as [|h rest] eqn:Em; [congruence|]. rewrite <- Em in *. clear h rest Em E.
  destruct (nsum_some l) as (s & -> & Es). match goal with |- context [nsub _ (Some ?m)] => set (mu := m) end.
  assert (Sq : map (fun v => nsq (nsub v (Some mu))) (map Some l) = map Some (map (fun v => (v - mu) * (v - mu))%Q l)) by (rewrite !map_map; reflexivity).
  match goal with |- context [nsum ?z] => replace z with (map Some (map (fun v => (v - mu) * (v - mu))%Q l)) by (symmetry; exact Sq) end.
  destruct (nsum_some (map (fun v => (v - mu) * (v - mu))%Q l)) as (w & -> & Ew). rewrite map_length.
  assert (NN : ~ In None (map Some l)) by (intro X; apply in_map_iff in X; destruct X as (? & ? & _); discriminate).
  assert (Inl : forall v, In (Some v) (map Some l) <-> In v l).
  { intro v. rewrite in_map_iff. split; [intros (b & X & Y); injection X as <-; auto|eauto]. }
  destruct (Nat.leb_spec (length l) 1) as [L|L].
  { split; [congruence|]. intros (_ & u & v & Hu & Hv & D). apply Inl in Hu, Hv. subst l. destruct t; [|simpl in L; lia].
    exfalso. apply D. destruct Hu as [<-|[]], Hv as [<-|[]]. reflexivity. }
  assert (Pl : (0 < qlen (map Some l) - 1)%Q).
  { unfold qlen. rewrite map_length. apply Zlt_le_succ in L || idtac.
    assert (X : (1 < Z.of_nat (length l))%Z) by lia. rewrite Zlt_Qlt in X. change (inject_Z 1) with 1%Q in X. lra. }
  assert (Z : (w / (qlen (map Some l) - 1) == 0 <-> w == 0)%Q).
  { split; intro H.
    - assert (w == w / (qlen (map Some l) - 1) * (qlen (map Some l) - 1))%Q as -> by (field; lra). rewrite H. ring.
    - rewrite H. field. lra. }
  assert (W : (w == 0 <-> forall v, In v l -> v == mu)%Q) by (rewrite Ew; apply squares_zero).
  destruct (Qeq_bool _ 0) eqn:B.
  - apply Qeq_bool_iff in B. apply Z in B. rewrite W in B. split; [congruence|]. intros (_ & u & v & Hu & Hv & D).
    exfalso. apply D. apply Inl in Hu, Hv. rewrite (B u), (B v) by auto. reflexivity.
  - apply Qeq_bool_neq in B. split; [|discriminate]. intros _. split; auto.
    destruct (existsb (fun v => negb (Qeq_bool v a)) l) eqn:X.
    + apply existsb_exists in X. destruct X as (v & Hv & D). exists v, a. rewrite !Inl. split; auto. split; [subst l; simpl; auto|].
      intro Q. apply Qeq_bool_iff in Q. rewrite Q in D. discriminate.
    + exfalso. apply B, Z, W. assert (Eq : forall v, In v l -> (v == a)%Q).
      { intros v Hv. apply Qeq_bool_iff. destruct (Qeq_bool v a) eqn:Y; auto. exfalso.
        assert (existsb (fun v => negb (Qeq_bool v a)) l = true) by (apply existsb_exists; exists v; rewrite Y; auto). congruence. }
      intros v Hv. rewrite (Eq v Hv). unfold mu. rewrite Es, (sum_constant _ Eq). unfold qlen in *. rewrite map_length in *. field. lra.
Qed.
