(** Lemmas about the serialiser model. *)
From Coq Require Import Lqa Qround DecimalString DecimalNat.
From Verif Require Import BaseLemmas Mat PreprocSpec CloisterModel PilotProofs CloisterProofs SerialModel SerialSpec.
Set Implicit Arguments.
Open Scope nat_scope.
Open Scope list_scope.

(* ------------------------------------------------------------------ strings *)
Lemma length_append a b : String.length (append a b) = String.length a + String.length b.
Proof. induction a; simpl; auto. Qed.
Lemma append_inj_l a b c : append a b = append a c -> b = c.
Proof. induction a; simpl; auto. intro H. injection H. auto. Qed.
Lemma append_inj a b c d : String.length b = String.length d -> append a b = append c d -> a = c /\ b = d.
Proof.
  revert c. induction a as [|x a IH]; intros [|y c] L H; simpl in *.
  - auto.
  - exfalso. subst b. simpl in L. rewrite length_append in L. lia.
  - exfalso. subst d. simpl in L. rewrite length_append in L. lia.
  - injection H as -> H. destruct (IH _ L H) as [-> ->]. auto.
Qed.
Lemma append_inj_r a c s : append a s = append c s -> a = c.
Proof. intro H. apply append_inj in H; tauto. Qed.
Lemma decimal_inj a b : decimal a = decimal b -> a = b.
Proof.
  intro H. unfold decimal in H. apply (f_equal NilEmpty.uint_of_string) in H. rewrite !NilEmpty.usu in H. injection H as H.
  apply (f_equal Nat.of_uint) in H. rewrite !Unsigned.of_to in H. auto.
Qed.
Lemma bind_labels_length n : length (make_bind_labels n) = n.
Proof. unfold make_bind_labels. rewrite map_length, seq_length. auto. Qed.
Lemma bind_labels_nodup n : NoDup (make_bind_labels n).
Proof.
  unfold make_bind_labels. apply FinFun.Injective_map_NoDup; [|apply seq_NoDup].
  intros a b H. apply append_inj_l in H. apply decimal_inj in H. lia.
Qed.

(* ------------------------------------------------------------------ writing *)
(** the last write of a file *)
Fixpoint last_write (l : list write) (f : string) : option table :=
  match l with
  | [] => None
  | w :: r => match last_write r f with
              | Some t => Some t
              | None => match w with Ok (n, t) => if String.eqb f n then Some t else None | Err _ => None end
              end
  end.
Definition written (can_write : string -> bool) (w : write) : Prop := exists n t, w = Ok (n, t) /\ can_write n = true.
Definition after (l : list write) (d : directory) : directory := fun f => match last_write l f with Some t => Some t | None => d f end.

Lemma last_write_app a b f : last_write (a ++ b) f = match last_write b f with Some t => Some t | None => last_write a f end.
Proof. induction a as [|w a IH]; simpl; [destruct (last_write b f); auto|]. rewrite IH. destruct (last_write b f); auto. Qed.
Lemma last_write_in l f t : last_write l f = Some t -> In (Ok (f, t)) l.
Proof.
  induction l as [|w l IH]; simpl; [discriminate|]. destruct (last_write l f) as [u|].
  - intro H. right. auto.
  - destruct w as [[n u]|e]; [|discriminate]. destruct (String.eqb_spec f n) as [->|]; [|discriminate]. intro H. injection H as ->. left; auto.
Qed.
Lemma last_write_none l f : last_write l f = None <-> forall t, ~ In (Ok (f, t)) l.
Proof.
  induction l as [|w l IH]; simpl.
  - split; auto.
  - destruct (last_write l f) as [u|] eqn:E.
    + split; [discriminate|]. intro H. exfalso. apply (H u). right. apply last_write_in; auto.
    + pose proof (proj1 IH eq_refl) as IH'. split.
      * intros H t [X|X]; [|eapply IH'; eauto]. subst w. rewrite String.eqb_refl in H. discriminate.
      * intro H. destruct w as [[n u]|e]; auto. destruct (String.eqb_spec f n) as [->|]; auto. exfalso. apply (H u). auto.
Qed.
(** a file written once holds what was written *)
Lemma last_write_unique l f t : In (Ok (f, t)) l -> (forall u, In (Ok (f, u)) l -> u = t) -> last_write l f = Some t.
Proof.
  intros H U. destruct (last_write l f) as [u|] eqn:E.
  - rewrite (U u); auto. apply last_write_in; auto.
  - exfalso. apply (proj1 (last_write_none l f) E t). auto.
Qed.
Section Perform.
  Variable can_write : string -> bool.
  Lemma perform_app a b d : perform can_write (a ++ b) d =
    match perform can_write a d with (d', None) => perform can_write b d' | r => r end.
  Proof.
    revert d. induction a as [|[[n t]|e] a IH]; intro d; simpl; auto. destruct (can_write n); auto.
  Qed.
  Lemma perform_ok l d d' : perform can_write l d = (d', None) ->
    (forall w, In w l -> written can_write w) /\ forall f, d' f = after l d f.
  Proof.
    revert d. induction l as [|w l IH]; intros d H.
    - simpl in H. injection H as <-. split; [intros w []|]. auto.
    - simpl in H. destruct w as [[n t]|e]; [|discriminate]. destruct (can_write n) eqn:C; [|discriminate].
      destruct (IH _ H) as [A B]. split.
      + intros w [<-|Hw]; auto. exists n, t. auto.
      + intro f. rewrite B. unfold after, put. simpl. destruct (last_write l f); auto. destruct (String.eqb f n); auto.
  Qed.
  Lemma perform_all l d : (forall w, In w l -> written can_write w) -> exists d', perform can_write l d = (d', None).
  Proof.
    revert d. induction l as [|w l IH]; intros d H; [eexists; reflexivity|].
    destruct (H w (or_introl eq_refl)) as (n & t & -> & C). simpl. rewrite C. apply IH. intros; apply H; right; auto.
  Qed.
  Lemma perform_fails l d d' e : perform can_write l d = (d', Some e) ->
    exists a w b, l = a ++ w :: b /\ perform can_write a d = (d', None) /\
      (w = Err e \/ exists n t, w = Ok (n, t) /\ can_write n = false /\ e = EWrite).
  Proof.
    revert d. induction l as [|w l IH]; intros d H; [discriminate|]. simpl in H.
    destruct w as [[n t]|e']; [destruct (can_write n) eqn:C|].
    - destruct (IH _ H) as (a & w & b & -> & P & W). exists (Ok (n, t) :: a), w, b. simpl. rewrite C. auto.
    - injection H as <- <-. exists [], (Ok (n, t)), l. simpl. split; auto. split; auto. right. eauto.
    - injection H as <- <-. exists [], (Err e'), l. auto.
  Qed.
End Perform.

(* ------------------------------------------------------------------ data frames *)
Lemma frame_inv data cols labels f w : frame data cols labels f = Ok w ->
  length data = length labels /\ (forall r, In r data -> length r = length cols) /\ fst w = f /\
  forall g, (forall i j, i < length labels -> j < length cols -> nth j (nth i data []) (CNum None) = g i j) -> shows (snd w) cols labels g.
Proof.
  unfold frame. destruct (Nat.eqb_spec (length data) (length labels)) as [L|]; [|discriminate]. simpl.
  destruct (forallb _ data) eqn:F; [|discriminate]. intro H. injection H as <-. rewrite forallb_forall in F.
  assert (R : forall r, In r data -> length r = length cols) by (intros r Hr; apply Nat.eqb_eq; auto).
  split; auto. split; auto. split; auto. intros g G. unfold shows. cbn [snd header rows]. split; auto.
  split; [rewrite map_length, combine_length; lia|]. intros i l Hl.
  assert (Hi : i < length labels) by (apply nth_error_Some; congruence).
  rewrite nth_error_map. assert (E : nth_error (combine labels data) i = Some (l, nth i data [])).
  { rewrite (nth_error_nth' (combine labels data) (l, [])) by (rewrite combine_length; lia).
    rewrite combine_nth by auto. f_equal. f_equal. rewrite (nth_error_nth labels i l Hl). auto. }
  rewrite E. simpl. do 2 f_equal. assert (Ld : length (nth i data []) = length cols) by (apply R; apply nth_In; lia).
  apply (@list_eq_nth _ (CNum None)); [rewrite map_length, seq_length; auto|]. rewrite Ld. intros j Hj.
  rewrite G by auto. rewrite (nth_indep (map (g i) (seq 0 (length cols))) (CNum None) (g i 0)) by (rewrite map_length, seq_length; auto).
  rewrite map_nth, seq_nth by auto. auto.
Qed.
Lemma frame_ok data cols labels f : (exists w, frame data cols labels f = Ok w) <->
  length data = length labels /\ forall r, In r data -> length r = length cols.
Proof.
  split.
  - intros [w H]. apply frame_inv in H. tauto.
  - intros [L R]. unfold frame. rewrite (proj2 (Nat.eqb_eq _ _) L). simpl.
    rewrite (proj2 (forallb_forall _ data)); [eauto|]. intros r Hr. apply Nat.eqb_eq. auto.
Qed.
Lemma nth_nums m i j : nth j (nth i (nums m) []) (CNum None) = CNum (cell m i j).
Proof.
  unfold nums, cell. change (@nil entry) with (map CNum []). rewrite map_nth. apply map_nth.
Qed.
Lemma nth_bools m i j : i < length m -> j < length (nth i m []) -> nth j (nth i (bools m) []) (CNum None) = CBool (bit m i j).
Proof.
  intros _ Hj. unfold bools, bit. change (@nil entry) with (map CBool []). rewrite map_nth.
  rewrite (nth_indep _ _ (CBool false)) by (rewrite map_length; auto). apply map_nth.
Qed.
Lemma nth_one A (f : A -> entry) l i d j : i < length l -> j < 1 -> nth j (nth i (one f l) []) (CNum None) = f (nth i l d).
Proof.
  intros Hi Hj. unfold one. rewrite (nth_indep _ [] [f d]) by (rewrite map_length; auto).
  rewrite (map_nth (fun v => [f v])). destruct j; [auto|lia].
Qed.
Lemma nth_coordinates z i j : i < length z -> j < 2 -> nth j (nth i (coordinates z) []) (CNum None) = CNum (coord z i j).
Proof.
  intros Hi Hj. unfold coordinates, coord.
  rewrite (nth_indep _ [] ((fun p : num * num => [CNum (fst p); CNum (snd p)]) (None, None))) by (rewrite map_length; auto).
  rewrite (map_nth (fun p : num * num => [CNum (fst p); CNum (snd p)])). destruct j as [|[|]]; [auto|auto|lia].
Qed.
Lemma coordinates_fits z : length (coordinates z) = length z /\ forall r, In r (coordinates z) -> length r = 2.
Proof. unfold coordinates. split; [apply map_length|]. intros r Hr. apply in_map_iff in Hr. destruct Hr as (p & <- & _). auto. Qed.

(** the coordinates of a polygon are always written *)
Lemma frame_points z f : exists t, frame (coordinates z) ["z_1"; "z_2"]%string (make_bind_labels (length z)) f = Ok (f, t) /\
  shows t ["z_1"; "z_2"]%string (make_bind_labels (length z)) (fun i j => CNum (coord z i j)).
Proof.
  destruct (coordinates_fits z) as [L R].
  destruct (proj2 (frame_ok (coordinates z) ["z_1"; "z_2"]%string (make_bind_labels (length z)) f)) as [[n t] H].
  { rewrite bind_labels_length. split; auto. }
  pose proof (frame_inv _ _ _ _ H) as (_ & _ & N & S). simpl in N. subst n. exists t. split; auto. apply (S (fun i j => CNum (coord z i j))).
  rewrite bind_labels_length. intros i j Hi Hj. apply nth_coordinates; auto.
Qed.

(* ------------------------------------------------------------------ the files of save_to_csv *)
Definition data_names : list string :=
  ["coordinates.csv"; "bounds.csv"; "bounds_prunned.csv"; "feature_raw.csv"; "feature_process.csv"; "algorithm_raw.csv";
   "algorithm_process.csv"; "algorithm_bin.csv"; "good_algos.csv"; "beta_easy.csv"; "portfolio.csv"; "algorithm_svm.csv";
   "portfolio_svm.csv"; "footprint_performance.csv"; "projection_matrix.csv"; "svm_table.csv"]%string.
Lemma data_names_nodup : NoDup data_names.
Proof. unfold data_names. repeat constructor; simpl; intuition discriminate. Qed.
Definition named (w : write) (n : string) : Prop := forall k t, w = Ok (k, t) -> k = n.
Lemma frame_named data cols labels f : named (frame data cols labels f) f.
Proof. intros k t H. apply frame_inv in H. tauto. Qed.
Lemma bounds_ok z f w : bounds_frame z f = Ok w ->
  z <> [] /\ frame (coordinates z) ["z_1"; "z_2"]%string (make_bind_labels (length z)) f = Ok w.
Proof. destruct z; [discriminate|]. split; [discriminate|auto]. Qed.
Lemma bounds_named z f : named (bounds_frame z f) f.
Proof. intros k t H. apply bounds_ok in H. eapply frame_named. apply H. Qed.
Lemma data_writes_named m : Forall2 named (data_writes m) data_names.
Proof.
  unfold data_writes, data_names.
  repeat (apply Forall2_cons; [solve [apply frame_named | apply bounds_named | intros k t H; injection H; auto |
    destruct (take _ _ _); [apply frame_named|intros k t H; discriminate] |
    destruct (iloc _ _); [intros k t H; injection H; auto|intros k t H; discriminate]]|]).
  apply Forall2_nil.
Qed.
Lemma Forall2_nth A B (P : A -> B -> Prop) l l' i x : Forall2 P l l' -> nth_error l i = Some x -> exists y, nth_error l' i = Some y /\ P x y.
Proof.
  intro H. revert i. induction H as [|a b l l' P0 F IH]; intros [|i] E; try discriminate; simpl in *.
  - injection E as <-. eauto.
  - eauto.
Qed.
Lemma data_writes_unique m f t u : In (Ok (f, t)) (data_writes m) -> In (Ok (f, u)) (data_writes m) -> u = t.
Proof.
  intros A B. apply In_nth_error in A. destruct A as [i A]. apply In_nth_error in B. destruct B as [k B].
  destruct (Forall2_nth _ (data_writes_named m) A) as (n & An & N1). destruct (Forall2_nth _ (data_writes_named m) B) as (n' & Bn & N2).
  specialize (N1 _ _ eq_refl). specialize (N2 _ _ eq_refl). subst n n'.
  assert (i = k) by (eapply (proj1 (NoDup_nth_error data_names) data_names_nodup); [apply nth_error_Some; congruence|congruence]).
  subst k. rewrite A in B. injection B. auto.
Qed.
Lemma data_writes_names m f t : In (Ok (f, t)) (data_writes m) -> In f data_names.
Proof.
  intro A. apply In_nth_error in A. destruct A as [i A]. destruct (Forall2_nth _ (data_writes_named m) A) as (n & An & N1).
  rewrite (N1 _ _ eq_refl). apply nth_error_In in An. auto.
Qed.

Definition drawn (m : model) (f : string) (t : table) : Prop :=
  exists i l s, i < m_nalgos m /\ nth_error (m_algo_labels m) i = Some l /\
    ((f = best_file l /\ nth_error (m_best m) i = Some (Some s)) \/ (f = good_file l /\ nth_error (m_good m) i = Some (Some s))) /\
    frame (coordinates (boundary s)) ["z_1"; "z_2"]%string (make_bind_labels (length (boundary s))) f = Ok (f, t).
Lemma footprint_writes_in m f t : In (Ok (f, t)) (footprint_writes m) <-> drawn m f t.
Proof.
  unfold footprint_writes, drawn. rewrite in_flat_map. split.
  - intros (i & Hi & H). apply in_seq in Hi. apply in_app_iff in H. unfold footprint_write in H.
    destruct H as [H|H].
    + destruct (nth_error (m_best m) i) as [[s|]|] eqn:E; [|contradiction|destruct H as [H|[]]; discriminate].
      cbv zeta in H. destruct (nth_error (m_algo_labels m) i) as [l|] eqn:El; [|destruct H as [H|[]]; discriminate].
      destruct H as [H|[]]. exists i, l, s. pose proof (frame_inv _ _ _ _ H) as (_ & _ & N & _). simpl in N. subst f.
      split; [lia|]. split; auto.
    + destruct (nth_error (m_good m) i) as [[s|]|] eqn:E; [|contradiction|destruct H as [H|[]]; discriminate].
      cbv zeta in H. destruct (nth_error (m_algo_labels m) i) as [l|] eqn:El; [|destruct H as [H|[]]; discriminate].
      destruct H as [H|[]]. exists i, l, s. pose proof (frame_inv _ _ _ _ H) as (_ & _ & N & _). simpl in N. subst f.
      split; [lia|]. split; auto.
  - intros (i & l & s & Hi & El & H & F). exists i. split; [apply in_seq; lia|]. apply in_app_iff. unfold footprint_write.
    destruct H as [[-> E]|[-> E]]; [left|right]; rewrite E, El; left; exact F.
Qed.
Lemma best_file_inj a b : best_file a = best_file b -> a = b.
Proof. unfold best_file. intro H. apply append_inj_l in H. apply append_inj_r in H. auto. Qed.
Lemma good_file_inj a b : good_file a = good_file b -> a = b.
Proof. unfold good_file. intro H. apply append_inj_l in H. apply append_inj_r in H. auto. Qed.
Lemma best_not_good a b : best_file a <> good_file b.
Proof. unfold best_file, good_file. intro H. apply append_inj_l in H. apply append_inj in H; [|reflexivity]. destruct H as [_ H]. discriminate. Qed.
Lemma suffix_not suffix s l : (forall k, k <= String.length s -> String.substring k (String.length s - k) s <> suffix) -> append l suffix <> s.
Proof.
  intros H E. apply (H (String.length l)).
  - rewrite <- E, length_append. lia.
  - rewrite <- E, length_append. replace (String.length l + String.length suffix - String.length l) with (String.length suffix) by lia.
    clear. induction l as [|c l IH]; simpl; [|auto]. induction suffix as [|c s IH]; simpl; congruence.
Qed.
Lemma footprint_not_data l : ~ In (best_file l) data_names /\ ~ In (good_file l) data_names.
Proof.
  assert (G : forall suffix, suffix = "_best.csv"%string \/ suffix = "_good.csv"%string -> ~ In (append "footprint_" (append l suffix)) data_names).
  { intros suffix S H. unfold data_names in H.
    assert (E : append "footprint_" (append l suffix) = "footprint_performance.csv"%string).
    { simpl in H. repeat (destruct H as [H|H]; [try discriminate H; symmetry; exact H|]). destruct H. }
    apply (@append_inj_l "footprint_" (append l suffix) "performance.csv"%string) in E. revert E. apply suffix_not.
    intros k Hk. simpl in Hk. do 16 (destruct k as [|k]; [destruct S as [->| ->]; discriminate|]). lia. }
  split; [apply (G "_best.csv"%string)|apply (G "_good.csv"%string)]; auto.
Qed.
Lemma drawn_unique m f t u : NoDup (m_algo_labels m) -> drawn m f t -> drawn m f u -> u = t.
Proof.
  intros N (i & l & s & Hi & El & H & F) (i' & l' & s' & Hi' & El' & H' & F').
  assert (L : l = l' -> i = i').
  { intros ->. apply (proj1 (NoDup_nth_error _) N); [apply nth_error_Some; congruence|congruence]. }
  assert (S : s = s').
  { destruct H as [[-> H]|[-> H]], H' as [[E H']|[E H']].
    - apply best_file_inj in E. rewrite (L E) in H. rewrite H in H'. injection H'. auto.
    - exfalso. apply (best_not_good E).
    - exfalso. apply (best_not_good (eq_sym E)).
    - apply good_file_inj in E. rewrite (L E) in H. rewrite H in H'. injection H'. auto. }
  subst s'. rewrite F in F'. injection F'. auto.
Qed.
Lemma drawn_file m f t : drawn m f t -> exists i l, i < m_nalgos m /\ nth_error (m_algo_labels m) i = Some l /\
    ((f = best_file l /\ has_polygon (m_best m) i) \/ (f = good_file l /\ has_polygon (m_good m) i)).
Proof. intros (i & l & s & Hi & El & H & F). exists i, l. split; auto. split; auto. unfold has_polygon. destruct H as [[-> E]|[-> E]]; eauto. Qed.
Lemma drawn_not_data m f t : drawn m f t -> ~ In f data_names.
Proof. intro H. apply drawn_file in H. destruct H as (i & l & _ & _ & [[-> _]|[-> _]]); apply footprint_not_data. Qed.

(** what a frame of each kind of array shows *)
Lemma shows_nums a cols labels f n t : frame (nums a) cols labels f = Ok (n, t) -> n = f /\ shows t cols labels (fun i j => CNum (cell a i j)).
Proof. intro H. apply frame_inv in H. destruct H as (_ & _ & N & S). split; auto. apply S. intros. apply nth_nums. Qed.
Lemma shows_bools a cols labels f n t : frame (bools a) cols labels f = Ok (n, t) -> n = f /\ shows t cols labels (fun i j => CBool (bit a i j)).
Proof.
  intro H. apply frame_inv in H. destruct H as (L & R & N & S). split; auto. apply S. intros i j Hi Hj.
  unfold bools in L, R. rewrite map_length in L. apply nth_bools; [lia|].
  rewrite <- (R (map CBool (nth i a []))) in Hj by (apply in_map; apply nth_In; lia). rewrite map_length in Hj. auto.
Qed.
Lemma shows_one A (c : A -> entry) d l name labels f n t : frame (one c l) [name] labels f = Ok (n, t) -> n = f /\ shows t [name] labels (fun i _ => c (nth i l d)).
Proof.
  intro H. apply frame_inv in H. destruct H as (L & _ & N & S). split; auto. apply S. intros i j Hi Hj.
  unfold one in L. rewrite map_length in L. apply nth_one; auto. lia.
Qed.
Lemma shows_coords z labels f n t : frame (coordinates z) ["z_1"; "z_2"]%string labels f = Ok (n, t) ->
  n = f /\ shows t ["z_1"; "z_2"]%string labels (fun i j => CNum (coord z i j)).
Proof.
  intro H. apply frame_inv in H. destruct H as (L & _ & N & S). split; auto. apply S. intros i j Hi Hj.
  unfold coordinates in L. rewrite map_length in L. apply nth_coordinates; auto. lia.
Qed.
Lemma shows_take a w idx a' cols labels f n t : take a w idx = Ok a' -> frame (nums a') cols labels f = Ok (n, t) ->
  n = f /\ shows t cols labels (fun i j => CNum (cell a i (nth j idx 0))).
Proof.
  intros T H. pose proof (frame_inv _ _ _ _ H) as (L & R & N & S). split; auto. apply S. intros i j Hi Hj. rewrite nth_nums. f_equal.
  unfold take in T. destruct (forallb _ idx); [|discriminate]. injection T as <-. unfold nums in L, R. rewrite !map_length in L.
  assert (E : nth i (map (fun r => map (fun i0 => nth i0 r None) idx) a) [] = map (fun i0 => nth i0 (nth i a []) None) idx).
  { rewrite (nth_indep _ [] ((fun r => map (fun i0 => nth i0 r None) idx) [])) by (rewrite map_length; lia).
    apply (map_nth (fun r => map (fun i0 => nth i0 r None) idx)). }
  assert (Lr : length idx = length cols).
  { rewrite <- (R (map CNum (map (fun i0 => nth i0 (nth i a []) None) idx))); [rewrite !map_length; auto|].
    rewrite <- E. apply in_map. apply nth_In. rewrite map_length. lia. }
  unfold cell. unfold num in *. rewrite E.
  rewrite (nth_indep _ None ((fun i0 => nth i0 (nth i a []) None) 0)) by (rewrite map_length; lia).
  rewrite (map_nth (fun i0 => nth i0 (nth i a []) None)). auto.
Qed.
Ltac pick_write k := match goal with W : forall w, In w (data_writes ?m) -> _ |- _ =>
  let n := fresh "n" in let t := fresh "t" in let E := fresh "E" in let X := fresh "X" in
  destruct (W (nth k (data_writes m) (Err EWrite))) as (n & t & E); [apply nth_In; simpl; lia|];
  assert (X : In (nth k (data_writes m) (Err EWrite)) (data_writes m)) by (apply nth_In; simpl; lia);
  rewrite E in X; cbn [nth data_writes] in E end.
Lemma array_files_written m f cols labels g :
  (forall w, In w (data_writes m) -> exists n t, w = Ok (n, t)) -> In (f, (cols, labels, g)) (array_files m) ->
  exists t, In (Ok (f, t)) (data_writes m) /\ shows t cols labels g.
Proof.
  intros W H. unfold array_files in H. cbv zeta in H.
  repeat (destruct H as [H|H]; [injection H as <- <- <- <-|]); [..|destruct H].
  - pick_write 0. apply shows_coords in E. destruct E as [-> S]. eauto.
  - pick_write 1. apply bounds_ok in E. destruct E as [_ E]. apply shows_coords in E. destruct E as [-> S]. eauto.
  - pick_write 2. apply bounds_ok in E. destruct E as [_ E]. apply shows_coords in E. destruct E as [-> S]. eauto.
  - pick_write 3. destruct (take _ _ _) as [a'|] eqn:T; [|discriminate]. destruct (@shows_take _ _ _ _ _ _ _ _ _ T E) as [-> S]. eauto.
  - pick_write 4. apply shows_nums in E. destruct E as [-> S]. eauto.
  - pick_write 5. apply shows_nums in E. destruct E as [-> S]. eauto.
  - pick_write 6. apply shows_nums in E. destruct E as [-> S]. eauto.
  - pick_write 7. apply shows_bools in E. destruct E as [-> S]. eauto.
  - pick_write 8. apply (shows_one _ None) in E. destruct E as [-> S]. eauto.
  - pick_write 9. apply (shows_one _ false) in E. destruct E as [-> S]. eauto.
  - pick_write 10. apply (shows_one _ 0) in E. destruct E as [-> S]. eauto.
  - pick_write 11. apply shows_bools in E. destruct E as [-> S]. eauto.
  - pick_write 12. apply (shows_one _ 0) in E. destruct E as [-> S]. eauto.
Qed.

Lemma array_file_shown m f cols labels g u : In (f, (cols, labels, g)) (array_files m) -> In (Ok (f, u)) (data_writes m) -> shows u cols labels g.
Proof.
  assert (T : forall f a w idx c l n, (match take a w idx with Ok b => frame (nums b) c l f | Err e => Err e end) = Ok (n, u) ->
    n = f /\ shows u c l (fun i j => CNum (cell a i (nth j idx 0)))).
  { intros f0 a w idx c l n H. destruct (take a w idx) eqn:E; [|discriminate]. eapply shows_take; eauto. }
  assert (I : forall n t c, (match iloc t c with Ok b => Ok ("footprint_performance.csv"%string, rename (Name "Algorithm") (Name "Row") b) | Err e => Err e end) = Ok (n, u) ->
    n = "footprint_performance.csv"%string).
  { intros n t c H. destruct (iloc t c); [injection H; auto|discriminate]. }
  intros H W. unfold array_files in H. cbv zeta in H. unfold data_writes in W. cbv zeta in W.
  repeat (destruct W as [W|W]; [first
    [ apply shows_coords in W; destruct W as [-> S]
    | apply bounds_ok in W; destruct W as [_ W]; apply shows_coords in W; destruct W as [-> S]
    | apply shows_nums in W; destruct W as [-> S]
    | apply shows_bools in W; destruct W as [-> S]
    | apply (shows_one _ None) in W; destruct W as [-> S]
    | apply (shows_one _ false) in W; destruct W as [-> S]
    | apply (shows_one _ 0) in W; destruct W as [-> S]
    | apply T in W; destruct W as [-> S]
    | apply I in W; subst f
    | injection W as <- _ ];
    repeat (destruct H as [H|H]; [first [discriminate H | injection H as <- <- <-; exact S]|]); destruct H|]). destruct W.
Qed.

(** the names of the calls made, up to the first that raises *)
Inductive agrees : list write -> list string -> Prop :=
| agrees_nil : agrees [] []
| agrees_ok n t p o : agrees p o -> agrees (Ok (n, t) :: p) (n :: o)
| agrees_err e p o : agrees (Err e :: p) o.
Lemma agrees_app p o p' o' : agrees p o -> agrees p' o' -> agrees (p ++ p') (o ++ o').
Proof. induction 1; simpl; intros; try constructor; auto. Qed.
Lemma agrees_prefix can a w b o : agrees (a ++ w :: b) o -> (forall x, In x a -> written can x) ->
  length a <= length o /\ (forall f t, In (Ok (f, t)) a -> In f (firstn (length a) o)) /\
  (forall f, In f (firstn (length a) o) -> exists t, In (Ok (f, t)) a).
Proof.
  revert o. induction a as [|x a IH]; intros o A W; simpl.
  - split; [lia|]. split; [intros f t []|intros f []].
  - destruct (W x (or_introl eq_refl)) as (n & t & -> & _). simpl in A. inversion A as [|n' t' p o' A'|]; subst.
    destruct (IH _ A') as (L & I & J); [intros; apply W; right; auto|]. simpl. split; [lia|]. split.
    + intros f t0 [E|E]; [injection E as -> _; auto|right; eauto].
    + intros f [<-|E]; [eauto|]. destruct (J _ E) as [t0 T]. eauto.
Qed.
Lemma agrees_named p o : Forall2 named p o -> agrees p o.
Proof.
  induction 1 as [|[[n t]|e] k p o N F IH]; try constructor. rewrite (N _ _ eq_refl). constructor. auto.
Qed.
Lemma planned_order m : agrees (footprint_writes m ++ data_writes m) (csv_order m).
Proof.
  unfold csv_order. apply agrees_app.
  - unfold footprint_writes. induction (seq 0 (m_nalgos m)) as [|i l IH]; [constructor|]. cbn [flat_map].
    apply agrees_app; auto. cbv zeta.
    assert (P : forall fps suffix file, (forall l, nth_error (m_algo_labels m) i = Some l -> file = append "footprint_" (append l suffix)) ->
      agrees (footprint_write m fps suffix i) (polygon_files fps file i)).
    { intros fps suffix file Hf. unfold footprint_write, polygon_files. destruct (nth_error fps i) as [[s|]|]; try constructor.
      destruct (nth_error (m_algo_labels m) i) as [lab|] eqn:El; [|constructor]. rewrite (Hf _ eq_refl).
      destruct (frame_points (boundary s) (append "footprint_" (append lab suffix))) as (t & E & _). rewrite E. repeat constructor. }
    apply agrees_app; apply P; intros lab El; rewrite (nth_error_nth _ _ _ El); reflexivity.
  - apply agrees_named. exact (data_writes_named m).
Qed.
