(** Properties C93-C95: the CSV files. *)
From Coq Require Import Lqa.
From Coq Require Import DecimalNat DecimalString.
From Verif Require Import BaseLemmas Mat PreprocSpec CloisterModel PilotProofs CloisterProofs SerialModel SerialSpec SerialProofs.
Set Implicit Arguments.
Open Scope nat_scope.
Open Scope list_scope.

Section Csv.
  Variable can_write : string -> bool.
  Notation save := (save_to_csv can_write).

  (* ========================================================== C93 *)
  (** A call that returns has written every array of the model, under its labels, and the three
      summaries, and has changed no other file than these and the footprints. *)
  Theorem C93_arrays :
    forall m d d', save true m d = (d', None) ->
      (forall f cols labels g, In (f, (cols, labels, g)) (array_files m) -> exists t, d' f = Some t /\ shows t cols labels g) /\
      (forall f, ~ csv_file m f -> d' f = d f).
  Proof.
    intros m d d' H. unfold save_to_csv in H. apply perform_ok in H. destruct H as [W D]. split.
    - intros f cols labels g Hf. destruct (@array_files_written m f cols labels g) as (t & I & S); auto.
      { intros w Hw. destruct (W w) as (n & t & -> & _); [apply in_app_iff; auto|]. eauto. }
      exists t. split; auto. rewrite D. unfold after. rewrite last_write_app.
      rewrite (@last_write_unique (data_writes m) f t); auto. intros u Hu. eapply data_writes_unique; eauto.
    - intros f N. rewrite D. unfold after. destruct (last_write _ f) as [t|] eqn:E; auto. exfalso. apply N.
      apply last_write_in in E. apply in_app_iff in E. destruct E as [E|E].
      + right. right. apply footprint_writes_in in E. eapply drawn_file; eauto.
      + apply data_writes_names in E. unfold csv_file, array_files. cbv zeta. unfold data_names in E. simpl in E.
        repeat (destruct E as [E|E]; [subst f; first [left; eexists; simpl; tauto | right; left; simpl; tauto]|]). destruct E.
  Qed.
  (** The summaries: the chosen columns of TRACE's, all of PILOT's and PYTHIA's; the first column
      is headed Row. *)
  Theorem C93_summaries :
    forall m d d', save true m d = (d', None) ->
      (exists t, d' "footprint_performance.csv"%string = Some t /\
         (forall k c, nth_error [0; 2; 4; 5; 7; 9; 10] k = Some c ->
            exists n, nth_error (header (m_trace_summary m)) c = Some n /\
              nth_error (header t) k = Some (if colname_eqb n (Name "Algorithm") then Name "Row" else n)) /\
         length (header t) = 7 /\
         rows t = map (fun r => map (fun c => nth c r (CNum None)) [0; 2; 4; 5; 7; 9; 10]) (rows (m_trace_summary m))) /\
      (exists t, d' "projection_matrix.csv"%string = Some t /\ rows t = rows (m_pilot_summary m) /\
         header t = map (fun n => if colname_eqb n (Number 0) then Name "Row" else n) (header (m_pilot_summary m))) /\
      (exists t, d' "svm_table.csv"%string = Some t /\ rows t = rows (m_pythia_summary m) /\
         header t = map (fun n => if colname_eqb n (Name "Algorithms") then Name "Row" else n) (header (m_pythia_summary m))).
  Proof.
    intros m d d' H. unfold save_to_csv in H. apply perform_ok in H. destruct H as [W D].
    assert (F : forall f t, In (Ok (f, t)) (data_writes m) -> d' f = Some t).
    { intros f t I. rewrite D. unfold after. rewrite last_write_app. rewrite (@last_write_unique (data_writes m) f t); auto.
      intros u Hu. eapply data_writes_unique; eauto. }
    assert (W' : forall w, In w (data_writes m) -> exists n t, w = Ok (n, t)).
    { intros w Hw. destruct (W w) as (n & t & -> & _); [apply in_app_iff; auto|]. eauto. }
    split.
    - clear W. pick_write 13. destruct (iloc (m_trace_summary m) [0; 2; 4; 5; 7; 9; 10]) as [t0|] eqn:I; [|discriminate].
      injection E as <- <-. exists (rename (Name "Algorithm") (Name "Row") t0). split; [auto|].
      unfold iloc in I. destruct (forallb _ _) eqn:B; [|discriminate]. injection I as <-. cbn [rename header rows].
      split; [|split; auto].
      intros k c Hk. rewrite forallb_forall in B. specialize (B c (nth_error_In _ _ Hk)). apply Nat.ltb_lt in B.
      destruct (nth_error (header (m_trace_summary m)) c) as [n|] eqn:En; [|apply nth_error_None in En; lia].
      exists n. split; auto. rewrite nth_error_map.
      assert (Ek : nth_error (map (fun c => nth c (header (m_trace_summary m)) (Name "")) [0; 2; 4; 5; 7; 9; 10]) k = Some n)
        by (rewrite nth_error_map, Hk; simpl; rewrite (nth_error_nth _ _ _ En); auto).
      simpl map in Ek. rewrite Ek. auto.
    - split.
      + exists (rename (Number 0) (Name "Row") (m_pilot_summary m)). split; [|auto]. apply F. unfold data_writes. simpl. tauto.
      + exists (rename (Name "Algorithms") (Name "Row") (m_pythia_summary m)). split; [|auto]. apply F. unfold data_writes. simpl. tauto.
  Qed.
  (** With different labels each footprint that has a polygon is in its own file; without a polygon no
      file is written. *)
  Theorem C93_footprints :
    forall m d d', save true m d = (d', None) -> NoDup (m_algo_labels m) ->
      forall i l, i < m_nalgos m -> nth_error (m_algo_labels m) i = Some l ->
        (forall s, nth_error (m_best m) i = Some (Some s) -> exists t, d' (best_file l) = Some t /\ footprint_table s t) /\
        (forall s, nth_error (m_good m) i = Some (Some s) -> exists t, d' (good_file l) = Some t /\ footprint_table s t) /\
        (nth_error (m_best m) i = Some None -> d' (best_file l) = d (best_file l)) /\
        (nth_error (m_good m) i = Some None -> d' (good_file l) = d (good_file l)).
  Proof.
    intros m d d' H N i l Hi Hl. unfold save_to_csv in H. apply perform_ok in H. destruct H as [W D].
    assert (F : forall f t, drawn m f t -> d' f = Some t).
    { intros f t I. rewrite D. unfold after. rewrite last_write_app.
      destruct (last_write (data_writes m) f) as [u|] eqn:E.
      - exfalso. apply last_write_in in E. apply data_writes_names in E. eapply drawn_not_data; eauto.
      - rewrite (@last_write_unique (footprint_writes m) f t); auto.
        + apply footprint_writes_in; auto.
        + intros u Hu. apply footprint_writes_in in Hu. eapply drawn_unique; eauto. }
    assert (U : forall f, (forall t, ~ drawn m f t) -> ~ In f data_names -> d' f = d f).
    { intros f A B. rewrite D. unfold after. destruct (last_write _ f) as [t|] eqn:E; auto. exfalso. apply last_write_in in E.
      apply in_app_iff in E. destruct E as [E|E]; [apply footprint_writes_in in E; eapply A; eauto|apply data_writes_names in E; auto]. }
    assert (X : forall i' l', nth_error (m_algo_labels m) i' = Some l' -> l = l' -> i' = i).
    { intros i' l' H' <-. apply (proj1 (NoDup_nth_error _) N); [apply nth_error_Some; congruence|congruence]. }
    split; [|split; [|split]].
    - intros s Hs. destruct (frame_points (boundary s) (best_file l)) as (t & E & S). exists t. split; auto. apply F.
      exists i, l, s. auto 6.
    - intros s Hs. destruct (frame_points (boundary s) (good_file l)) as (t & E & S). exists t. split; auto. apply F.
      exists i, l, s. auto 6.
    - intro Hn. apply U; [|apply footprint_not_data]. intros t (i' & l' & s & _ & El & [[E B]|[E B]] & _).
      + apply best_file_inj in E. rewrite (X _ _ El E) in B. congruence.
      + apply (best_not_good E).
    - intro Hn. apply U; [|apply footprint_not_data]. intros t (i' & l' & s & _ & El & [[E B]|[E B]] & _).
      + apply (best_not_good (eq_sym E)).
      + apply good_file_inj in E. rewrite (X _ _ El E) in B. congruence.
  Qed.

  (** A call changes the model, heading the first columns of two of its summaries Row; a later
      call still writes the same files. *)
  Lemma rename_twice old new t : colname_eqb new old = false -> rename old new (rename old new t) = rename old new t.
  Proof.
    intro N. unfold rename. cbn [header rows]. f_equal. rewrite map_map. apply map_ext. intro c.
    destruct (colname_eqb c old) eqn:E; [rewrite N; auto|rewrite E; auto].
  Qed.
  Theorem C93_saving_again :
    forall m d, save true (after_save m) d = save true m d /\
      (In (Number 0) (header (m_pilot_summary m)) \/ In (Name "Algorithms") (header (m_pythia_summary m)) -> after_save m <> m).
  Proof.
    intros m d. split.
    - unfold save_to_csv. f_equal. f_equal. unfold data_writes, after_save. cbn -[rename frame iloc take].
      rewrite !rename_twice by reflexivity. reflexivity.
    - assert (R : forall old new t, colname_eqb new old = false -> colname_eqb old old = true -> In old (header t) -> rename old new t <> t).
      { intros old new t N O I E. assert (X : In old (header (rename old new t))) by (rewrite E; auto). unfold rename in X. cbn [header] in X.
        apply in_map_iff in X. destruct X as (c & Ec & _). destruct (colname_eqb c old) eqn:Eo; [rewrite Ec in N; congruence|rewrite Ec in Eo; congruence]. }
      intros [I|I] E.
      + apply (f_equal m_pilot_summary) in E. revert E. apply R; auto.
      + apply (f_equal m_pythia_summary) in E. revert E. apply R; auto.
  Qed.

  (* ========================================================== C94 *)
  (** Without a directory nothing happens. *)
  Theorem C94_no_directory : forall m d, save false m d = (d, Some ENotDirectory).
  Proof. reflexivity. Qed.
  (** A call returns iff the arrays have the shapes their labels require and all files can be
      opened. *)
  Theorem C94_when_it_returns :
    forall m d, (exists d', save true m d = (d', None)) <->
      consistent m /\ forall f, csv_file m f -> can_write f = true.
  Proof.
    intros m d. unfold save_to_csv.
    assert (Ft : forall A (c : A -> entry) a labels cols, (length (map (map c) a) = length labels /\ (forall r, In r (map (map c) a) -> length r = length cols)) <-> fits a labels cols).
    { intros A c a labels cols. unfold fits. rewrite map_length. split; intros [L R]; split; auto; intros r Hr.
      - rewrite <- (map_length c r). apply R. apply in_map. auto.
      - apply in_map_iff in Hr. destruct Hr as (r' & <- & Hr). rewrite map_length. auto. }
    assert (Fo : forall A (c : A -> entry) l (labels : list string) (name : string), (length (one c l) = length labels /\ (forall r, In r (one c l) -> length r = length [name])) <-> length l = length labels).
    { intros A c l labels name. unfold one. rewrite map_length. split; [tauto|]. intro L. split; auto. intros r Hr.
      apply in_map_iff in Hr. destruct Hr as (v & <- & _). auto. }
    assert (Fz : forall z (labels : list string), (length (coordinates z) = length labels /\ (forall r, In r (coordinates z) -> length r = length ["z_1"; "z_2"]%string)) <-> length z = length labels).
    { intros z labels. destruct (coordinates_fits z) as [L R]. rewrite L. split; [tauto|]. auto. }
    split.
    - intros [d' H]. apply perform_ok in H. destruct H as [W _]. split.
      + assert (W' : forall w, In w (data_writes m) -> exists n t, w = Ok (n, t)).
        { intros w Hw. destruct (W w) as (n & t & -> & _); [apply in_app_iff; auto|]. eauto. }
        unfold consistent. cbv zeta. split.
        { intros i Hi.
          assert (Wb : forall w, In w (footprint_write m (m_best m) "_best.csv" i ++ footprint_write m (m_good m) "_good.csv" i) -> exists n t, w = Ok (n, t)).
          { intros w Hw. destruct (W w) as (n & t & -> & _); [|eauto]. apply in_app_iff. left. apply in_flat_map. exists i. split; auto. apply in_seq. lia. }
          assert (B : exists s, nth_error (m_best m) i = Some s).
          { unfold footprint_write in Wb at 1. destruct (nth_error (m_best m) i) as [s|]; [eauto|].
            destruct (Wb (Err EIndexing)) as (n & t & E); [apply in_app_iff; left; left; auto|discriminate]. }
          assert (G : exists s, nth_error (m_good m) i = Some s).
          { unfold footprint_write in Wb. destruct (nth_error (m_good m) i) as [s|]; [eauto|].
            destruct (Wb (Err EIndexing)) as (n & t & E); [apply in_app_iff; right; left; auto|discriminate]. }
          split; auto. split; auto. intro P. apply nth_error_Some. intro X.
          destruct P as [[s P]|[s P]]; (destruct (Wb (Err EIndexing)) as (n & t & E); [|discriminate]); apply in_app_iff; [left|right];
            unfold footprint_write; rewrite P, X; left; auto. }
        assert (FI : forall data cols labels f n t, frame data cols labels f = Ok (n, t) -> length data = length labels /\ forall r, In r data -> length r = length cols).
        { intros data cols labels f n t E. apply frame_ok with (f := f). eauto. }
        split. { pick_write 0. apply FI in E. apply Fz in E. auto. }
        pick_write 3. destruct (take _ _ _) as [a'|] eqn:T; [|discriminate]. apply FI in E. unfold take in T.
        destruct (forallb _ (m_idx m)) eqn:B; [|discriminate]. injection T as <-. rewrite forallb_forall in B.
        split; [intros j Hj; apply Nat.ltb_lt; auto|]. apply Ft in E. destruct E as [E1 E2]. rewrite map_length in E1. split; auto.
        split.
        { intro N. destruct (m_x_raw m) as [|r0 rest]; [congruence|]. rewrite <- (E2 _ (or_introl eq_refl)). rewrite map_length. auto. }
        clear E1 E2 B n t X.
        split. { pick_write 4. apply FI in E. apply Ft in E. auto. }
        split. { pick_write 5. apply FI in E. apply Ft in E. auto. }
        split. { pick_write 6. apply FI in E. apply Ft in E. auto. }
        split. { pick_write 7. apply FI in E. apply Ft in E. auto. }
        split. { pick_write 8. apply FI in E. apply Fo in E. auto. }
        split. { pick_write 9. apply FI in E. apply Fo in E. auto. }
        split. { pick_write 10. apply FI in E. apply Fo in E. auto. }
        split. { pick_write 11. apply FI in E. apply Ft in E. auto. }
        split. { pick_write 12. apply FI in E. apply Fo in E. auto. }
        split.
        { pick_write 13. destruct (iloc _ _) as [t0|] eqn:I; [|discriminate]. unfold iloc in I. destruct (forallb _ _) eqn:B; [|discriminate].
          rewrite forallb_forall in B. specialize (B 10 ltac:(simpl; tauto)). apply Nat.ltb_lt in B. lia. }
        split. { pick_write 1. apply bounds_ok in E. apply E. }
        pick_write 2. apply bounds_ok in E. apply E.
      + intros f Hf.
        assert (G : forall t, In (Ok (f, t)) (footprint_writes m ++ data_writes m) -> can_write f = true).
        { intros t I. destruct (W _ I) as (n & u & E & C). injection E as -> _. auto. }
        assert (W' : forall w, In w (data_writes m) -> exists n t, w = Ok (n, t)).
        { intros w Hw. destruct (W w) as (n & t & -> & _); [apply in_app_iff; auto|]. eauto. }
        destruct Hf as [[[[cols labels] g] I]|[I|(i & l & Hi & El & [[-> [s P]]|[-> [s P]]])]].
        * destruct (@array_files_written m f cols labels g W' I) as (t & J & _). apply (G t). apply in_app_iff; auto.
        * simpl in I. destruct I as [<-|[<-|[<-|[]]]].
          -- clear W. pick_write 13. destruct (iloc _ _); [|discriminate]. injection E as <- <-. eapply G. apply in_app_iff. right. eauto.
          -- eapply G. apply in_app_iff. right. unfold data_writes. simpl. eauto 20.
          -- eapply G. apply in_app_iff. right. unfold data_writes. simpl. eauto 20.
        * destruct (frame_points (boundary s) (best_file l)) as (t & E & _). apply (G t). apply in_app_iff. left. apply footprint_writes_in.
          exists i, l, s. auto 6.
        * destruct (frame_points (boundary s) (good_file l)) as (t & E & _). apply (G t). apply in_app_iff. left. apply footprint_writes_in.
          exists i, l, s. auto 6.
    - intros [C Wr]. apply perform_all. intros w Hw. apply in_app_iff in Hw. destruct Hw as [Hw|Hw].
      + destruct C as [C _]. unfold footprint_writes in Hw. apply in_flat_map in Hw. destruct Hw as (i & Hi & Hw). apply in_seq in Hi.
        destruct (C i ltac:(lia)) as ([sb Eb] & [sg Eg] & P).
        apply in_app_iff in Hw. unfold footprint_write in Hw. rewrite Eb, Eg in Hw. destruct Hw as [Hw|Hw].
        * destruct sb as [s|]; [|contradiction]. assert (Li : i < length (m_algo_labels m)) by (apply P; left; exists s; auto).
          destruct (nth_error (m_algo_labels m) i) as [l|] eqn:El; [|apply nth_error_None in El; lia]. destruct Hw as [<-|[]].
          destruct (frame_points (boundary s) (best_file l)) as (t & E & _). exists (best_file l), t. split; auto.
          apply Wr. right. right. exists i, l. split; [lia|]. split; auto. left. split; auto. exists s. auto.
        * destruct sg as [s|]; [|contradiction]. assert (Li : i < length (m_algo_labels m)) by (apply P; right; exists s; auto).
          destruct (nth_error (m_algo_labels m) i) as [l|] eqn:El; [|apply nth_error_None in El; lia]. destruct Hw as [<-|[]].
          destruct (frame_points (boundary s) (good_file l)) as (t & E & _). exists (good_file l), t. split; auto.
          apply Wr. right. right. exists i, l. split; [lia|]. split; auto. right. split; auto. exists s. auto.
      + assert (K : exists n t, w = Ok (n, t)).
        { destruct C as (_ & Cz & Ci & Cr & Cw & Cx & Cyr & Cy & Cb & Cn & Ce & Cp & Ch & Cs & Ct & Ce1 & Ce2). cbv zeta in *.
          assert (FO : forall data cols labels f, (length data = length labels /\ forall r, In r data -> length r = length cols) -> exists n t, frame data cols labels f = Ok (n, t)).
          { intros data cols labels f X. apply frame_ok with (f := f) in X. destruct X as [[n t] X]. eauto. }
          unfold data_writes in Hw. cbv zeta in Hw.
          destruct Hw as [<-|Hw]; [apply FO; apply Fz; auto|].
          assert (Fb : forall z f, z <> [] -> exists n t, bounds_frame z f = Ok (n, t)).
          { intros z f N. replace (bounds_frame z f) with (frame (coordinates z) ["z_1"; "z_2"]%string (make_bind_labels (length z)) f)
              by (destruct z; [congruence|reflexivity]). apply FO, Fz. rewrite bind_labels_length. auto. }
          destruct Hw as [<-|Hw]; [apply Fb; auto|].
          destruct Hw as [<-|Hw]; [apply Fb; auto|].
          destruct Hw as [<-|Hw].
          { unfold take. rewrite (proj2 (forallb_forall _ (m_idx m))) by (intros j Hj; apply Nat.ltb_lt; auto).
            apply FO. apply Ft. unfold fits. rewrite map_length. split; auto. intros r Hr. apply in_map_iff in Hr.
            destruct Hr as (r0 & <- & Hr). rewrite map_length. apply Cw. intro X. rewrite X in Hr. destruct Hr. }
          destruct Hw as [<-|Hw]; [apply FO; apply Ft; auto|].
          destruct Hw as [<-|Hw]; [apply FO; apply Ft; auto|].
          destruct Hw as [<-|Hw]; [apply FO; apply Ft; auto|].
          destruct Hw as [<-|Hw]; [apply FO; apply Ft; auto|].
          destruct Hw as [<-|Hw]; [apply FO; apply Fo; auto|].
          destruct Hw as [<-|Hw]; [apply FO; apply Fo; auto|].
          destruct Hw as [<-|Hw]; [apply FO; apply Fo; auto|].
          destruct Hw as [<-|Hw]; [apply FO; apply Ft; auto|].
          destruct Hw as [<-|Hw]; [apply FO; apply Fo; auto|].
          destruct Hw as [<-|Hw].
          { unfold iloc. rewrite (proj2 (forallb_forall _ _)); [eauto|]. intros c Hc. apply Nat.ltb_lt. simpl in Hc. lia. }
          destruct Hw as [<-|Hw]; [eauto|]. destruct Hw as [<-|Hw]; [eauto|]. destruct Hw. }
        destruct K as (n & t & ->). exists n, t. split; auto. apply Wr. apply data_writes_names in Hw. unfold data_names in Hw.
        unfold csv_file, array_files. cbv zeta. simpl in Hw.
        repeat (destruct Hw as [Hw|Hw]; [subst n; first [left; eexists; simpl; tauto | right; left; simpl; tauto]|]). destruct Hw.
  Qed.
  (** A call that raises has written the first k files in the order above, the arrays among them
      completely, and changed nothing else. *)
  Theorem C94_failure_leaves_a_prefix :
    forall m d d' e, save true m d = (d', Some e) ->
      exists k, k <= length (csv_order m) /\
        (forall f, ~ In f (firstn k (csv_order m)) -> d' f = d f) /\
        (forall f, In f (firstn k (csv_order m)) -> d' f <> None) /\
        (forall f cols labels g, In (f, (cols, labels, g)) (array_files m) -> In f (firstn k (csv_order m)) ->
           exists t, d' f = Some t /\ shows t cols labels g).
  Proof.
    intros m d d' e H. unfold save_to_csv in H. apply perform_fails in H. destruct H as (a & w & b & E & P & _).
    apply perform_ok in P. destruct P as [W D]. pose proof (planned_order m) as A. rewrite E in A.
    destruct (@agrees_prefix can_write _ _ _ _ A W) as (L & I & J). exists (length a). split; auto. split; [|split].
    - intros f N. rewrite D. unfold after. destruct (last_write a f) as [t|] eqn:X; auto. exfalso. apply N. eapply I. eapply last_write_in; eauto.
    - intros f X. destruct (J _ X) as [t T]. rewrite D. unfold after. destruct (last_write a f) eqn:Y; [discriminate|].
      exfalso. eapply (proj1 (last_write_none a f) Y); eauto.
    - intros f cols labels g Hf X. destruct (J _ X) as [t T].
      assert (S : forall u, In (Ok (f, u)) a -> shows u cols labels g).
      { intros u U. assert (Iu : In (Ok (f, u)) (footprint_writes m ++ data_writes m)) by (rewrite E; apply in_app_iff; auto).
        apply in_app_iff in Iu. destruct Iu as [Iu|Iu].
        - exfalso. apply footprint_writes_in in Iu. apply drawn_not_data in Iu. apply Iu.
          unfold array_files in Hf. cbv zeta in Hf. unfold data_names.
          repeat (destruct Hf as [Hf|Hf]; [injection Hf as <- _ _ _; simpl; tauto|]). destruct Hf.
        - eapply array_file_shown; eauto. }
      rewrite D. unfold after. destruct (last_write a f) as [u|] eqn:Y.
      + exists u. split; auto. apply S. apply last_write_in. auto.
      + exfalso. eapply (proj1 (last_write_none a f) Y); eauto.
  Qed.
End Csv.

(* ========================================================== C95 *)
(** The file of a footprint that is one polygon lists the vertices of its outer ring in order, once
    each. *)
Theorem C95_vertices_of_a_polygon :
  forall p ring first, exterior p = ring ++ [first] -> boundary (Single p) = ring.
Proof. intros p ring first H. unfold boundary. rewrite H. apply removelast_last. Qed.
(** Of several polygons the rings follow each other; all but the last are listed with their first
    vertex repeated. *)
Theorem C95_vertices_of_several_polygons :
  forall l p ring first, exterior p = ring ++ [first] -> boundary (Multi (l ++ [p])) = concat (map exterior l) ++ ring.
Proof.
  intros l p ring first H. unfold boundary. rewrite map_app, concat_app. simpl. rewrite H, app_nil_r, app_assoc. apply removelast_last.
Qed.
(** The rows of the points are labelled bnd_pnt_1, bnd_pnt_2, ... ([NilEmpty.uint_of_string] and
    [Nat.of_uint] of the standard library read a decimal numeral back). *)
Theorem C95_points_are_numbered :
  forall n, NoDup (make_bind_labels n) /\ length (make_bind_labels n) = n /\
    forall i, i < n -> exists digits, nth i (make_bind_labels n) EmptyString = append "bnd_pnt_" digits /\
      exists u, NilEmpty.uint_of_string digits = Some u /\ Nat.of_uint u = S i.
Proof.
  intro n. split; [apply bind_labels_nodup|]. split; [apply bind_labels_length|]. intros i Hi.
  exists (decimal (S i)). split.
  - unfold make_bind_labels. rewrite (nth_indep _ EmptyString (append "bnd_pnt_" (decimal (0 + 1)))) by (rewrite map_length, seq_length; auto).
    rewrite (map_nth (fun i => append "bnd_pnt_" (decimal (i + 1)))), seq_nth, Nat.add_1_r by auto. reflexivity.
  - exists (Nat.to_uint (S i)). unfold decimal. rewrite NilEmpty.usu, Unsigned.of_to. auto.
Qed.
Example C95_numbering : nth 11 (make_bind_labels 20) EmptyString = "bnd_pnt_12"%string.
Proof. reflexivity. Qed.

Definition at_ (x y : Z) : num * num := (Some (inject_Z x), Some (inject_Z y)).
Definition square (x y s : Z) : list (num * num) := [at_ x y; at_ (x + s) y; at_ (x + s) (y + s); at_ x (y + s); at_ x y].
(** Holes are lost: a square and the same square with a hole have the same file. *)
Theorem C95_polygon_can_be_recovered_refuted :
  exists p q, exterior p = square 0 0 3 /\ exterior q = square 0 0 3 /\ interiors p = [] /\ interiors q = [square 1 1 1] /\
    boundary (Single p) = boundary (Single q).
Proof.
  exists {| exterior := square 0 0 3; interiors := [] |}, {| exterior := square 0 0 3; interiors := [square 1 1 1] |}. repeat split.
Qed.
(** With two polygons the file lists a vertex twice. *)
Theorem C95_each_vertex_once_refuted :
  exists p q, NoDup (removelast (exterior p) ++ removelast (exterior q)) /\ ~ NoDup (boundary (Multi [p; q])).
Proof.
  exists {| exterior := square 0 0 1; interiors := [] |}, {| exterior := square 5 5 1; interiors := [] |}. split.
  - simpl. unfold at_. repeat constructor; simpl; intuition discriminate.
  - intro H. vm_compute in H. inversion H as [|? ? N _]. apply N. simpl. tauto.
Qed.

(** A model to which all of the above applies: two instances, features and algorithms. *)
Definition tab (cols : list string) (n : nat) : table :=
  {| header := map Name cols; rows := repeat (map (fun _ => CNum None) cols) n |}.
Definition ex_model (labels : list string) (idx : list nat) : model :=
  let z := [at_ 0 0; at_ 1 0] in
  let a := [[Some 1; Some 2]; [Some 3; Some 5]]%Q in
  let b := [[true; false]; [false; true]] in
  {| m_inst_labels := ["i1"; "i2"]%string; m_feat_labels := ["f"; "g"]%string; m_algo_labels := labels;
     m_x := a; m_y := a; m_x_raw := a; m_y_raw := a; m_nalgos := 2; m_y_bin := b; m_p := [1; 2];
     m_num_good_algos := [Some 1; Some 1]%Q; m_beta := [true; false]; m_s := None; m_idx := idx;
     m_z := z; m_z_edge := z; m_z_ecorr := z; m_y_hat := b; m_selection0 := [0; 1];
     m_good := [Some (Single {| exterior := square 0 0 3; interiors := [] |}); None];
     m_best := [Some (Single {| exterior := square 0 0 1; interiors := [] |}); Some (Single {| exterior := square 5 5 1; interiors := [] |})];
     m_trace_summary := tab ["Algorithm"; "a"; "b"; "c"; "d"; "e"; "f"; "g"; "h"; "i"; "j"]%string 2;
     m_pilot_summary := {| header := [Number 0; Name "f"; Name "g"]; rows := [] |};
     m_pythia_summary := tab ["Algorithms"; "Avg"]%string 4 |}.
Example C93_applies : forall d, exists d', save_to_csv (fun _ => true) true (ex_model ["A"; "B"]%string [0; 1]) d = (d', None) /\
  NoDup (m_algo_labels (ex_model ["A"; "B"]%string [0; 1])).
Proof. intro d. eexists. split; [reflexivity|]. repeat constructor; simpl; intuition discriminate. Qed.
Example C94_applies : consistent (ex_model ["A"; "B"]%string [0; 1]) /\
  exists d', save_to_csv (fun f => negb (String.eqb f "beta_easy.csv")) true (ex_model ["A"; "B"]%string [0; 1]) (fun _ => None) = (d', Some EWrite).
Proof.
  split; [|eexists; reflexivity].
  apply (proj1 (C94_when_it_returns (fun _ => true) (ex_model ["A"; "B"]%string [0; 1]) (fun _ => None))). eexists. reflexivity.
Qed.
(** With two algorithms of the same name the footprint of the first is overwritten. *)
Theorem C93_footprints_of_equal_names_refuted :
  exists m d d' l s, save_to_csv (fun _ => true) true m d = (d', None) /\ nth_error (m_algo_labels m) 0 = Some l /\ 0 < m_nalgos m /\
    nth_error (m_best m) 0 = Some (Some s) /\ ~ exists t, d' (best_file l) = Some t /\ footprint_table s t.
Proof.
  exists (ex_model ["A"; "A"]%string [0; 1]), (fun _ => None). eexists. exists "A"%string. eexists.
  split; [reflexivity|]. split; [reflexivity|]. split; [vm_compute; lia|]. split; [reflexivity|].
  intros (t & E & S). vm_compute in E. injection E as <-. destruct S as (_ & _ & S).
  specialize (S 0 _ eq_refl). vm_compute in S. discriminate.
Qed.

Print Assumptions C93_arrays.
Print Assumptions C93_summaries.
Print Assumptions C93_footprints.
Print Assumptions C93_saving_again.
Print Assumptions C93_footprints_of_equal_names_refuted.
Print Assumptions C94_no_directory.
Print Assumptions C94_when_it_returns.
Print Assumptions C94_failure_leaves_a_prefix.
Print Assumptions C95_vertices_of_a_polygon.
Print Assumptions C95_vertices_of_several_polygons.
Print Assumptions C95_points_are_numbered.
Print Assumptions C95_polygon_can_be_recovered_refuted.
Print Assumptions C95_each_vertex_once_refuted.
