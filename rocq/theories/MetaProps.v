(** Properties C108 and C109: reading metadata. *)
From Verif Require Import Base BaseLemmas OptionsModel OptionsSpec OptionsProps MetaModel MetaSpec PreprocSpec.
Set Implicit Arguments.
Open Scope string_scope.
Open Scope list_scope.

Lemma starts_with_spec p s : starts_with p s = true <-> exists rest, s = append p rest.
Proof.
  revert s. induction p as [|a p IH]; intro s; simpl.
  - split; eauto.
  - destruct s as [|b s]; [split; [discriminate|intros (r & E); discriminate]|]. destruct (Ascii.eqb_spec a b) as [->|N].
    + rewrite IH. split; intros (r & E); exists r; congruence.
    + split; [discriminate|]. intros (r & E). congruence.
Qed.
(** positions of the elements with a property *)
Fixpoint positions {A} (p : A -> bool) (l : list A) (k : nat) : list nat :=
  match l with [] => [] | a :: t => if p a then k :: positions p t (S k) else positions p t (S k) end.
Lemma positions_ge A (p : A -> bool) l k : Forall (fun j => k <= j) (positions p l k).
Proof.
  revert k. induction l as [|a l IH]; intro k; simpl; auto. specialize (IH (S k)).
  assert (F : Forall (fun j => k <= j) (positions p l (S k))) by (eapply Forall_impl; [|exact IH]; simpl; intros; lia).
  destruct (p a); auto.
Qed.
Lemma positions_increasing A (p : A -> bool) l k : increasing (positions p l k).
Proof.
  revert k. induction l as [|a l IH]; intro k; simpl; [constructor|]. destruct (p a); auto. constructor; [apply IH|].
  eapply Forall_impl; [|apply positions_ge]. simpl. intros; lia.
Qed.
Lemma positions_in A (p : A -> bool) l k j : In j (positions p l k) <-> k <= j /\ exists c, nth_error l (j - k) = Some c /\ p c = true.
Proof.
  revert k. induction l as [|a l IH]; intro k; simpl.
  - split; [tauto|]. intros (_ & c & E & _). destruct (j - k); discriminate.
  - assert (X : In j (positions p l (S k)) <-> k < j /\ exists c, nth_error (a :: l) (j - k) = Some c /\ p c = true).
    { rewrite IH. split; intros (L & c & E & P); (split; [lia|]); exists c; (split; [|auto]).
      - replace (j - k) with (S (j - S k)) by lia. auto.
      - replace (j - k) with (S (j - S k)) in E by lia. auto. }
    destruct (p a) eqn:Pa; simpl; rewrite X; clear X.
    + split.
      * intros [<-|(L & H)]; [|split; [lia|auto]]. split; [lia|]. rewrite Nat.sub_diag. simpl. eauto.
      * intros (L & H). destruct (Nat.eq_dec k j); [auto|right; split; [lia|auto]].
    + split; intros (L & c & E & P).
      * split; [lia|eauto].
      * split; [|eauto]. destruct (Nat.eq_dec k j); [|lia]. subst. rewrite Nat.sub_diag in E. injection E as <-. congruence.
Qed.
Lemma positions_map A B (p : A -> bool) (g : A -> B) l k pre : length pre = k ->
  map Some (map g (filter p l)) = map (fun j => option_map g (nth_error (pre ++ l) j)) (positions p l k).
Proof.
  revert k pre. induction l as [|a l IH]; intros k pre L; simpl; auto.
  assert (N : nth_error (pre ++ a :: l) k = Some a) by (rewrite nth_error_app2, L, Nat.sub_diag; [auto|lia]).
  assert (I := IH (S k) (pre ++ [a]) ltac:(rewrite app_length; simpl; lia)). rewrite <- app_assoc in I. simpl in I.
  destruct (p a); simpl; rewrite I; [rewrite N|]; auto.
Qed.

Section Meta.
  Variable C : Type.
  Variable lower : string -> string.
  Variable show : C -> C.
  Variable row_numeric : list bool -> bool.
  Variable dtype_name : C -> bool.
  Notation from_frame := (from_data_frame lower show row_numeric dtype_name).

  Lemma name_spec (c : column C) : is_name lower c = true <-> called lower "instances" c.
  Proof. apply String.eqb_eq. Qed.
  Lemma source_spec (c : column C) : is_source lower c = true <-> called lower "source" c.
  Proof. apply String.eqb_eq. Qed.
  Lemma feat_spec (c : column C) : is_feat lower c = true <-> prefixed lower "feature_" c.
  Proof. apply starts_with_spec. Qed.
  Lemma algo_spec (c : column C) : is_algo lower c = true <-> prefixed lower "algo_" c.
  Proof. apply starts_with_spec. Qed.

  Lemma taken (f : frame C) (p : column C -> bool) (P : column C -> Prop) : rectangular f -> (forall c, p c = true <-> P c) ->
    taken_from f P (map (@c_name C) (loc f p)) (to_numpy (f_rows f) (loc f p)).
  Proof.
    intros R H. exists (positions p (f_cols f) 0). split; [apply positions_increasing|]. split; [|split; [|split]].
    - intro j. rewrite positions_in, Nat.sub_0_r. split; [intros (_ & c & E & X); exists c; rewrite <- H; auto|].
      intros (c & E & X). split; [lia|]. exists c. rewrite H. auto.
    - exact (positions_map p (@c_name C) (f_cols f) [] eq_refl).
    - unfold to_numpy. rewrite map_length, seq_length. auto.
    - intros i row E. unfold to_numpy in E. rewrite nth_error_map in E.
      destruct (nth_error (seq 0 (f_rows f)) i) as [i'|] eqn:S; [|discriminate]. assert (L : i < f_rows f).
      { rewrite <- (seq_length (f_rows f) 0). apply nth_error_Some. congruence. }
      apply (nth_error_nth _ _ 0) in S. rewrite seq_nth in S by auto. simpl in S. subst i'. simpl in E. injection E as <-.
      assert (G : map (fun j => match nth_error (f_cols f) j with Some c => nth_error (c_cells c) i | None => None end) (positions p (f_cols f) 0) =
                  map (fun c => nth_error (c_cells c) i) (filter p (f_cols f))).
      { pose proof (@positions_map _ _ p (fun c => nth_error (c_cells c) i) (f_cols f) 0 [] eq_refl) as M. simpl in M.
        assert (J : forall (l : list (option (option C))) l', map Some l' = l -> map (fun o => match o with Some x => x | None => None end) l = l').
        { intros l l' <-. rewrite map_map. apply map_id. }
        symmetry. apply J in M. rewrite <- M, map_map. apply map_ext. intro j. destruct (nth_error (f_cols f) j); auto. }
      rewrite G. unfold loc. assert (F : forall c, In c (filter p (f_cols f)) -> length (c_cells c) = f_rows f) by (intros c Hc; apply filter_In in Hc; apply R; tauto).
      revert F. generalize (filter p (f_cols f)) as l. induction l as [|c l IH]; intro F; simpl; auto.
      rewrite map_app, IH by (intros; apply F; right; auto). destruct (nth_error (c_cells c) i) eqn:E; auto.
      apply nth_error_None in E. specialize (F c (or_introl eq_refl)). lia.
  Qed.
  (** Features and algorithms are the columns whose names begin with feature_ and algo_ in any
      capitalisation, under their full names, in the order of the file. *)
  Theorem C108_features_and_algorithms :
    forall f m, rectangular f -> from_frame f = Ok m ->
      taken_from f (prefixed lower "feature_") (feature_names m) (features m) /\
      taken_from f (prefixed lower "algo_") (algorithm_names m) (algorithms m).
  Proof.
    intros f m R H. unfold from_data_frame in H. destruct (labels_as_text _ _ _) as [s|e]; [|discriminate]. injection H as <-. simpl.
    split; apply taken; auto; [apply feat_spec|apply algo_spec].
  Qed.

  Lemma only_loc (f : frame C) p P c : (forall c, p c = true <-> P c) -> only f P c -> loc f p = [c].
  Proof.
    intros H (l & r & E & Pc & N). unfold loc. rewrite E, filter_app. simpl. apply H in Pc. rewrite Pc.
    assert (X : forall l', (forall c', In c' l' -> ~ P c') -> filter p l' = []).
    { induction l' as [|a l' IH]; intro F; simpl; auto. destruct (p a) eqn:A; [exfalso; apply (F a); [left; auto|apply H; auto]|apply IH; intros; apply F; right; auto]. }
    rewrite !X; auto; intros c' I; apply N, in_or_app; auto.
  Qed.
  (** With one column called Instances and other than one row the labels are that column, numbers as
      text, and nothing is raised. *)
  Theorem C108_instance_labels :
    forall f c, only f (called lower "instances") c -> f_rows f <> 1 ->
      exists m, from_frame f = Ok m /\ instance_labels m = SSeries false (if c_numeric c then map show (c_cells c) else c_cells c).
  Proof.
    intros f c O N. unfold from_data_frame. rewrite (@only_loc f (is_name lower) _ c name_spec O).
    unfold squeeze. destruct (f_rows f) as [|[|n]]; [|congruence|]; destruct (c_numeric c); simpl; eexists; split; reflexivity.
  Qed.
  (** The sources are there iff a column is called Source; if it is the only one, they are that
      column. *)
  Theorem C108_sources :
    forall f m, from_frame f = Ok m ->
      (instance_sources m = None <-> forall c, In c (f_cols f) -> ~ called lower "source" c) /\
      forall c, only f (called lower "source") c -> f_rows f <> 1 -> instance_sources m = Some (SSeries (c_numeric c) (c_cells c)).
  Proof.
    intros f m H. unfold from_data_frame in H. destruct (labels_as_text _ _ _) as [s|e]; [|discriminate]. injection H as <-. simpl. split.
    - destruct (existsb (is_source lower) (f_cols f)) eqn:E.
      + split; [discriminate|]. intro X. exfalso. apply existsb_exists in E. destruct E as (c & I & S). apply (X c I). apply source_spec. auto.
      + split; auto. intros _ c I S. apply source_spec in S. assert (existsb (is_source lower) (f_cols f) = true) by (apply existsb_exists; eauto). congruence.
    - intros c O N. assert (E : existsb (is_source lower) (f_cols f) = true).
      { destruct O as (l & r & E & P & _). apply existsb_exists. exists c. rewrite E. split; [apply in_or_app; right; left; auto|apply source_spec; auto]. }
      rewrite E, (@only_loc f (is_source lower) _ c source_spec O). unfold squeeze. destruct (f_rows f) as [|[|n]]; [auto|congruence|auto].
  Qed.
  Lemma same_loc p P l r : (forall c : column C, p c = true <-> P c) -> same_columns P l r -> filter p l = filter p r.
  Proof.
    intros H S. induction S as [|c l r N S IH|c l r N S IH|c l r Y S IH]; simpl; auto.
    - destruct (p c) eqn:E; [apply H in E; contradiction|auto].
    - destruct (p c) eqn:E; [apply H in E; contradiction|auto].
    - apply H in Y. rewrite Y, IH. auto.
  Qed.
  (** Nothing else in the file matters, nor where among the other columns a column stands. *)
  Theorem C108_nothing_else_matters :
    forall f g, f_rows f = f_rows g ->
      (forall P, In P [called lower "instances"; called lower "source"; prefixed lower "feature_"; prefixed lower "algo_"] ->
         same_columns P (f_cols f) (f_cols g)) ->
      from_frame f = from_frame g.
  Proof.
    intros f g R S. unfold from_data_frame, loc. rewrite R.
    rewrite (@same_loc (is_name lower) (called lower "instances") _ _ name_spec (S (called lower "instances") ltac:(simpl; auto))).
    rewrite (@same_loc (is_feat lower) (prefixed lower "feature_") _ _ feat_spec (S (prefixed lower "feature_") ltac:(simpl; auto))).
    rewrite (@same_loc (is_algo lower) (prefixed lower "algo_") _ _ algo_spec (S (prefixed lower "algo_") ltac:(simpl; auto))).
    rewrite (@same_loc (is_source lower) (called lower "source") _ _ source_spec (S (called lower "source") ltac:(simpl; auto))).
    assert (E : forall l, existsb (is_source lower) l = match filter (is_source (C := C) lower) l with [] => false | _ => true end).
    { induction l as [|a l IH]; simpl; auto. destruct (is_source lower a); auto. }
    rewrite !E, (@same_loc (is_source lower) (called lower "source") _ _ source_spec (S (called lower "source") ltac:(simpl; auto))). reflexivity.
  Qed.
  (** The labels in every case, where [cs] are the columns called Instances in the order of the file:
      with one instance and one column a single value, with one column the series of its values, with one
      instance the series of its values in those columns, otherwise the table of those columns.  The first
      three are text. *)
  Theorem C108_shape_of_the_labels :
    forall f m cs, rectangular f -> from_frame f = Ok m ->
      same_columns (called lower "instances") (f_cols f) cs -> Forall (called lower "instances") cs ->
      (f_rows f = 1 -> forall c v, cs = [c] -> c_cells c = [v] -> instance_labels m = SScalar false (if c_numeric c then show v else v)) /\
      (f_rows f <> 1 -> forall c, cs = [c] -> instance_labels m = SSeries false (if c_numeric c then map show (c_cells c) else c_cells c)) /\
      (f_rows f = 1 -> length cs <> 1 -> exists row, map (fun v => [v]) row = map (@c_cells _) cs /\
         instance_labels m = SSeries false (if row_numeric (map (@c_numeric _) cs) then map show row else row)) /\
      (f_rows f <> 1 -> length cs <> 1 -> instance_labels m = SFrame cs).
  Proof.
    intros f m cs R H Sc F.
    assert (E : loc f (is_name lower) = cs).
    { unfold loc. rewrite (@same_loc (is_name lower) _ _ _ name_spec Sc). clear - F. induction F as [|c l P _ IH]; auto. simpl.
      apply name_spec in P. rewrite P. f_equal. auto. }
    assert (L : forall c, In c cs -> length (c_cells c) = f_rows f).
    { intros c I. apply R. rewrite <- E in I. unfold loc in I. apply filter_In in I. tauto. }
    unfold from_data_frame in H. rewrite E in H. clear Sc F E.
    assert (K : forall s, labels_as_text show dtype_name (squeeze row_numeric (f_rows f) cs) = Ok s -> instance_labels m = s).
    { intros s Es. rewrite Es in H. injection H as <-. reflexivity. }
    destruct (labels_as_text show dtype_name (squeeze row_numeric (f_rows f) cs)) as [s|e] eqn:Es; [|discriminate].
    rewrite (K s eq_refl). clear K H. split; [|split; [|split]].
    - intros N c v -> Ev. unfold squeeze in Es. rewrite N, Ev in Es. simpl in Es. destruct (c_numeric c); [congruence|]. destruct (dtype_name v); congruence.
    - intros N c ->. unfold squeeze in Es. destruct (f_rows f) as [|[|k]]; [|congruence|]; simpl in Es; destruct (c_numeric c); congruence.
    - intros N Lc. exists (concat (map (fun c => firstn 1 (c_cells c)) cs)). split.
      + clear Es. rewrite N in L. clear - L. induction cs as [|c cs IH]; auto. simpl.
        assert (Lc := L c (or_introl eq_refl)). destruct (c_cells c) as [|v [|w t]]; simpl in Lc; [lia| |lia]. simpl. f_equal. apply IH. intros; apply L; right; auto.
      + unfold squeeze in Es. rewrite N in Es. destruct cs as [|c [|d t]]; [|simpl in Lc; lia|]; cbn [labels_as_text] in Es;
          (destruct (row_numeric _); congruence).
    - intros N Lc. unfold squeeze in Es. destruct (f_rows f) as [|[|k]]; [|congruence|]; (destruct cs as [|c [|d t]]; [|simpl in Lc; lia|]; simpl in Es; congruence).
  Qed.
  (** Only a file with a single row can make it raise. *)
  Theorem C108_raises_only_for_one_row :
    forall f e, from_frame f = Err e -> f_rows f = 1.
  Proof.
    intros f e H. destruct (Nat.eq_dec (f_rows f) 1) as [|N]; auto. exfalso. unfold from_data_frame in H.
    destruct (labels_as_text show dtype_name _) as [s|x] eqn:L; [discriminate|]. unfold squeeze in L.
    destruct (f_rows f) as [|[|n]]; [|congruence|]; (destruct (loc f (is_name lower)) as [|c [|d l]]; simpl in L; [discriminate|destruct (c_numeric c); discriminate|discriminate]).
  Qed.

  (* ========================================================== C109 *)
  Variable read_csv : string -> read_result C.
  Variable read_text : string -> option string.
  Variable parse : string -> option jval.
  Notation from_files := (instance_space_from_files lower show row_numeric dtype_name read_csv read_text parse).
  Notation from_directory := (instance_space_from_directory lower show row_numeric dtype_name read_csv read_text parse).
  Notation from_csv := (from_csv_file lower show row_numeric dtype_name).
  Notation load path := (from_json_file lower (read_text path) parse).

  (** from_csv_file returns None iff the file is missing, unreadable, unparsable or empty. *)
  Theorem C109_metadata_file_outcomes :
    forall r, (from_csv r = Ok None <-> In r [NotFound C; OtherOSError C; ParserError C; EmptyData C]) /\
      (forall m, from_csv r = Ok (Some m) <-> exists f, r = Read f /\ from_frame f = Ok m) /\
      (r = DecodeError C -> from_csv r = Err EDecode).
  Proof.
    intro r. split; [|split].
    - destruct r as [f| | | | |]; simpl; try (split; auto; fail); try tauto.
      + destruct (from_frame f); split; try discriminate; intros [|[|[|[|[]]]]]; discriminate.
      + split; [discriminate|]. intros [|[|[|[|[]]]]]; discriminate.
    - intro m. destruct r as [f| | | | |]; simpl; try (split; [discriminate|intros (g & X & _); discriminate]).
      destruct (from_frame f) as [m'|e] eqn:E.
      + split; [intro H; injection H as <-; eauto|]. intros (g & X & Y). injection X as <-. congruence.
      + split; [discriminate|]. intros (g & X & Y). injection X as <-. congruence.
    - intros ->. reflexivity.
  Qed.
  (** An InstanceSpace is returned iff both files load, and then it holds what they say; None iff the
      metadata file gives None, or it loads and the options file gives None; the options file is
      opened iff the metadata was loaded. *)
  Theorem C109_from_files :
    forall mp op opened r, from_files mp op = (opened, r) ->
      (forall is, r = Ok (Some is) <-> from_csv (read_csv mp) = Ok (Some (is_metadata is)) /\ load op = Ok (Some (is_options is))) /\
      (r = Ok None <-> from_csv (read_csv mp) = Ok None \/ (exists m, from_csv (read_csv mp) = Ok (Some m)) /\ load op = Ok None) /\
      (opened = [mp; op] <-> exists m, from_csv (read_csv mp) = Ok (Some m)) /\ (opened = [mp; op] \/ opened = [mp]).
  Proof.
    intros mp op opened r H. unfold instance_space_from_files in H.
    destruct (from_csv (read_csv mp)) as [[m|]|e].
    - injection H as <- <-. split; [|split; [|split; [split; eauto|auto]]].
      + intro is. destruct (load op) as [[o|]|x].
        * split; [intro X; injection X as <-; auto|]. intros [X Y]. destruct is. simpl in *. congruence.
        * split; [discriminate|]. intros [_ Y]. discriminate.
        * split; [discriminate|]. intros [_ Y]. discriminate.
      + destruct (load op) as [[o|]|x]; (split; [try discriminate; eauto|]; intros [X|[X Y]]; congruence).
    - injection H as <- <-. split; [|split; [split; auto|split; [|auto]]].
      + intro is. split; [discriminate|intros [X _]; discriminate].
      + split; [discriminate|intros (m & X); discriminate].
    - injection H as <- <-. split; [|split; [|split; [|auto]]].
      + intro is. split; [discriminate|intros [X _]; discriminate].
      + split; [discriminate|]. intros [X|[(m & X) _]]; discriminate.
      + split; [discriminate|intros (m & X); discriminate].
  Qed.
  (** instance_space_from_directory takes metadata.csv and options.json of the directory. *)
  Theorem C109_from_directory :
    forall d is, snd (from_directory d) = Ok (Some is) <->
      from_csv (read_csv (append d "/metadata.csv")) = Ok (Some (is_metadata is)) /\ load (append d "/options.json") = Ok (Some (is_options is)).
  Proof.
    intros d is. unfold instance_space_from_directory. destruct (from_files (append d "/metadata.csv") (append d "/options.json")) as [o r] eqn:E.
    apply C109_from_files in E. destruct E as [E _]. apply E.
  Qed.
End Meta.

(* ------------------------------------------------------------------ examples *)
Definition col n b l : column nat := {| c_name := n; c_numeric := b; c_cells := l |}.
Definition ex_cols (k : nat) : list (column nat) :=
  [col "INSTANCES" true (seq 1 k); col "algo_B" true (seq 10 k); col "Feature_z" true (seq 20 k); col "note" false (seq 30 k);
   col "feature_a" true (seq 40 k); col "Algo_A" true (seq 50 k)].
Notation ex_from f := (from_data_frame ascii_lower (fun n => n + 100) (forallb (fun b => b)) (fun n => Nat.eqb n 108) f).
Example C108_met :
  let f := {| f_rows := 2; f_cols := ex_cols 2 |} in
  rectangular f /\ (exists c, only f (called ascii_lower "instances") c) /\
  ex_from f = Ok {| feature_names := ["Feature_z"; "feature_a"]; algorithm_names := ["algo_B"; "Algo_A"];
    instance_labels := SSeries false [101; 102]; instance_sources := None;
    features := [[20; 40]; [21; 41]]; algorithms := [[10; 50]; [11; 51]] |}.
Proof.
  split; [|split].
  - intros c H. simpl in H. repeat (destruct H as [<-|H]; [reflexivity|]). destruct H.
  - eexists. exists [], (tl (ex_cols 2)). split; [reflexivity|]. split; [reflexivity|]. intros c H. simpl in H.
    repeat (destruct H as [<-|H]; [intro X; vm_compute in X; discriminate|]). destruct H.
  - vm_compute. reflexivity.
Qed.
(** With a single instance the labels are no column but one value, and reading may raise. *)
Theorem C108_labels_of_one_instance_refuted :
  exists f c m, rectangular f /\ only f (called ascii_lower "instances") c /\ f_rows f = 1 /\ ex_from f = Ok m /\
    (forall b l, instance_labels m <> SSeries b l) /\
    exists f', rectangular f' /\ f_rows f' = 1 /\ ex_from f' = Err EAstype.
Proof.
  exists {| f_rows := 1; f_cols := ex_cols 1 |}, (hd (col "" true []) (ex_cols 1)). eexists. split.
  { intros c H. simpl in H. repeat (destruct H as [<-|H]; [reflexivity|]). destruct H. }
  split. { exists [], (tl (ex_cols 1)). split; [reflexivity|]. split; [reflexivity|]. intros c H. simpl in H.
    repeat (destruct H as [<-|H]; [intro X; vm_compute in X; discriminate|]). destruct H. }
  split; auto. split; [vm_compute; reflexivity|]. split; [discriminate|].
  exists {| f_rows := 1; f_cols := [col "Instances" false [108]] |}. split; [intros c [<-|[]]; reflexivity|]. split; reflexivity.
Qed.
(** Two columns of labels. *)
Example C108_shape_met :
  let f k := {| f_rows := k; f_cols := col "instances" false (seq 200 k) :: ex_cols k |} in
  (exists m, ex_from (f 1) = Ok m /\ instance_labels m = SSeries false [200; 1]) /\
  (exists m, ex_from (f 2) = Ok m /\ instance_labels m = SFrame [col "instances" false [200; 201]; col "INSTANCES" true [1; 2]]).
Proof. split; eexists; (split; [vm_compute; reflexivity|reflexivity]). Qed.
(** A file without a column of instance labels is accepted. *)
Theorem C108_labels_are_required_refuted :
  exists f m, rectangular f /\ f_rows f = 2 /\ (forall c, In c (f_cols f) -> ~ called ascii_lower "instances" c) /\
    ex_from f = Ok m /\ instance_labels m = SFrame [] /\ feature_names m = ["Feature_z"; "feature_a"].
Proof.
  exists {| f_rows := 2; f_cols := tl (ex_cols 2) |}. eexists. split.
  { intros c H. simpl in H. repeat (destruct H as [<-|H]; [reflexivity|]). destruct H. }
  split; auto. split. { intros c H. simpl in H. repeat (destruct H as [<-|H]; [intro X; vm_compute in X; discriminate|]). destruct H. }
  split; [vm_compute; reflexivity|]. split; reflexivity.
Qed.
(** Both ways to fail, and success. *)
Example C109_met :
  let csv p := if String.eqb p "d/metadata.csv" then Read {| f_rows := 2; f_cols := ex_cols 2 |} else NotFound nat in
  let text p := if String.eqb p "d/options.json" then Some "{}" else None in
  let from := instance_space_from_directory ascii_lower (fun n => n + 100) (forallb (fun b => b)) (fun n => Nat.eqb n 108) csv text
                (fun _ => Some (JObj [])) in
  (exists is, from "d" = (["d/metadata.csv"; "d/options.json"], Ok (Some is))) /\
  from "e" = (["e/metadata.csv"], Ok None) /\
  snd (instance_space_from_files ascii_lower (fun n => n) (forallb (fun b => b)) (fun _ => false) csv text (fun _ => Some (JObj [])) "d/metadata.csv" "x") = Ok None.
Proof. split; [eexists; vm_compute; reflexivity|]. split; vm_compute; reflexivity. Qed.

Print Assumptions C108_features_and_algorithms.
Print Assumptions C108_instance_labels.
Print Assumptions C108_sources.
Print Assumptions C108_nothing_else_matters.
Print Assumptions C108_raises_only_for_one_row.
Print Assumptions C108_labels_of_one_instance_refuted.
Print Assumptions C108_labels_are_required_refuted.
Print Assumptions C109_metadata_file_outcomes.
Print Assumptions C109_from_files.
Print Assumptions C109_from_directory.
Print Assumptions C108_shape_of_the_labels.
