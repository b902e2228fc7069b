(** C139: the columns of the metadata. *)
From Coq Require Import Lia.
From Verif Require Import Base BaseLemmas Num PreprocModel PreprocSpec PreprocProofs PreprocProps SavedProps ColumnsSpec.
Set Implicit Arguments.
Open Scope nat_scope.
Open Scope list_scope.

(* ---------------------------------------------------------- tables and their columns *)
Definition table_of (n : nat) (cols : list (string * list num)) : list (list num) :=
  map (fun i => map (fun c : string * list num => nth i (snd c) None) cols) (seq 0 n).
Definition good_columns (n : nat) (cols : list (string * list num)) : Prop := Forall (fun c => length (snd c) = n) cols.

Lemma nth_column (m : list (list num)) c i : i < length m -> nth i (map (fun row => nth c row None) m) None = nth c (nth i m []) None.
Proof. intros H. rewrite (nth_map_lt (fun row => nth c row None) m None [] H). auto. Qed.
Lemma named_labels labels m : map fst (named labels m) = labels.
Proof. unfold named. rewrite map_map. simpl. apply (@take_all _ ""%string labels). Qed.
Lemma named_good labels m n : length m = n -> good_columns n (named labels m).
Proof. intros H. apply Forall_forall. intros c I. apply in_map_iff in I. destruct I as (k & <- & _). simpl. rewrite map_length. auto. Qed.
Lemma list_nth {A} (d : A) l l' : length l = length l' -> (forall i, i < length l -> nth i l d = nth i l' d) -> l = l'.
Proof. intros L H. apply nth_ext with (d := d) (d' := d); auto. Qed.
Lemma table_named labels m n : table n (length labels) m -> table_of n (named labels m) = m.
Proof.
  intros [L W]. apply (@list_nth _ []); unfold table_of; rewrite map_length, seq_length; auto.
  intros i Hi. rewrite (nth_map_lt (fun i => map (fun c : string * list num => nth i (snd c) None) (named labels m)) (seq 0 n) [] 0) by (rewrite seq_length; auto).
  rewrite seq_nth by auto. simpl. assert (Wr : length (nth i m []) = length labels).
  { rewrite Forall_forall in W. apply W, nth_In. lia. }
  pose proof (@take_all num None (nth i m [])) as TA. rewrite Wr in TA. etransitivity; [|exact TA].
  unfold named. rewrite map_map. simpl. unfold take_at. apply map_ext. intros c. apply nth_column. lia.
Qed.
Lemma table_of_table n cols : table n (length (map fst cols)) (table_of n cols).
Proof.
  unfold table_of. split; [rewrite map_length, seq_length; auto|]. apply Forall_forall. intros r I. apply in_map_iff in I. destruct I as (i & <- & _).
  rewrite !map_length. auto.
Qed.
Lemma named_table n cols : good_columns n cols -> named (map fst cols) (table_of n cols) = cols.
Proof.
  intros G. unfold named. rewrite map_length. etransitivity; [|exact (@take_all _ (""%string, []) cols)]. unfold take_at.
  apply map_ext_in. intros c I. apply in_seq in I. destruct (nth c cols (""%string, [])) as [l col] eqn:E. f_equal.
  - change ""%string with (fst (""%string, @nil num)). rewrite map_nth, E. auto.
  - assert (Lc : length col = n).
    { unfold good_columns in G. rewrite Forall_forall in G. specialize (G (l, col)). apply G. rewrite <- E. apply nth_In. lia. }
    unfold table_of. rewrite map_map. pose proof (@take_all num None col) as TA. rewrite Lc in TA. etransitivity; [|exact TA]. unfold take_at. apply map_ext. intros i.
    rewrite (nth_map_lt (fun c : string * list num => nth i (snd c) None) cols None (""%string, [])) by lia. rewrite E. auto.
Qed.
Lemma cell_table n cols i c : i < n -> c < length cols -> cell (table_of n cols) i c = nth i (snd (nth c cols (""%string, []))) None.
Proof.
  intros Hi Hc. unfold cell, table_of.
  rewrite (nth_map_lt (fun i => map (fun c : string * list num => nth i (snd c) None) cols) (seq 0 n) [] 0) by (rewrite seq_length; auto).
  rewrite seq_nth by auto. simpl. apply (nth_map_lt (fun c : string * list num => nth i (snd c) None) cols None (""%string, []) Hc).
Qed.

(* ---------------------------------------------------------- selection *)
Definition lookup (l : string) (cols : list (string * list num)) : list num := snd (nth (index_of l (map fst cols)) cols (""%string, [])).
Definition selection (req : option (list string)) (cols : list (string * list num)) : list (string * list num) :=
  match req with
  | None => cols
  | Some names => let f := with_names names cols in if nonempty f then map (fun c => (fst c, lookup (fst c) f)) f else cols
  end.
Lemma with_names_labels names cols : map fst (with_names names cols) = filter (fun l => mem string_dec l names) (map fst cols).
Proof. induction cols as [|c t IH]; simpl; auto. destruct (mem string_dec (fst c) names); simpl; rewrite IH; auto. Qed.
Lemma lookup_filter l names cols : mem string_dec l names = true -> In l (map fst cols) -> lookup l (with_names names cols) = lookup l cols.
Proof.
  intros M. unfold lookup. induction cols as [|c t IH]; simpl; intros I; [destruct I|].
  destruct (mem string_dec (fst c) names) eqn:E; simpl.
  - destruct (String.eqb_spec (fst c) l) as [X|X]; auto. destruct I as [I|I]; [contradiction|]. apply IH; auto.
  - destruct (String.eqb_spec (fst c) l) as [X|X]; [congruence|]. destruct I as [I|I]; [contradiction|]. apply IH; auto.
Qed.
Lemma selection_good n req cols : good_columns n cols -> good_columns n (selection req cols).
Proof.
  intros G. destruct req as [names|]; simpl; auto. destruct (nonempty (with_names names cols)); auto.
  apply Forall_forall. intros c I. apply in_map_iff in I. destruct I as (d & <- & I). simpl. unfold lookup.
  unfold good_columns in G. rewrite Forall_forall in G. apply G.
  assert (J : In (nth (index_of (fst d) (map fst (with_names names cols))) (with_names names cols) (""%string, [])) (with_names names cols)).
  { apply nth_In. rewrite <- (map_length fst). destruct (index_of_first (map fst (with_names names cols)) (fst d)) as [A _]; [apply in_map; auto|].
    apply nth_error_Some. congruence. }
  apply filter_In in J. tauto.
Qed.
Lemma select_selection n labels m req : table n (length labels) m ->
  select_columns m labels req = (table_of n (selection req (named labels m)), map fst (selection req (named labels m))).
Proof.
  intros T. destruct req as [names|]; simpl; [|rewrite table_named, named_labels; auto].
  assert (Ef : map fst (with_names names (named labels m)) = filter (fun l => mem string_dec l names) labels)
    by (rewrite with_names_labels, named_labels; auto).
  assert (En : nonempty (filter (fun l => mem string_dec l names) labels) = nonempty (with_names names (named labels m)))
    by (rewrite <- Ef; destruct (with_names names (named labels m)); auto).
  rewrite En. destruct (nonempty (with_names names (named labels m))) eqn:N; [|rewrite table_named, named_labels; auto].
  f_equal; [|rewrite map_map; symmetry; exact Ef]. rewrite <- Ef.
  destruct T as [L W]. unfold table_of. apply (@list_nth _ []); rewrite !map_length, ?seq_length; auto.
  intros i Hi.
  assert (Hs : i < length (seq 0 n)) by (rewrite seq_length, <- L; exact Hi).
  etransitivity; [exact (nth_map_lt _ m [] [] Hi)|]. symmetry. etransitivity; [exact (nth_map_lt _ (seq 0 n) [] 0 Hs)|]. symmetry.
  rewrite seq_length in Hs. cbv beta. rewrite seq_nth by auto. rewrite !map_map. simpl. apply map_ext_in. intros c Ic.
  unfold with_names in Ic. apply filter_In in Ic. destruct Ic as [Ic Mc]. rewrite lookup_filter; [|auto|apply in_map; auto].
  unfold lookup. rewrite named_labels.
  assert (Hc : index_of (fst c) labels < length labels).
  { destruct (index_of_first labels (fst c)) as [A _]; [rewrite <- (named_labels labels m); apply in_map; auto|]. apply nth_error_Some. congruence. }
  unfold named. rewrite (nth_map_lt _ (seq 0 (length labels)) (""%string, []) 0) by (rewrite seq_length; auto). rewrite seq_nth by auto. simpl.
  symmetry. apply nth_column. auto.
Qed.

(* ---------------------------------------------------------- removal *)
Definition has_value (cols : list (string * list num)) (i : nat) : bool := existsb (fun c => negb (isnan (nth i (snd c) None))) cols.
Definition kept (n : nat) (f a : list (string * list num)) : list nat := filter (fun i => has_value f i && has_value a i) (seq 0 n).
Definition enough (rows : list nat) (c : string * list num) : bool :=
  negb (Nat.leb (length rows) (5 * length (filter (fun i => isnan (nth i (snd c) None)) rows))).
Definition restrict (rows : list nat) (c : string * list num) : string * list num := (fst c, map (fun i => nth i (snd c) None) rows).

Lemma row_table n cols i : i < n -> nth i (table_of n cols) [] = map (fun c => nth i (snd c) None) cols.
Proof.
  intros H. unfold table_of. etransitivity; [refine (nth_map_lt _ (seq 0 n) [] 0 _); rewrite seq_length; auto|]. cbv beta. rewrite seq_nth; auto.
Qed.
Lemma has_value_row n cols i : i < n -> has_value cols i = false <-> Forall (fun v => v = None) (nth i (table_of n cols) []).
Proof.
  intros H. rewrite row_table by auto. unfold has_value. rewrite existsb_false_iff, Forall_map, Forall_forall. split; intros X c I; specialize (X c I).
  - destruct (nth i (snd c) None); [discriminate|auto].
  - rewrite X. auto.
Qed.
Lemma restrict_good rows cols : good_columns (length rows) (map (restrict rows) cols).
Proof. apply Forall_forall. intros c I. apply in_map_iff in I. destruct I as (d & <- & _). simpl. apply map_length. Qed.
Lemma subtable_table n cols rows idx : (forall i, In i rows -> i < n) -> (forall c, In c idx -> c < length cols) ->
  subtable (table_of n cols) rows idx = table_of (length rows) (map (restrict rows) (take_at (""%string, []) cols idx)).
Proof.
  intros Hr Hi. unfold subtable, table_of at 2. apply (@list_nth _ []); rewrite !map_length, ?seq_length; auto.
  intros k Hk. etransitivity; [exact (nth_map_lt _ rows [] 0 Hk)|]. symmetry.
  etransitivity; [refine (nth_map_lt _ (seq 0 (length rows)) [] 0 _); rewrite seq_length; auto|]. cbv beta. rewrite seq_nth by auto.
  unfold take_at. rewrite !map_map. apply map_ext_in. intros c Ic. simpl.
  rewrite cell_table by (auto using nth_In). exact (nth_map_lt (fun i => nth i (snd (nth c cols (""%string, []))) None) rows None 0 Hk).
Qed.
Lemma rows_table n cols rows : (forall i, In i rows -> i < n) -> take_at [] (table_of n cols) rows = table_of (length rows) (map (restrict rows) cols).
Proof.
  intros Hr. rewrite <- (@take_all _ (""%string, []) cols) at 2. rewrite <- (@subtable_table n cols rows) by (auto; intros c I; apply in_seq in I; lia).
  unfold take_at, subtable. apply map_ext_in. intros i I. rewrite row_table by auto.
  etransitivity; [|apply map_ext_in; intros c Ic; symmetry; apply cell_table; [auto|apply in_seq in Ic; lia]].
  rewrite <- (@take_all _ (""%string, []) cols) at 1. unfold take_at. rewrite map_map. reflexivity.
Qed.
Lemma take_filter {A} (d : A) (p : A -> bool) l : take_at d l (filter (fun c => p (nth c l d)) (seq 0 (length l))) = filter p l.
Proof.
  rewrite <- (@take_all _ d l) at 3. unfold take_at. generalize (seq 0 (length l)). intros s.
  induction s as [|k s IH]; simpl; auto. destruct (p (nth k l d)); simpl; rewrite IH; auto.
Qed.
Lemma removal (L S : Type) (dl : L) (ds : S) n f a (s : option (list S)) (il : list L) :
  good_columns n f -> good_columns n a -> length il = n -> (forall l, s = Some l -> length l = n) ->
  remove_missing (table_of n f) (table_of n a) s (map fst f) (length (map fst f)) il =
  let rows := kept n f a in
  if Nat.eqb (length rows) 0 then Err EZeroDiv
  else let f' := map (restrict rows) (filter (enough rows) f) in
       Ok (table_of (length rows) f', table_of (length rows) (map (restrict rows) a), take_at dl il rows, map fst f', option_map (fun l => take_at ds l rows) s).
Proof.
  intros Gf Ga Li Ls.
  destruct (@remove_missing_spec L S dl ds (table_of n f) (table_of n a) s (map fst f) (length (map fst f)) il n (length (map fst a))
    (@table_of_table n f) (@table_of_table n a) Li eq_refl Ls) as (rows & cols & Ir & Hr & Ic & Hc & E).
  assert (rows = kept n f a) as ->.
  { apply same_elements; auto; [apply increasing_filter, increasing_seq|]. intros i. rewrite Hr. unfold kept. rewrite filter_In, in_seq.
    assert (X : i < n -> (~ empty_instance (table_of n f) (table_of n a) i <-> has_value f i && has_value a i = true)).
    { intros Hi. unfold empty_instance. rewrite <- !has_value_row by auto. destruct (has_value f i), (has_value a i); simpl; intuition congruence. }
    split; intros [H1 H2]; [split; [lia|apply X; auto]|split; [lia|apply X; [lia|auto]]]. }
  rewrite E. cbv zeta. destruct (Nat.eqb_spec (length (kept n f a)) 0) as [|N]; auto.
  set (rows := kept n f a) in *.
  assert (Hrn : forall i, In i rows -> i < n) by (intros i I; apply Hr in I; tauto).
  assert (cols = filter (fun c => enough rows (nth c f (""%string, []))) (seq 0 (length f))) as ->.
  { apply same_elements; auto; [apply increasing_filter, increasing_seq|]. intros c. rewrite Hc, filter_In, in_seq, map_length.
    assert (X : c < length f -> (~ (rows <> [] /\ missing_often (table_of n f) rows c) <-> enough rows (nth c f (""%string, [])) = true)).
    { intros Hl. unfold missing_often, enough. rewrite negb_true_iff, Nat.leb_gt.
      replace (filter (fun i => isnan (cell (table_of n f) i c)) rows) with (filter (fun i => isnan (nth i (snd (nth c f (""%string, []))) None)) rows)
        by (apply filter_ext_in; intros i I; rewrite cell_table; auto).
      split; [|lia]. intros X. apply Nat.nle_gt. intros Y. apply X. split; auto. intros Z. apply N. rewrite Z. auto. }
    split; intros [H1 H2]; [split; [lia|apply X; auto]|split; [lia|apply X; [lia|auto]]]. }
  assert (E1 : subtable (table_of n f) rows (filter (fun c => enough rows (nth c f (""%string, []))) (seq 0 (length f))) =
    table_of (length rows) (map (restrict rows) (filter (enough rows) f))).
  { rewrite subtable_table; auto; [rewrite take_filter; auto|]. intros c I. apply filter_In in I. rewrite in_seq in I. lia. }
  assert (E2 : take_at ""%string (map fst f) (filter (fun c => enough rows (nth c f (""%string, []))) (seq 0 (length f))) =
    map fst (map (restrict rows) (filter (enough rows) f))).
  { rewrite map_map. etransitivity; [|apply (f_equal (map fst)), (@take_filter _ (""%string, []) (enough rows) f)].
    unfold take_at. rewrite map_map. apply map_ext. intros c. exact (map_nth fst f (""%string, []) c). }
  rewrite E1, E2, (@rows_table n a rows Hrn). reflexivity.
Qed.

(** the stage in terms of columns *)
Lemma run_columns (L S : Type) (dl : L) (ds : S) features algorithms fnames anames feats algos (sources : option (list S)) (labels : list L) n :
  table n (length fnames) features -> table n (length anames) algorithms -> length labels = n -> (forall l, sources = Some l -> length l = n) ->
  preproc_run features algorithms fnames anames feats algos sources labels =
  let f := selection feats (named fnames features) in let a := selection algos (named anames algorithms) in
  let rows := kept n f a in
  if Nat.eqb (length rows) 0 then Err EZeroDiv
  else let f' := map (restrict rows) (filter (enough rows) f) in let a' := map (restrict rows) a in
       Ok {| p_inst := take_at dl labels rows; p_feat := map fst f'; p_algo := map fst a'; p_x := table_of (length rows) f';
             p_y := table_of (length rows) a'; p_s := option_map (fun l => take_at ds l rows) sources;
             p_x_raw := table_of (length rows) f'; p_y_raw := table_of (length rows) a' |}.
Proof.
  intros Tf Ta Ll Ls. unfold preproc_run. rewrite (@select_selection n fnames features feats Tf), (@select_selection n anames algorithms algos Ta).
  rewrite (@removal L S dl ds n); auto; try (apply selection_good, named_good; apply Tf || apply Ta).
  cbv zeta. destruct (Nat.eqb _ 0); auto.
  assert (X : forall rows a, map fst (map (restrict rows) a) = map fst a) by (intros; rewrite map_map; reflexivity). rewrite !X. reflexivity.
Qed.

(** the same without default values *)
Definition pick {A} (l : list A) (rows : list nat) : list A := flat_map (fun i => match nth_error l i with Some a => [a] | None => [] end) rows.
Lemma pick_take A (d : A) l rows : (forall i, In i rows -> i < length l) -> take_at d l rows = pick l rows.
Proof.
  intros H. induction rows as [|i t IH]; simpl; auto. destruct (nth_error l i) as [a|] eqn:E.
  - simpl. rewrite (nth_error_nth _ _ _ E). f_equal. apply IH. intros; apply H; right; auto.
  - exfalso. apply nth_error_None in E. specialize (H i (or_introl eq_refl)). lia.
Qed.
Lemma kept_lt n f a i : In i (kept n f a) -> i < n.
Proof. unfold kept. rewrite filter_In, in_seq. lia. Qed.
Lemma run_without_sources (L S : Type) x y fl al feats algos (il : list L) :
  @preproc_run L S x y fl al feats algos None il =
  match @preproc_run L unit x y fl al feats algos None il with
  | Err e => Err e
  | Ok o => Ok {| p_inst := p_inst o; p_feat := p_feat o; p_algo := p_algo o; p_x := p_x o; p_y := p_y o; p_s := None; p_x_raw := p_x_raw o; p_y_raw := p_y_raw o |}
  end.
Proof.
  unfold preproc_run. destruct (select_columns x fl feats) as [x1 fl1], (select_columns y al algos) as [y1 al1]. unfold remove_missing. cbv zeta. simpl option_map.
  destruct (existsb (fun b => b) (map (fun p => forallb isnan (fst p) || forallb isnan (snd p)) (combine x1 y1)));
  match goal with |- context [existsb (fun b : bool => b) ?l] => destruct (existsb (fun b : bool => b) l) end;
  match goal with |- context [Nat.eqb ?a 0] => destruct (Nat.eqb a 0) end; reflexivity.
Qed.
Lemma run_pick (L S : Type) features algorithms fnames anames feats algos (sources : option (list S)) (labels : list L) n :
  table n (length fnames) features -> table n (length anames) algorithms -> length labels = n -> (forall l, sources = Some l -> length l = n) ->
  preproc_run features algorithms fnames anames feats algos sources labels =
  let f := selection feats (named fnames features) in let a := selection algos (named anames algorithms) in
  let rows := kept n f a in
  if Nat.eqb (length rows) 0 then Err EZeroDiv
  else let f' := map (restrict rows) (filter (enough rows) f) in let a' := map (restrict rows) a in
       Ok {| p_inst := pick labels rows; p_feat := map fst f'; p_algo := map fst a'; p_x := table_of (length rows) f';
             p_y := table_of (length rows) a'; p_s := option_map (fun l => pick l rows) sources;
             p_x_raw := table_of (length rows) f'; p_y_raw := table_of (length rows) a' |}.
Proof.
  intros Tf Ta Ll Ls. destruct labels as [|dl labels0] eqn:El.
  { simpl in Ll. subst n. cbv zeta. simpl. destruct Tf as [Lx _], Ta as [Ly _]. destruct features; [|discriminate]. destruct algorithms; [|discriminate].
    unfold preproc_run, select_columns. destruct feats as [fs|], algos as [as_|]; simpl;
      repeat match goal with |- context [nonempty ?z] => destruct (nonempty z) end; simpl; unfold remove_missing; simpl;
      destruct (existsb _ _); reflexivity. }
  destruct sources as [[|ds l]|] eqn:Es; [specialize (Ls [] eq_refl); simpl in Ls, Ll; lia| |]; rewrite <- El in *; clear El labels0.
  - rewrite (@run_columns L S dl ds) with (n := n); auto. cbv zeta. destruct (Nat.eqb _ 0); auto.
    rewrite (@pick_take _ dl labels) by (intros i I; apply kept_lt in I; lia). simpl option_map.
    rewrite (@pick_take _ ds (ds :: l)) by (intros i I; apply kept_lt in I; rewrite (Ls _ eq_refl); auto). reflexivity.
  - rewrite run_without_sources, (@run_columns L unit dl tt) with (n := n); auto; [|discriminate]. cbv zeta. destruct (Nat.eqb _ 0); auto.
    rewrite (@pick_take _ dl labels) by (intros i I; apply kept_lt in I; lia). reflexivity.
Qed.

Lemma nodup_lookup cols c : NoDup (map fst cols) -> In c cols -> lookup (fst c) cols = snd c.
Proof.
  unfold lookup. induction cols as [|d t IH]; simpl; intros N I; [destruct I|]. inversion N; subst. destruct (String.eqb_spec (fst d) (fst c)) as [E|E].
  - destruct I as [->|I]; auto. exfalso. apply H1. rewrite E. apply in_map. auto.
  - destruct I as [->|I]; [congruence|]. apply IH; auto.
Qed.
Lemma selection_nodup req cols : NoDup (map fst cols) ->
  selection req cols = match req with None => cols | Some names => if nonempty (with_names names cols) then with_names names cols else cols end.
Proof.
  intros N. destruct req as [names|]; simpl; auto. destruct (nonempty (with_names names cols)); auto.
  assert (M : NoDup (map fst (with_names names cols))) by (rewrite with_names_labels; apply NoDup_filter; auto).
  etransitivity; [|apply map_id]. apply map_ext_in. intros c I. rewrite nodup_lookup by auto. destruct c; auto.
Qed.
Lemma filter_permutation {A} (p : A -> bool) l l' : Permutation l l' -> Permutation (filter p l) (filter p l').
Proof.
  induction 1; simpl; auto.
  - destruct (p x); auto.
  - destruct (p x), (p y); auto. constructor.
  - etransitivity; eauto.
Qed.
Lemma selection_permutation req cols cols' : NoDup (map fst cols) -> Permutation cols cols' -> Permutation (selection req cols) (selection req cols').
Proof.
  intros N P. assert (N' : NoDup (map fst cols')) by (eapply Permutation_NoDup; [apply Permutation_map; eauto|auto]).
  rewrite !selection_nodup by auto. destruct req as [names|]; auto.
  assert (Q := filter_permutation (fun c => mem string_dec (fst c) names) P). fold (with_names names cols) (with_names names cols') in Q.
  destruct (with_names names cols) as [|c t] eqn:E, (with_names names cols') as [|c' t'] eqn:E'; simpl; auto.
  - apply Permutation_nil in Q. discriminate.
  - symmetry in Q. apply Permutation_nil in Q. discriminate.
Qed.
Lemma existsb_permutation {A} (p : A -> bool) l l' : Permutation l l' -> existsb p l = existsb p l'.
Proof. induction 1; simpl; auto; [rewrite IHPermutation; auto|destruct (p x), (p y); auto|congruence]. Qed.
Lemma kept_permutation n f f' a a' : Permutation f f' -> Permutation a a' -> kept n f a = kept n f' a'.
Proof. intros P Q. unfold kept. apply filter_ext. intros i. unfold has_value. rewrite (existsb_permutation _ P), (existsb_permutation _ Q). auto. Qed.

(** Listing features and algorithms in another order: the same instances, and the same columns in the other order. *)
Theorem C139_order_of_columns :
  forall (L S : Type) features algorithms features' algorithms' fnames anames fnames' anames' feats algos (sources : option (list S)) (labels : list L) n,
    table n (length fnames) features -> table n (length anames) algorithms ->
    table n (length fnames') features' -> table n (length anames') algorithms' ->
    length labels = n -> (forall l, sources = Some l -> length l = n) ->
    NoDup fnames -> NoDup anames ->
    Permutation (named fnames features) (named fnames' features') -> Permutation (named anames algorithms) (named anames' algorithms') ->
    match preproc_run features algorithms fnames anames feats algos sources labels,
          preproc_run features' algorithms' fnames' anames' feats algos sources labels with
    | Ok o, Ok o' =>
        p_inst o' = p_inst o /\ p_s o' = p_s o /\
        Permutation (named (p_feat o) (p_x o)) (named (p_feat o') (p_x o')) /\
        Permutation (named (p_algo o) (p_y o)) (named (p_algo o') (p_y o'))
    | Err _, Err _ => True
    | _, _ => False
    end.
Proof.
  intros L S features algorithms features' algorithms' fnames anames fnames' anames' feats algos sources labels n Tf Ta Tf' Ta' Ll Ls Nf Na Pf Pa.
  rewrite (@run_pick L S features algorithms fnames anames feats algos sources labels n), (@run_pick L S features' algorithms' fnames' anames' feats algos sources labels n) by auto.
  cbv zeta.
  assert (Qf := selection_permutation feats ltac:(rewrite named_labels; exact Nf) Pf).
  assert (Qa := selection_permutation algos ltac:(rewrite named_labels; exact Na) Pa).
  rewrite <- (kept_permutation n Qf Qa). set (rows := kept n _ _). destruct (Nat.eqb (length rows) 0); auto. cbn [p_inst p_s p_feat p_x p_algo p_y].
  split; auto. split; auto. rewrite !named_table by apply restrict_good. split; apply Permutation_map; auto. apply filter_permutation. auto.
Qed.

(** Columns that are not requested have no influence. *)
Theorem C139_columns_not_requested :
  forall (L S : Type) features algorithms features' algorithms' fnames anames fnames' anames' feats algos (sources : option (list S)) (labels : list L) n,
    table n (length fnames) features -> table n (length anames) algorithms ->
    table n (length fnames') features' -> table n (length anames') algorithms' ->
    length labels = n -> (forall l, sources = Some l -> length l = n) ->
    with_names feats (named fnames features) = with_names feats (named fnames' features') ->
    with_names algos (named anames algorithms) = with_names algos (named anames' algorithms') ->
    (exists name, In name feats /\ In name fnames) -> (exists name, In name algos /\ In name anames) ->
    preproc_run features algorithms fnames anames (Some feats) (Some algos) sources labels =
    preproc_run features' algorithms' fnames' anames' (Some feats) (Some algos) sources labels.
Proof.
  intros L S features algorithms features' algorithms' fnames anames fnames' anames' feats algos sources labels n Tf Ta Tf' Ta' Ll Ls Ef Ea (nf & If & Jf) (na & Ia & Ja).
  rewrite (@run_pick L S features algorithms fnames anames (Some feats) (Some algos) sources labels n),
    (@run_pick L S features' algorithms' fnames' anames' (Some feats) (Some algos) sources labels n) by auto.
  assert (N : forall names labs m x, In x names -> In x labs -> nonempty (with_names names (named labs m)) = true).
  { intros names labs m x I J. assert (K : In x (map fst (with_names names (named labs m)))).
    { rewrite with_names_labels, named_labels. apply filter_In. split; auto. apply mem_in. auto. }
    destruct (with_names names (named labs m)); [destruct K|auto]. }
  unfold selection. rewrite <- Ef, <- Ea. rewrite (N _ _ _ _ If Jf), (N _ _ _ _ Ia Ja). reflexivity.
Qed.

(** With two columns of one name the order matters: the first is taken for both. *)
Theorem C139_order_of_columns_of_one_name_refuted :
  exists features features' fnames algorithms anames feats (labels : list nat) o o',
    table 2 (length fnames) features /\ table 2 (length fnames) features' /\ table 2 (length anames) algorithms /\ NoDup anames /\
    Permutation (named fnames features) (named fnames features') /\
    preproc_run features algorithms fnames anames (Some feats) None (@None (list nat)) labels = Ok o /\
    preproc_run features' algorithms fnames anames (Some feats) None (@None (list nat)) labels = Ok o' /\
    ~ Permutation (named (p_feat o) (p_x o)) (named (p_feat o') (p_x o')).
Proof.
  exists [[q 1; q 2]; [q 3; q 4]], [[q 2; q 1]; [q 4; q 3]], ["f"; "f"]%string, [[q 1]; [q 1]], ["a"]%string, ["f"]%string, [1; 2].
  do 2 eexists. do 3 (split; [repeat split; repeat constructor|]). split; [repeat constructor; simpl; tauto|]. split; [apply perm_swap|].
  split; [vm_compute; reflexivity|]. split; [vm_compute; reflexivity|]. intros P. apply Permutation_in with (x := ("f"%string, [q 1; q 3])) in P; [|vm_compute; auto].
  vm_compute in P. destruct P as [P|[P|[]]]; discriminate.
Qed.

(** More features or algorithms (none being requested) never lose an instance ... *)
Theorem C139_more_columns :
  forall (L S : Type) features algorithms features' algorithms' fnames anames fnames' anames' (sources : option (list S)) (labels : list L) n o,
    table n (length fnames) features -> table n (length anames) algorithms ->
    table n (length fnames') features' -> table n (length anames') algorithms' ->
    length labels = n -> (forall l, sources = Some l -> length l = n) ->
    incl (named fnames features) (named fnames' features') -> incl (named anames algorithms) (named anames' algorithms') ->
    preproc_run features algorithms fnames anames None None sources labels = Ok o ->
    exists o', preproc_run features' algorithms' fnames' anames' None None sources labels = Ok o' /\
      forall l, In l (p_inst o) -> In l (p_inst o').
Proof.
  intros L S features algorithms features' algorithms' fnames anames fnames' anames' sources labels n o Tf Ta Tf' Ta' Ll Ls If Ia.
  rewrite (@run_pick L S features algorithms fnames anames None None sources labels n),
    (@run_pick L S features' algorithms' fnames' anames' None None sources labels n) by auto.
  unfold selection. cbv zeta.
  assert (K : forall i, In i (kept n (named fnames features) (named anames algorithms)) -> In i (kept n (named fnames' features') (named anames' algorithms'))).
  { intros i. unfold kept. rewrite !filter_In, !andb_true_iff. unfold has_value. rewrite !existsb_exists. firstorder. }
  revert K. generalize (kept n (named fnames features) (named anames algorithms)), (kept n (named fnames' features') (named anames' algorithms')). intros r r' K.
  destruct (Nat.eqb_spec (length r) 0) as [|N]; [discriminate|]. intros E. injection E as <-. cbn [p_inst].
  destruct (Nat.eqb_spec (length r') 0) as [N'|N'].
  - exfalso. destruct r as [|i r]; [apply N; auto|]. specialize (K i (or_introl eq_refl)). destruct r'; [destruct K|discriminate].
  - eexists. split; [reflexivity|]. cbn [p_inst]. unfold pick. intros l. rewrite !in_flat_map. intros (i & I & X). exists i. auto.
Qed.
(** ... but can lose another feature. *)
Theorem C139_more_columns_keep_features_refuted :
  exists features features' fnames fnames' algorithms anames (labels : list nat) o o' name,
    table 5 (length fnames) features /\ table 5 (length fnames') features' /\ table 5 (length anames) algorithms /\ NoDup fnames' /\
    incl (named fnames features) (named fnames' features') /\
    preproc_run features algorithms fnames anames None None (@None (list nat)) labels = Ok o /\
    preproc_run features' algorithms fnames' anames None None (@None (list nat)) labels = Ok o' /\
    In name (p_feat o) /\ ~ In name (p_feat o').
Proof.
  exists [[q 1]; [q 2]; [q 3]; [q 4]; [None]], [[q 1; q 1]; [q 2; q 1]; [q 3; q 1]; [q 4; q 1]; [None; q 1]], ["f"]%string, ["f"; "g"]%string,
    [[q 1]; [q 1]; [q 1]; [q 1]; [q 1]], ["a"]%string, [1; 2; 3; 4; 5]. do 2 eexists. exists "f"%string.
  do 3 (split; [repeat split; repeat constructor|]). split; [repeat constructor; simpl; intuition discriminate|]. split; [intros c [<-|[]]; vm_compute; auto|].
  split; [vm_compute; reflexivity|]. split; [vm_compute; reflexivity|]. split; vm_compute; [auto|intuition discriminate].
Qed.

(** three features and two algorithms listed in two orders; a table with a further, unrequested feature *)
Example C139_met :
  let fn := ["f1"; "f2"; "f3"]%string in let fn' := ["f3"; "f1"; "f2"]%string in
  let ex' := map (fun r => [nth 2 r None; nth 0 r None; nth 1 r None]) ex_x in
  table 5 3 ex_x /\ table 5 3 ex' /\ table 5 2 ex_y /\ NoDup fn /\ Permutation (named fn ex_x) (named fn' ex') /\
  (exists o o', preproc_run ex_x ex_y fn ["a1"; "a2"]%string None None (Some [7; 7; 8; 8; 9]) [101; 102; 103; 104; 105] = Ok o /\
     preproc_run ex' ex_y fn' ["a1"; "a2"]%string None None (Some [7; 7; 8; 8; 9]) [101; 102; 103; 104; 105] = Ok o' /\
     p_inst o = [101; 104; 105] /\ p_inst o' = [101; 104; 105]) /\
  let ex2 := map (fun r => r ++ [q 0]) ex_x in
  table 5 4 ex2 /\ with_names ["f1"; "f3"]%string (named fn ex_x) = with_names ["f1"; "f3"]%string (named (fn ++ ["f4"]%string) ex2) /\
  incl (named fn ex_x) (named (fn ++ ["f4"]%string) ex2).
Proof.
  cbv zeta. do 3 (split; [repeat split; repeat constructor|]). split; [repeat constructor; simpl; intuition discriminate|].
  split; [vm_compute; apply Permutation_sym; exact (Permutation_cons_append _ _ ) || apply Permutation_sym, (Permutation_cons_append [_; _] _)|].
  split; [do 2 eexists; repeat split; vm_compute; reflexivity|]. split; [repeat split; repeat constructor|]. split; [vm_compute; reflexivity|].
  intros c I. vm_compute in I. repeat (destruct I as [<-|I]; [vm_compute; auto 10|]). destruct I.
Qed.

Print Assumptions C139_order_of_columns.
Print Assumptions C139_columns_not_requested.
Print Assumptions C139_order_of_columns_of_one_name_refuted.
Print Assumptions C139_more_columns.
Print Assumptions C139_more_columns_keep_features_refuted.
