(** Property C142: from the files given to the library to the files it writes. *)
From Coq Require Import Permutation.
From Verif Require Import BaseLemmas Mat Ext PreprocSpec PrelimModel PrelimSpec PrelimProps HandOnModel EndModel EndProps WholeModel WholeProps.
From Verif Require Import SerialModel SavedModel SavedProps OptionsModel OptionsSpec MetaModel MetaSpec MetaProps FilesModel.
From Verif Require PilotModel PythiaModel CloisterModel TraceModel SerialSpec.
Set Implicit Arguments.
Open Scope nat_scope.
Open Scope list_scope.

(** what a column of the file holds in row i *)
Definition held (c : column entry) (i : nat) : entry := nth i (c_cells c) (CNum None).

(** The columns whose names begin with p and that the options ask for: those listed, or all if nothing is listed
    or none of the names listed is there. *)
Definition wanted (lower : string -> string) (f : frame entry) (v : option jval) (p : string) (k : column entry) : Prop :=
  prefixed lower p k /\
  match v with
  | Some (JArr l) => In (JStr (c_name k)) l \/ forall k', In k' (f_cols f) -> prefixed lower p k' -> ~ In (JStr (c_name k')) l
  | _ => True
  end.
(** at least 20 % of the cells in these rows are missing *)
Definition lacking (rows : list nat) (k : column entry) : Prop :=
  length rows <= 5 * length (filter (fun i => match held k i with CNum None => true | _ => false end) rows).
(** the columns with property P, in the order of the file *)
Definition columns_with (f : frame entry) (P : column entry -> Prop) (ks : list (column entry)) : Prop :=
  same_columns P (f_cols f) ks /\ Forall P ks.

(* ------------------------------------------------------------------ the table that the stages are given *)
Lemma with_filter f (p : column entry -> bool) (P : column entry -> Prop) : (forall k, In k (f_cols f) -> p k = true <-> P k) -> columns_with f P (filter p (f_cols f)).
Proof.
  intros H. split.
  - induction (f_cols f) as [|k l IH]; cbn [filter]; [constructor|]. assert (Hk := H k (or_introl eq_refl)).
    assert (I : same_columns P l (filter p l)) by (apply IH; intros; apply H; right; auto).
    destruct (p k); [constructor; [tauto|auto]|]. constructor; auto. intro X. apply Hk in X. discriminate.
  - apply Forall_forall. intros k I. apply filter_In in I. apply H; tauto.
Qed.
Lemma map_injective_on {A B} (f : A -> B) (l a b : list A) : (forall x y, In x l -> In y l -> f x = f y -> x = y) ->
  incl a l -> incl b l -> map f a = map f b -> a = b.
Proof.
  intros J. revert b. induction a as [|x a IH]; intros [|y b] Ia Ib E; try discriminate; auto. cbn in E. injection E as E1 E2.
  f_equal; [apply J; auto; [apply Ia|apply Ib]; left; auto|]. apply IH; auto; intros z I; [apply Ia|apply Ib]; right; auto.
Qed.
Lemma nodup_names (l : list (column entry)) : NoDup (map (@c_name _) l) -> forall x y, In x l -> In y l -> c_name x = c_name y -> x = y.
Proof.
  induction l as [|k l IH]; intros N x y Ix Iy E; [destruct Ix|]. inversion N as [|? ? Nk Nl]; subst.
  destruct Ix as [<-|Ix], Iy as [<-|Iy]; auto; exfalso; apply Nk; [rewrite E|rewrite <- E]; apply in_map; auto.
Qed.
Lemma nodup_filter (p : column entry -> bool) l : NoDup (map (@c_name _) l) -> NoDup (map (@c_name _) (filter p l)).
Proof.
  induction l as [|k l IH]; intros N; cbn; auto. inversion N as [|? ? Nk Nl]; subst. destruct (p k); cbn; auto. constructor; auto.
  intro X. apply Nk. apply in_map_iff in X. destruct X as (k' & E & I). apply filter_In in I. rewrite <- E. apply in_map. tauto.
Qed.
(** the columns at the positions of those with a property *)
Lemma at_positions (p : column entry -> bool) l pos c : increasing pos ->
  (forall k, In k pos <-> k < length l /\ p (nth k l c) = true) -> map (fun k => nth k l c) pos = filter p l.
Proof.
  intros Ip H. assert (E : pos = positions p l 0).
  { apply PreprocProofs.same_elements; auto; [apply positions_increasing|]. intro k. rewrite H, positions_in, Nat.sub_0_r. split.
    - intros (L & P). split; [lia|]. exists (nth k l c). split; auto. apply nth_error_nth'; auto.
    - intros (_ & a & Ea & P). split; [apply nth_error_Some; congruence|]. rewrite (nth_error_nth _ _ _ Ea). auto. }
  rewrite E. pose proof (@positions_map _ _ p (fun k => k) l 0 [] eq_refl) as M. rewrite map_id in M. cbn [app] in M.
  assert (J : forall a b : list (column entry), map Some a = map Some b -> a = b).
  { induction a as [|x a IH]; intros [|y b] Q; try discriminate; auto. cbn in Q. injection Q as -> Q. f_equal. auto. }
  apply J. rewrite M, map_map. apply map_ext_in. intros k Hk. rewrite <- E, H in Hk. rewrite (nth_error_nth' _ c) by tauto. reflexivity.
Qed.
Definition asked (l : option (list string)) (names : list string) (n : string) : bool :=
  match l with Some r => if existsb (fun n => mem string_dec n r) names then mem string_dec n r else true | None => true end.
Lemma requested_columns (cs : list (column entry)) l cols c : NoDup (map (@c_name _) cs) -> (forall j, In j cols -> j < length cs) ->
  requested (map (@c_name _) cs) l cols ->
  map (fun j => nth j cs c) cols = filter (fun k => asked l (map (@c_name _) cs) (c_name k)) cs.
Proof.
  intros N B R.
  assert (All : forall ks : list (column entry), map (fun j => nth j ks c) (seq 0 (length ks)) = ks).
  { intros ks. apply (PreprocProofs.take_all c ks). }
  assert (True_ : forall ks : list (column entry), filter (fun _ => true) ks = ks) by (induction ks; cbn; congruence).
  unfold requested, asked in *. destruct l as [r|]; [|rewrite map_length in R; rewrite R, True_; apply All].
  destruct (existsb _ _); [|rewrite map_length in R; rewrite R, True_; apply All].
  destruct R as (E & _). apply (@map_injective_on _ _ (@c_name entry) cs).
  - apply nodup_names. auto.
  - intros k I. apply in_map_iff in I. destruct I as (j & <- & I). apply nth_In. auto.
  - intros k I. apply filter_In in I. tauto.
  - transitivity (take_at ""%string (map (@c_name _) cs) cols).
    + unfold take_at. rewrite map_map. apply map_ext_in. intros j I. symmetry. rewrite (nth_indep _ ""%string (c_name c)) by (rewrite map_length; auto). apply map_nth.
    + rewrite E. clear. induction cs as [|k cs IH]; cbn; auto. destruct (mem _ _ _); cbn; congruence.
Qed.
Lemma every_nth {A B} (f : A -> option B) l r : every f l = Some r ->
  length r = length l /\ forall i a, nth_error l i = Some a -> exists b, f a = Some b /\ nth_error r i = Some b.
Proof.
  revert r. induction l as [|a l IH]; intros r H; cbn [every] in H.
  - injection H as <-. split; auto. intros [|i] a H; discriminate.
  - destruct (f a) as [b|] eqn:E; [|discriminate]. destruct (every f l) as [s|]; [|discriminate]. injection H as <-.
    destruct (IH s eq_refl) as (L & N). split; [simpl; auto|]. intros [|i] a' Ha; simpl in Ha; [injection Ha as <-; eauto|simpl; eauto].
Qed.
Lemma numpy_row (cs : list (column entry)) n i : (forall c, In c cs -> length (c_cells c) = n) -> i < n ->
  nth_error (to_numpy n cs) i = Some (map (fun c => held c i) cs).
Proof.
  intros L Hi. unfold to_numpy. rewrite nth_error_map, (nth_error_nth' _ 0) by (rewrite seq_length; auto). rewrite seq_nth by auto. cbn. f_equal.
  induction cs as [|c cs IH]; cbn; auto. rewrite IH by (intros; apply L; right; auto).
  assert (Lc := L c (or_introl eq_refl)). rewrite (nth_error_nth' _ (CNum None)) by lia. reflexivity.
Qed.
Lemma numbers (cs : list (column entry)) n x : (forall c, In c cs -> length (c_cells c) = n) -> every (every number) (to_numpy n cs) = Some x ->
  PreprocSpec.table n (length cs) x /\ forall i j c, i < n -> nth_error cs j = Some c -> CNum (cell x i j) = held c i.
Proof.
  intros L H. destruct (every_nth _ _ H) as (Lx & N).
  assert (R : forall i, i < n -> exists r, nth_error x i = Some r /\ length r = length cs /\
             forall j c, nth_error cs j = Some c -> exists v, nth_error r j = Some v /\ held c i = CNum v).
  { intros i Hi. destruct (N i _ (numpy_row cs L Hi)) as (r & Er & Nr). destruct (every_nth _ _ Er) as (Lr & Nj). exists r. split; auto.
    rewrite map_length in Lr. split; auto. intros j c Hc. destruct (Nj j (held c i)) as (v & Ev & Nv); [rewrite nth_error_map, Hc; auto|].
    exists v. split; auto. destruct (held c i); cbn in Ev; congruence. }
  assert (Ln : length x = n) by (rewrite Lx; unfold to_numpy; rewrite map_length, seq_length; auto).
  split; [split; auto|].
  - apply Forall_forall. intros r Hr. apply In_nth_error in Hr. destruct Hr as (i & Hi).
    assert (i < n) by (rewrite <- Ln; apply nth_error_Some; congruence). destruct (R i) as (r' & E & Lr & _); auto. congruence.
  - intros i j c Hi Hc. destruct (R i Hi) as (r & E & _ & Nj). destruct (Nj _ _ Hc) as (v & Ev & ->). unfold cell.
    rewrite (nth_error_nth _ _ _ E). change num with (option Q) in *. rewrite (nth_error_nth _ _ _ Ev). reflexivity.
Qed.

Lemma requested_bound names l cols : requested names l cols -> forall j, In j cols -> j < length names.
Proof.
  intros R j Hj. unfold requested in R. destruct l as [r|]; [|subst; apply in_seq in Hj; lia].
  destruct (existsb _ _); [|subst; apply in_seq in Hj; lia]. destruct R as (_ & F). rewrite Forall_forall in F. destruct (F j Hj) as (E & _).
  apply nth_error_Some. congruence.
Qed.
Lemma names_listed a l : every (fun x => match x with JStr s => Some s | _ => None end) a = Some l -> forall n, In (JStr n) a <-> In n l.
Proof.
  revert l. induction a as [|x a IH]; intros l H n; cbn [every] in H; [injection H as <-; tauto|].
  destruct x; try discriminate. destruct (every _ a) as [r|]; [|discriminate]. injection H as <-. cbn [In]. rewrite (IH r eq_refl).
  split; (intros [E|I]; [left; congruence|auto]).
Qed.
Lemma asked_wanted lower f (p : column entry -> bool) pr v l : (forall k, p k = true <-> prefixed lower pr k) -> names_of v = Some l ->
  forall k, In k (f_cols f) -> (p k && asked l (map (@c_name _) (loc f p)) (c_name k)) = true <-> wanted lower f v pr k.
Proof.
  intros Hp Hv k Hk. rewrite andb_true_iff, Hp. unfold wanted. apply and_iff_compat_l. unfold asked. destruct v as [v|]; [|discriminate].
  destruct v as [| | | |a|]; try discriminate; cbn [names_of] in Hv; [injection Hv as <-; tauto|].
  destruct (every _ a) as [r|] eqn:E; [|discriminate]. injection Hv as <-. pose proof (names_listed _ E) as L.
  assert (M : forall n, mem string_dec n r = true <-> In (JStr n) a) by (intro n; rewrite L; apply PreprocProofs.mem_in).
  destruct (existsb _ _) eqn:X.
  - rewrite M. split; [auto|]. intros [I|N]; auto. exfalso. apply existsb_exists in X. destruct X as (n & In_ & Mn). apply in_map_iff in In_.
    destruct In_ as (k' & <- & I). apply filter_In in I. apply (N k'); [tauto|apply Hp; tauto|apply M; auto].
  - split; [|auto]. intros _. right. intros k' I' P' J. apply M in J. assert (Y : existsb (fun n => mem string_dec n r) (map (@c_name _) (loc f p)) = true); [|congruence].
    apply existsb_exists. exists (c_name k'). split; auto. apply in_map, filter_In. split; auto. apply Hp. auto.
Qed.
Lemma and_iff_compat_l_dep (A B C : Prop) : (A -> (B <-> C)) -> (A /\ B <-> A /\ C).
Proof. tauto. Qed.
Lemma filter_filter {A} (p q : A -> bool) l : filter p (filter q l) = filter (fun x => q x && p x) l.
Proof. induction l as [|x l IH]; cbn; auto. destruct (q x); cbn; [destruct (p x); congruence|auto]. Qed.

Section Table.
  Variable lower : string -> string.
  Variable text : num -> string.
  Variable row_numeric : list bool -> bool.
  Variable dtype_name : entry -> bool.

  Definition feats_of (f : frame entry) := loc f (is_feat lower).
  Definition algos_of (f : frame entry) := loc f (is_algo lower).
  Lemma table_of_frame f m t c : from_data_frame lower (show_entry text) row_numeric dtype_name f = Ok m -> table_from m = Some t ->
    rectangular f -> f_rows f <> 1 -> only f (called lower "instances") c ->
    consistent t (f_rows f) /\ t_feature_names t = map (@c_name _) (feats_of f) /\ t_algorithm_names t = map (@c_name _) (algos_of f) /\
    (forall i, i < f_rows f -> CStr (nth i (t_labels t) ""%string) = show_entry text (held c i)) /\
    (forall i j k, i < f_rows f -> nth_error (feats_of f) j = Some k -> CNum (cell (t_features t) i j) = held k i) /\
    (forall i j k, i < f_rows f -> nth_error (algos_of f) j = Some k -> CNum (cell (t_algorithms t) i j) = held k i).
  Proof.
    intros H T R N O.
    destruct (C108_instance_labels (show_entry text) row_numeric dtype_name O N) as (m' & H' & El). rewrite H in H'. injection H' as <-.
    assert (Lc : length (c_cells c) = f_rows f).
    { apply R. destruct O as (l & r & E & _). rewrite E. apply in_or_app. right. left. auto. }
    unfold from_data_frame in H. destruct (labels_as_text _ _ _) as [s|]; [|discriminate]. injection H as <-. cbn [instance_labels] in El. subst s.
    unfold table_from in T. cbn [instance_labels instance_sources features algorithms feature_names algorithm_names words_of] in T.
    destruct (every word _) as [lb|] eqn:E1; [|discriminate].
    destruct (match (if existsb _ _ then _ else _) with Some _ => _ | None => _ end) as [sr|] eqn:E2; [|discriminate].
    destruct (every (every number) _) as [x|] eqn:E3; [|discriminate].
    destruct (every (every number) (to_numpy _ (loc f (is_algo lower)))) as [y|] eqn:E4; [|discriminate]. injection T as <-.
    assert (Rl : forall p k, In k (loc f p) -> length (c_cells k) = f_rows f) by (intros p k I; apply filter_In in I; apply R; tauto).
    destruct (numbers _ (Rl (is_feat lower)) E3) as (Tx & Nx). destruct (numbers _ (Rl (is_algo lower)) E4) as (Ty & Ny).
    destruct (every_nth _ _ E1) as (Ll & Nl).
    assert (L1 : length (if c_numeric c then map (show_entry text) (c_cells c) else c_cells c) = f_rows f) by (destruct (c_numeric c); rewrite ?map_length; auto).
    unfold consistent. cbn [t_features t_algorithms t_feature_names t_algorithm_names t_labels t_sources].
    split; [|split; [|split; [|split; [|split]]]]; auto.
    - rewrite !map_length. split; auto. split; auto. split; [congruence|].
      intros l ->. destruct (existsb (is_source lower) (f_cols f)); [|discriminate].
      destruct (words_of _) as [w|] eqn:W; [|discriminate]. injection E2 as ->. clear - W N Rl.
      unfold squeeze in W. destruct (f_rows f) as [|[|n]] eqn:En; [|congruence|];
        (destruct (loc f (is_source lower)) as [|k [|k' ks]] eqn:Es; try discriminate; cbn [words_of] in W;
         destruct (every_nth _ _ W) as (L & _); rewrite L; apply (Rl (is_source lower)); rewrite Es; left; auto).
    - intros i Hi.
      destruct (Nl i (if c_numeric c then show_entry text (held c i) else held c i)) as (w & Ew & Nw).
      { destruct (c_numeric c); rewrite ?nth_error_map, (nth_error_nth' _ (CNum None)) by lia; reflexivity. }
      rewrite (nth_error_nth _ _ _ Nw). destruct (c_numeric c); [|destruct (held c i); try discriminate Ew; cbn in *; congruence].
      destruct (show_entry text (held c i)); cbn in Ew; try discriminate; congruence.
  Qed.
End Table.

(** Options that nothing in the library reads. *)
Definition unread : list (string * string) :=
  [("auto", "preproc"); ("sifted", "flag"); ("sifted", "n_trees"); ("outputs", "csv"); ("outputs", "web"); ("outputs", "png")]%string.
Section Files.
  Variable transform : list Q -> list num.
  Variable split : option jval -> option (list nat).
  Variable file : option jval -> list Z.
  Variable pearson : list (Q * Q) -> num * num.
  Variable order : list (list Q) -> nat -> list nat.
  Variable sil : list nat -> list Q.
  Variable km_labels : list (option jval) -> list nat -> list nat.
  Variable best : list (option jval) -> list nat -> list Z.
  Variable bfgs : list num -> list num * num.
  Variable quality : list (list num) -> res PilotModel.pierr num.
  Variable f16 : num -> num.
  Variable random : nat -> nat -> list (list num).
  Variable fit : list (option jval) -> list (list num) -> nat -> PythiaModel.hyper -> list bool -> list num -> res PythiaModel.pyerr PythiaModel.svm_res.
  Variable round3 : num -> num.
  Variable root : num -> num.
  Variable cpearson : list num -> list num -> res CloisterModel.clerr (num * num).
  Variable hull : list (list num) -> option (list nat).
  Variable G : Type.
  Variable is_empty : G -> bool.
  Variable area : G -> Q.
  Variable contains : G -> TraceModel.pt -> bool.
  Variable contains_all : G -> list TraceModel.pt -> bool.
  Variable intersection difference union : G -> G -> G.
  Variable no_polygon : G.
  Variable smooth : G -> G.
  Variable triangulate : G -> list G.
  Variable convex_hull : G -> G.
  Variable geoms : G -> list G.
  Variable alphashape : list TraceModel.pt -> option G.
  Variable radius : list TraceModel.pt -> nat -> Z.
  Variable point : list num -> TraceModel.pt.
  Variable finished : list nat.
  Hypothesis removed_points : forall a c s q l,
    In s (geoms (difference a c)) -> contains c q = true -> In q l -> contains_all s l = false.
  Hypothesis empty_intersection : forall a b, is_empty a = true -> is_empty (intersection a b) = true.
  Variable shape_of : G -> shape.
  Notation saved := (saved_model shape_of).

  Variable lower : string -> string.
  Variable text : num -> string.
  Variable row_numeric : list bool -> bool.
  Variable dtype_name : entry -> bool.
  Variable read_csv : string -> read_result entry.
  Variable read_text : string -> option string.
  Variable parse : string -> option jval.
  Variable float : string -> string -> bool.
  Variable is_file : string -> bool.
  Variable cpus : Z.
  Notation pipeline_with fin := (pipeline transform split file pearson order sil km_labels best bfgs quality f16 random fit round3 root cpearson hull
    is_empty area contains contains_all intersection difference union no_polygon smooth triangulate convex_hull geoms alphashape radius point fin).
  Notation pipeline := (pipeline_with finished).
  Notation run_with fin := (run_files text lower row_numeric dtype_name read_csv read_text parse float is_file cpus
    transform split file pearson order sil km_labels best bfgs quality f16 random fit round3 root cpearson hull
    is_empty area contains contains_all intersection difference union no_polygon smooth triangulate convex_hull geoms alphashape radius point fin).
  Notation run := (run_with finished).
  Notation load path := (from_json_file lower (read_text path) parse).

  Lemma run_inv mp op f c opts out : read_csv mp = Read f -> rectangular f -> f_rows f <> 1 -> only f (called lower "instances") c ->
    load op = Ok (Some opts) -> run mp op = Some (Ok out) ->
    exists m t o, from_data_frame lower (show_entry text) row_numeric dtype_name f = Ok m /\ table_from m = Some t /\
      typed_options (float op) is_file cpus opts = Some o /\ pipeline opts t o = Ok out.
  Proof.
    intros Rd R N O Ld H. unfold run_files, instance_space_from_files in H. rewrite Rd, Ld in H. cbn [from_csv_file] in H.
    destruct (from_data_frame _ _ _ _ f) as [m|e] eqn:E; [|discriminate]. cbn [snd is_metadata is_options] in H.
    destruct (table_from m) as [t|] eqn:Et; [|discriminate]. destruct (typed_options _ _ _ opts) as [o|] eqn:Eo; [|discriminate].
    injection H as H. eauto 10.
  Qed.
  Lemma typed_perf fl opts o : typed_options fl is_file cpus opts = Some o ->
    get opts "perf" "max_perf" = Some (JBool (max_perf (o_prelim (w_end o)))) /\
    get opts "perf" "abs_perf" = Some (JBool (abs_perf (o_prelim (w_end o)))) /\
    get opts "perf" "epsilon" = Some (JNum (epsilon (o_prelim (w_end o)))).
  Proof.
    intros H. unfold typed_options in H. 
    destruct (get opts "perf" "max_perf") as [[]|]; try discriminate H. cbn [flag_of bind] in H.
    destruct (get opts "perf" "abs_perf") as [[]|]; try discriminate H. cbn [flag_of bind] in H.
    destruct (get opts "perf" "epsilon") as [[]|]; try discriminate H. cbn [rational_of bind] in H.
    repeat match type of H with bind ?a _ = _ => destruct a; [cbn [bind] in H|discriminate H] end.
    injection H as <-. auto.
  Qed.

  Lemma typed_selvars fl opts o : typed_options fl is_file cpus opts = Some o ->
    names_of (get opts "selvars" "feats") = Some (o_feats (w_end o)) /\ names_of (get opts "selvars" "algos") = Some (o_algos (w_end o)).
  Proof.
    intros H. unfold typed_options in H.
    destruct (names_of (get opts "selvars" "feats")) as [a|].
    2:{ repeat match type of H with bind ?a _ = _ => destruct a; [cbn [bind] in H|discriminate H] end. discriminate H. }
    destruct (names_of (get opts "selvars" "algos")) as [b|].
    2:{ repeat match type of H with bind ?a _ = _ => destruct a; [cbn [bind] in H|discriminate H] end. discriminate H. }
    repeat match type of H with bind ?a _ = _ => destruct a; [cbn [bind] in H|discriminate H] end.
    injection H as <-. auto.
  Qed.

  (** What save_to_csv writes after a run is read from the metadata file, cell for cell: [rows] are rows of
      that file, [feats] and [algos] its columns of features and of performances. *)
  Theorem C142_from_files_to_files :
    forall mp op f c opts out can_write d d', read_csv mp = Read f -> rectangular f -> NoDup (map (@c_name _) (f_cols f)) -> f_rows f <> 1 ->
      only f (called lower "instances") c ->
      load op = Ok (Some opts) ->
      run mp op = Some (Ok out) -> Permutation finished (seq 0 (length (e_algo (w_out out)))) -> d_x (e_data (w_out out)) <> [] ->
      save_to_csv can_write true (saved out) d = (d', None) ->
      exists rows feats algos labels,
        let feature_wanted := wanted lower f (get opts "selvars" "feats") "feature_" in
        let algorithm_wanted := wanted lower f (get opts "selvars" "algos") "algo_" in
        increasing rows /\
        (forall i, In i rows <-> i < f_rows f /\
           (exists k v, In k (f_cols f) /\ feature_wanted k /\ held k i = CNum (Some v)) /\
           (exists k v, In k (f_cols f) /\ algorithm_wanted k /\ held k i = CNum (Some v))) /\
        columns_with f (fun k => feature_wanted k /\ ~ lacking rows k) feats /\ columns_with f algorithm_wanted algos /\
        map CStr labels = map (fun i => match held c i with CNum v => CStr (text v) | other => other end) rows /\
        let shown name cols (g : nat -> nat -> entry) := exists tb, d' name = Some tb /\ SerialSpec.shows tb cols labels g in
        let feature i j := held (nth j feats c) (nth i rows 0) in
        let performance i j := held (nth j algos c) (nth i rows 0) in
        shown "feature_raw.csv"%string (map (@c_name _) feats) feature /\
        (get opts "perf" "abs_perf" = Some (JBool true) ->
         shown "algorithm_raw.csv"%string (map (@c_name _) algos) performance /\
         (exists good, shown "algorithm_bin.csv"%string (map (@c_name _) algos) (fun i j => CBool (good i j)) /\
            forall mx eps i j, get opts "perf" "max_perf" = Some (JBool mx) -> get opts "perf" "epsilon" = Some (JNum eps) ->
              i < length rows -> j < length algos ->
              (good i j = true <-> exists v, performance i j = CNum (Some v) /\ (if mx then eps <= v else v <= eps)%Q)) /\
         (exists best, shown "portfolio.csv"%string ["Best_Algorithm"%string] (fun i _ => CNat (best i)) /\
            forall mx i j v, get opts "perf" "max_perf" = Some (JBool mx) -> i < length rows -> j < length algos ->
              performance i j = CNum (Some v) ->
              (forall j' v', j' < length algos -> performance i j' = CNum (Some v') ->
                 if mx then (v' <= v)%Q /\ (j' < j -> (v' < v)%Q) else (v <= v')%Q /\ (j' < j -> (v < v')%Q)) ->
              best i = S j)).
  Proof.
    intros mp op f c opts out cw d d' Rd R Nd N O Ld H Pm Nx Sv.
    destruct (@run_inv mp op f c opts out Rd R N O Ld H) as (m & t & o & Em & Et & Eo & B). unfold FilesModel.pipeline in B.
    destruct (@table_of_frame lower text row_numeric dtype_name f m t c Em Et R N O) as (C & Nf & Na & Nl & Vf & Va).
    destruct (@typed_perf (float op) opts o Eo) as (Omx & Oab & Oep).
    destruct (@C119_csv_files_of_a_built_model transform (split (get opts "selvars" "small_scale")) (file (get opts "selvars" "file_idx")) pearson order sil (km_labels (kmeans_options opts)) (best (genetic_options opts)) bfgs quality f16 random (fit (svm_options opts)) round3 root cpearson hull G
       is_empty area contains contains_all intersection difference union no_polygon smooth triangulate convex_hull geoms alphashape radius point finished
       removed_points empty_intersection shape_of t o (f_rows f) out cw d C B Pm Nx) as (kept & rows & cols0 & cols & acols & D & Rs & W).
    destruct (proj1 Rs (ex_intro _ d' Sv)) as (Ek & Ec & _). clear Rs. specialize (W d' Sv). cbv zeta in W. destruct W as (Wf & Wa & Wb & Wp).
    destruct D as (Ik & Bk & Ir & Rk & _ & _ & _ & _ & _ & _ & Bf & Ba & Pr & _). destruct (@typed_selvars (float op) opts o Eo) as (Osf & Osa).
    subst kept cols0.
    assert (Br : forall i, In i rows -> i < f_rows f) by auto.
    rewrite Nf, Na, ?map_length in *.
    set (feats := map (fun j => nth j (feats_of lower f) c) cols). set (algos := map (fun j => nth j (algos_of lower f) c) acols).
    assert (Take : forall cs is, (forall j, In j is -> j < length cs) -> take_at ""%string (map (@c_name entry) cs) is = map (@c_name _) (map (fun j => nth j cs c) is)).
    { intros cs is Bi. unfold take_at. rewrite map_map. apply map_ext_in. intros j Hj. rewrite (nth_indep _ ""%string (c_name c)) by (rewrite map_length; auto). apply map_nth. }
    assert (Nth : forall (cs : list (column entry)) is j a, nth_error is j = Some a -> nth j (map (fun j => nth j cs c) is) c = nth a cs c).
    { intros cs is j a Ha. apply nth_error_nth. rewrite nth_error_map, Ha. reflexivity. }
    assert (Row : forall k, k < length rows -> nth_error rows k = Some (nth k rows 0) /\ nth k rows 0 < f_rows f).
    { intros k Hk. split; [apply nth_error_nth'; auto|apply Br, nth_In; auto]. }
    assert (Col : forall is (cs : list (column entry)) j, (forall a, In a is -> a < length cs) -> j < length is ->
              exists a, nth_error is j = Some a /\ nth j is 0 = a /\ nth_error cs a = Some (nth j (map (fun j => nth j cs c) is) c)).
    { intros is cs j Bi Hj. exists (nth j is 0). pose proof (nth_error_nth' is 0 Hj) as E. split; auto. split; auto. rewrite (Nth _ _ _ _ E).
      apply nth_error_nth', Bi, nth_In. auto. }
    destruct Pr as (Ra & req & Rf & Hr & pos & Ip & Ecols & Hp).
    assert (Bq : forall j, In j req -> j < length (feats_of lower f)) by (intros j Hj; rewrite <- (map_length (@c_name _)); eapply requested_bound; eauto).
    assert (Ndl : forall p, NoDup (map (@c_name _) (loc f p))) by (intro p; apply nodup_filter; auto).
    pose proof (@requested_columns _ _ _ c (Ndl (is_feat lower)) Bq Rf) as Ereq. pose proof (@requested_columns _ _ _ c (Ndl (is_algo lower)) Ba Ra) as Ealg.
    fold (feats_of lower f) in Ereq. fold (algos_of lower f) in Ealg. fold algos in Ealg.
    assert (Mem : forall (cs : list (column entry)) is k, In k (map (fun j => nth j cs c) is) -> (forall j, In j is -> j < length cs) -> In k cs).
    { intros cs is k Hk Bi. apply in_map_iff in Hk. destruct Hk as (j & <- & Hj). apply nth_In. auto. }
    set (lacks := fun k => Nat.leb (length rows) (5 * length (filter (fun i => match held k i with CNum None => true | _ => false end) rows))).
    assert (Lk : forall k, lacks k = false <-> ~ lacking rows k).
    { intro k. unfold lacks, lacking. rewrite Nat.leb_gt. lia. }
    assert (Efe : feats = filter (fun k => negb (lacks k)) (map (fun j => nth j (feats_of lower f) c) req)).
    { rewrite <- (@at_positions (fun k => negb (lacks k)) (map (fun j => nth j (feats_of lower f) c) req) pos c); auto.
      - unfold feats. rewrite Ecols. unfold take_at. rewrite map_map. apply map_ext_in. intros k Hk. apply Hp in Hk.
        symmetry. apply Nth. apply nth_error_nth'. tauto.
      - intro k. rewrite Hp, map_length. split; intros (Hk & Nm); (split; auto); pose proof (nth_error_nth' req 0 Hk) as Ek;
          rewrite (Nth _ _ _ _ Ek) in *; pose proof (Bq _ (nth_error_In _ _ Ek)) as Hq; pose proof (nth_error_nth' (feats_of lower f) c Hq) as Eq.
        + apply negb_true_iff, Lk. intro X. apply Nm. unfold lacking in X. unfold missing_often. erewrite filter_ext_in; [exact X|].
          intros i Hi. cbv beta. rewrite <- (Vf i _ _ (Br i Hi) Eq). destruct (cell _ _ _); reflexivity.
        + apply negb_true_iff, Lk in Nm. intro X. apply Nm. unfold lacking. unfold missing_often in X. erewrite filter_ext_in; [exact X|].
          intros i Hi. cbv beta. rewrite <- (Vf i _ _ (Br i Hi) Eq). destruct (cell _ _ _); reflexivity. }
    pose proof (@asked_wanted lower f _ _ _ _ (@feat_spec entry lower) Osf) as Wft. pose proof (@asked_wanted lower f _ _ _ _ (@algo_spec entry lower) Osa) as Wal.
    fold (feats_of lower f) in Wft. fold (algos_of lower f) in Wal.
    exists rows, feats, algos, (take_at ""%string (t_labels t) rows). cbv zeta. split; auto.
    split; [|split; [|split; [|split]]].
    - intro i. rewrite Hr. apply and_iff_compat_l_dep. intro Hi.
      assert (Gv : forall (p : column entry -> bool) (cs : list (column entry)) l is (P : column entry -> Prop) tbl, cs = loc f p ->
        (forall k, In k (f_cols f) -> (p k && asked l (map (@c_name _) cs) (c_name k)) = true <-> P k) ->
        (forall j, In j is -> j < length cs) -> map (fun j => nth j cs c) is = filter (fun k => asked l (map (@c_name _) cs) (c_name k)) cs ->
        (forall j k, nth_error cs j = Some k -> CNum (cell tbl i j) = held k i) ->
        (exists j, In j is /\ cell tbl i j <> None) <-> exists k v, In k (f_cols f) /\ P k /\ held k i = CNum (Some v)).
      { intros p cs l is P tbl Ecs Hw Bi Em' Hv. split.
        - intros (j & Hj & V). pose proof (nth_error_nth' cs c (Bi j Hj)) as E. specialize (Hv _ _ E).
          destruct (cell tbl i j) as [v|] eqn:Ev; [|congruence]. exists (nth j cs c), v.
          assert (I : In (nth j cs c) (filter (fun k => asked l (map (@c_name _) cs) (c_name k)) cs)).
          { rewrite <- Em'. apply in_map_iff. eauto. }
          apply filter_In in I. destruct I as (I & A). rewrite Ecs in I at 2. unfold loc in I. apply filter_In in I.
          split; [tauto|]. split; [|auto]. apply Hw; [tauto|]. rewrite A. destruct I as (_ & ->). reflexivity.
        - intros (k & v & I & Pk & V). apply Hw in Pk; auto. apply andb_true_iff in Pk. destruct Pk as (Pp & Pa).
          assert (I' : In k (map (fun j => nth j cs c) is)).
          { rewrite Em'. apply filter_In. split; auto. rewrite Ecs. apply filter_In. auto. }
          apply in_map_iff in I'. destruct I' as (j & <- & Hj). exists j. split; auto. pose proof (nth_error_nth' cs c (Bi j Hj)) as E. specialize (Hv _ _ E). congruence. }
      rewrite (Gv (is_feat lower) (feats_of lower f) _ req _ (t_features t) eq_refl Wft Bq Ereq) by (intros j k Hj; apply Vf; auto).
      rewrite (Gv (is_algo lower) (algos_of lower f) _ acols _ (t_algorithms t) eq_refl Wal Ba Ealg) by (intros j k Hj; apply Va; auto). tauto.
    - rewrite Efe, Ereq. unfold feats_of, loc. rewrite !filter_filter. apply with_filter. intros k Hk.
      rewrite !andb_true_iff, negb_true_iff, Lk, <- and_assoc, <- (Wft k Hk), andb_true_iff. reflexivity.
    - rewrite Ealg. unfold algos_of, loc. rewrite filter_filter. apply with_filter. exact Wal.
    - unfold take_at. rewrite map_map. apply map_ext_in. intros i Hi. cbv beta. rewrite (Nl i (Br i Hi)). destruct (held c i); reflexivity.
    - cbv zeta.
      assert (Ext : forall nm cs g g', (exists tb, d' nm = Some tb /\ SerialSpec.shows tb cs (take_at ""%string (t_labels t) rows) g) ->
        (forall k j, k < length rows -> j < length cs -> g k j = g' k j) ->
        exists tb, d' nm = Some tb /\ SerialSpec.shows tb cs (take_at ""%string (t_labels t) rows) g').
      { intros nm cs g g' (tb & X & (Y1 & Y2 & Y3)) Eq. exists tb. split; auto. split; auto. split; auto. intros i l Hl. rewrite (Y3 i l Hl). do 2 f_equal.
        apply map_ext_in. intros j Hj. apply in_seq in Hj. apply Eq; [|lia].
        rewrite <- (take_len ""%string (t_labels t) rows). apply nth_error_Some. congruence. }
      rewrite (Take _ _ Bf) in Wf. rewrite (Take _ _ Ba) in Wa, Wb. fold feats in Wf. fold algos in Wa, Wb.
      assert (Perf : forall k j, k < length rows -> j < length algos ->
        exists a, nth_error acols j = Some a /\ nth j acols 0 = a /\ CNum (cell (t_algorithms t) (nth k rows 0) a) = held (nth j algos c) (nth k rows 0)).
      { intros k j Hk Hj. unfold algos in Hj. rewrite map_length in Hj. destruct (Col acols (algos_of lower f) j Ba Hj) as (a & E1 & E2 & E3).
        exists a. split; auto. split; auto. apply Va; auto. apply Row; auto. }
      split; [|intros Ab; assert (Ab' : abs_perf (o_prelim (w_end o)) = true) by congruence; split; [|split]].
      + eapply Ext; [exact Wf|]. intros k j Hk Hj. cbv beta. rewrite map_length in Hj. unfold feats in Hj. rewrite map_length in Hj.
        destruct (Col cols (feats_of lower f) j Bf Hj) as (a & E1 & E2 & E3). rewrite E2. apply Vf; auto. apply Row; auto.
      + eapply Ext; [exact Wa|]. intros k j Hk Hj. cbv beta. rewrite map_length in Hj.
        destruct (Perf k j Hk Hj) as (a & E1 & -> & <-). unfold raw_after. rewrite Ab'. reflexivity.
      + destruct Wb as (g & Sg & Hg). exists g. split; auto. intros mx eps i j Hm He Hi Hj.
        destruct (Perf i j Hi Hj) as (a & E1 & _ & <-). rewrite (Hg Ab' _ _ _ _ (proj1 (Row i Hi)) E1).
        assert (mx = max_perf (o_prelim (w_end o))) by congruence. assert (eps = epsilon (o_prelim (w_end o))) by congruence. subst mx eps.
        unfold good_on. split; intros (v & Ev & Q); exists v; (split; [congruence|exact Q]).
      + destruct Wp as (g & Sg & Hg). exists g. split; auto. intros mx i j v Hm Hi Hj Ev Bst.
        assert (mx = max_perf (o_prelim (w_end o))) by congruence. subst mx.
        apply (Hg Ab' i (nth i rows 0) j v (proj1 (Row i Hi))).
        assert (Rw : forall j' v', nth_error (map (cell (t_algorithms t) (nth i rows 0)) acols) j' = Some (Some v') ->
                 j' < length algos /\ held (nth j' algos c) (nth i rows 0) = CNum (Some v')).
        { intros j' v' E. assert (Hj' : j' < length algos).
          { unfold algos. rewrite map_length, <- (map_length (cell (t_algorithms t) (nth i rows 0))). apply nth_error_Some. congruence. }
          split; auto. destruct (Perf i j' Hi Hj') as (a & E1 & _ & <-). rewrite nth_error_map, E1 in E. cbn in E. congruence. }
        split; [|split].
        * destruct (Perf i j Hi Hj) as (a & E1 & _ & E3). rewrite nth_error_map, E1. cbn [option_map]. rewrite Ev in E3. injection E3 as E3. rewrite E3. reflexivity.
        * intros j' v' E. destruct (Rw _ _ E) as (Hj' & Ep). specialize (Bst _ _ Hj' Ep). unfold beats. destruct (max_perf _); intro X; apply (Qlt_not_le _ _ X); tauto.
        * intros j' v' Lt E. destruct (Rw _ _ E) as (Hj' & Ep). specialize (Bst _ _ Hj' Ep). unfold beats. destruct (max_perf _); apply Bst; auto.
  Qed.

  (** Two options files that differ in options that nothing reads: the runs are the same, whatever the libraries do. *)
  Theorem C142_options_without_effect :
    forall mp op op' opts opts', load op = Ok (Some opts) -> load op' = Ok (Some opts') ->
      (forall n, float op n = float op' n) -> (forall s f, ~ In (s, f) unread -> get opts s f = get opts' s f) ->
      run mp op = run mp op'.
  Proof.
    intros mp op op' opts opts' H H' Fl E.
    assert (T : typed_options (float op) is_file cpus opts = typed_options (float op') is_file cpus opts').
    { unfold typed_options. rewrite !Fl.
      repeat match goal with |- context [get opts ?s ?f] => rewrite (E s f) by (intro X; unfold unread in X; cbn [In] in X; repeat (destruct X as [X|X]; [discriminate X|]); exact X) end. reflexivity. }
    assert (P : forall t w, pipeline opts t w = pipeline opts' t w).
    { intros t w. unfold FilesModel.pipeline, kmeans_options, genetic_options, svm_options, fields_of. cbn [map fst snd].
      repeat match goal with |- context [get opts ?s ?f] => rewrite (E s f) by (intro X; unfold unread in X; cbn [In] in X; repeat (destruct X as [X|X]; [discriminate X|]); exact X) end. reflexivity. }
    unfold run_files, instance_space_from_files. rewrite H, H'. destruct (from_csv_file _ _ _ _ _) as [[m|]|e]; cbn [snd is_metadata is_options]; [|reflexivity|reflexivity].
    rewrite T. destruct (table_from m) as [t|]; cbv iota; [|reflexivity]. destruct (typed_options (float op') is_file cpus opts') as [w|]; cbv iota; [|reflexivity]. f_equal. apply P.
  Qed.

  (* ========================================================== C143 *)
  Lemma typed_inv fl opts o : typed_options fl is_file cpus opts = Some o ->
    let p := o_prelim (w_end o) in let s := o_sel (w_end o) in
    (flag_of (get opts "perf" "max_perf") = Some (max_perf p) /\ flag_of (get opts "perf" "abs_perf") = Some (abs_perf p) /\
     rational_of (get opts "perf" "epsilon") = Some (epsilon p) /\ rational_of (get opts "perf" "beta_threshold") = Some (beta_threshold p) /\
     flag_of (get opts "bound" "flag") = Some (bound p) /\ flag_of (get opts "norm" "flag") = Some (norm p)) /\
    (names_of (get opts "selvars" "feats") = Some (o_feats (w_end o)) /\ names_of (get opts "selvars" "algos") = Some (o_algos (w_end o)) /\
     flag_of (get opts "selvars" "small_scale_flag") = Some (small_scale_flag s) /\ flag_of (get opts "selvars" "file_idx_flag") = Some (file_idx_flag s) /\
     option_map is_file (string_of (get opts "selvars" "file_idx")) = Some (file_exists s) /\ flag_of (get opts "selvars" "density_flag") = Some (density_flag s) /\
     string_of (get opts "selvars" "selvars_type") = Some (selvars_type s) /\ rational_of (get opts "selvars" "min_distance") = Some (min_distance s) /\
     small_scale_float s = fl "small_scale"%string /\ min_distance_float s = fl "min_distance"%string /\ type_str s = true) /\
    (rational_of (get opts "sifted" "rho") = Some (o_rho (w_end o)) /\ count_of (get opts "sifted" "k") = Some (o_k (w_end o))) /\
    (PilotModel.p_x0 (o_pilot (w_end o)) = None /\ PilotModel.p_alpha (o_pilot (w_end o)) = None /\ count_of (get opts "pilot" "n_tries") = Some (PilotModel.p_tries (o_pilot (w_end o)))) /\
    (flag_of (get opts "pythia" "use_weights") = Some (o_weights (w_end o)) /\ o_params (w_end o) = None) /\
    (rational_of (get opts "cloister" "p_val") = Some (w_p_val o) /\ rational_of (get opts "cloister" "c_thres") = Some (w_c_thres o)) /\
    (flag_of (get opts "trace" "use_sim") = Some (w_use_sim o) /\ rational_of (get opts "trace" "purity") = Some (w_purity o)) /\
    option_map (fun co => Z.min co cpus) (integer_of (get opts "parallel" "n_cores")) = Some (w_cores o).
  Proof.
    intros H. unfold typed_options in H.
    repeat match type of H with bind ?a _ = _ => destruct a eqn:?; [cbn [bind] in H|discriminate H] end.
    injection H as <-. cbv zeta. cbn [w_end o_prelim o_sel o_feats o_algos o_rho o_k o_pilot o_weights o_params w_p_val w_c_thres w_use_sim w_purity w_cores
      max_perf abs_perf epsilon beta_threshold bound norm small_scale_flag small_scale_float file_idx_flag file_exists density_flag min_distance_float type_str
      selvars_type min_distance PilotModel.p_x0 PilotModel.p_alpha PilotModel.p_tries].
    repeat apply conj; first [match goal with H : ?a = Some _ |- ?a = Some _ => exact H | H : ?a = Some _ |- option_map _ ?a = _ => rewrite H; reflexivity end|reflexivity].
  Qed.
  Lemma run_inv' fin mp op opts r : load op = Ok (Some opts) -> run_with fin mp op = Some r ->
    exists m t o, from_csv_file lower (show_entry text) row_numeric dtype_name (read_csv mp) = Ok (Some m) /\ table_from m = Some t /\
      typed_options (float op) is_file cpus opts = Some o /\ pipeline_with fin opts t o = r.
  Proof.
    intros Ld H. unfold run_files, instance_space_from_files in H. rewrite Ld in H.
    destruct (from_csv_file _ _ _ _ _) as [[m|]|e] eqn:E; cbn [snd is_metadata is_options] in H; try discriminate.
    destruct (table_from m) as [t|] eqn:Et; [|discriminate]. destruct (typed_options _ _ _ opts) as [o|] eqn:Eo; [|discriminate]. injection H as H. eauto 10.
  Qed.
  Lemma pilot_eta (p : PilotModel.pilot_options) : p = {| PilotModel.p_x0 := PilotModel.p_x0 p; PilotModel.p_alpha := PilotModel.p_alpha p; PilotModel.p_tries := PilotModel.p_tries p |}.
  Proof. destruct p; reflexivity. Qed.
  (** The stages are run with the options of the file, each under its own name. *)
  Lemma flag_spec v b : flag_of v = Some b -> v = Some (JBool b).
  Proof. destruct v as [[]|]; try discriminate. cbn. congruence. Qed.
  Lemma rational_spec v q : rational_of v = Some q -> v = Some (JNum q).
  Proof. destruct v as [[]|]; try discriminate. cbn. congruence. Qed.
  Lemma integer_spec v k : integer_of v = Some k -> v = Some (JNum (inject_Z k)).
  Proof.
    destruct v as [[]|]; try discriminate. unfold integer_of. destruct q as [n d]. cbn [Qden Qnum].
    destruct (Pos.eqb_spec d 1) as [->|]; [|discriminate]. intro H. injection H as <-. reflexivity.
  Qed.
  Lemma count_spec v k : count_of v = Some k -> v = Some (JNum (inject_Z (Z.of_nat k))).
  Proof.
    unfold count_of. destruct (integer_of v) as [n|] eqn:E; [|discriminate]. destruct (Z.leb_spec 0 n); [|discriminate].
    intro X. injection X as <-. rewrite Z2Nat.id by auto. apply integer_spec; auto.
  Qed.
  Lemma string_spec v s : string_of v = Some s -> v = Some (JStr s).
  Proof. destruct v as [[]|]; try discriminate. cbn. congruence. Qed.
  Lemma names_spec v l : names_of v = Some l -> v = Some (match l with None => JNull | Some n => JArr (map JStr n) end).
  Proof.
    destruct v as [[]|]; try discriminate; cbn [names_of]; [intro H; injection H as <-; auto|].
    match goal with |- option_map _ (every _ ?a) = _ -> _ => rename a into w end.
    destruct (every _ w) as [r|] eqn:E; [|discriminate]. cbn [option_map]. intro H. injection H as <-. do 2 f_equal.
    revert r E. induction w as [|x w IH]; intros r E; cbn [every] in E; [injection E as <-; auto|].
    destruct x; try discriminate. destruct (every _ w) as [r'|]; [|discriminate]. injection E as <-. cbn [map]. f_equal. auto.
  Qed.
  Theorem C142_options_reach_the_stages :
    forall mp op opts r, load op = Ok (Some opts) -> run mp op = Some r ->
      exists t o,
        r = WholeModel.build_all
              (EndModel.build transform (split (get opts "selvars" "small_scale")) (file (get opts "selvars" "file_idx")) pearson order sil
                 (km_labels (map (get opts "sifted") ["max_iter"; "replicates"]%string))
                 (best (map (get opts "sifted") ["num_generations"; "num_parents_mating"; "sol_per_pop"; "parent_selection_type"; "k_tournament"; "keep_elitism";
                            "crossover_type"; "cross_over_probability"; "mutation_type"; "mutation_probability"; "stop_criteria"]%string
                        ++ map (get opts "parallel") ["flag"; "n_cores"]%string))
                 bfgs quality f16 random
                 (fit (map (get opts "pythia") ["cv_folds"; "is_poly_krnl"; "use_grid_search"]%string ++ map (get opts "parallel") ["flag"; "n_cores"]%string))
                 round3 root)
              cpearson hull is_empty area contains contains_all intersection difference union no_polygon smooth
              triangulate convex_hull geoms alphashape radius point finished t o /\
        let is section field v := get opts section field = Some v in
        let e := w_end o in let p := o_prelim e in let s := o_sel e in
        let names l := match l with None => JNull | Some n => JArr (map JStr n) end in
        let count n := JNum (inject_Z (Z.of_nat n)) in
        (is "perf" "max_perf" (JBool (max_perf p)) /\ is "perf" "abs_perf" (JBool (abs_perf p)) /\ is "perf" "epsilon" (JNum (epsilon p)) /\
         is "perf" "beta_threshold" (JNum (beta_threshold p)) /\ is "bound" "flag" (JBool (bound p)) /\ is "norm" "flag" (JBool (norm p))) /\
        (is "selvars" "feats" (names (o_feats e)) /\ is "selvars" "algos" (names (o_algos e)) /\
         is "selvars" "small_scale_flag" (JBool (small_scale_flag s)) /\ is "selvars" "file_idx_flag" (JBool (file_idx_flag s)) /\
         (exists path, is "selvars" "file_idx" (JStr path) /\ file_exists s = is_file path) /\ is "selvars" "density_flag" (JBool (density_flag s)) /\
         is "selvars" "selvars_type" (JStr (selvars_type s)) /\ is "selvars" "min_distance" (JNum (min_distance s)) /\
         small_scale_float s = float op "small_scale" /\ min_distance_float s = float op "min_distance" /\ type_str s = true) /\
        (is "sifted" "rho" (JNum (o_rho e)) /\ is "sifted" "k" (count (o_k e))) /\
        (is "pilot" "x0" JNull /\ is "pilot" "alpha" JNull /\ o_pilot e = {| PilotModel.p_x0 := None; PilotModel.p_alpha := None; PilotModel.p_tries := PilotModel.p_tries (o_pilot e) |} /\
         is "pilot" "n_tries" (count (PilotModel.p_tries (o_pilot e)))) /\
        (is "pythia" "use_weights" (JBool (o_weights e)) /\ is "pythia" "params" JNull /\ o_params e = None) /\
        (is "cloister" "p_val" (JNum (w_p_val o)) /\ is "cloister" "c_thres" (JNum (w_c_thres o))) /\
        (is "trace" "use_sim" (JBool (w_use_sim o)) /\ is "trace" "purity" (JNum (w_purity o))) /\
        exists cores, is "parallel" "n_cores" (JNum (inject_Z cores)) /\ w_cores o = Z.min cores cpus.
  Proof.
    intros mp op opts r L R. destruct (run_inv' finished mp _ L R) as (m & t & o & Em & Et & T & H). exists t, o. split; [symmetry; exact H|]. cbv zeta.
    assert (A : absent (get opts "pilot" "x0") = Some tt /\ absent (get opts "pilot" "alpha") = Some tt /\ absent (get opts "pythia" "params") = Some tt).
    { unfold typed_options in T. repeat match type of T with bind ?a _ = _ => destruct a eqn:?; [cbn [bind] in T|discriminate T] end.
      repeat match goal with u : unit |- _ => destruct u end. auto. }
    assert (An : forall v, absent v = Some tt -> v = Some JNull) by (intros [[]|]; try discriminate; auto).
    destruct (typed_inv _ _ T) as (P & V & I & Pi & Y & C & Tr & K).
    destruct P as (P1 & P2 & P3 & P4 & P5 & P6). destruct V as (V1 & V2 & V3 & V4 & V5 & V6 & V7 & V8 & V9 & V10 & V11).
    destruct I as (I1 & I2). destruct Pi as (Pi1 & Pi2 & Pi3). destruct Y as (Y1 & Y2). destruct C as (C1 & C2). destruct Tr as (T1 & T2).
    repeat apply conj; auto using flag_spec, rational_spec, count_spec, string_spec, names_spec; try (apply An; tauto).
    - destruct (string_of (get opts "selvars" "file_idx")) as [path|] eqn:E; [|discriminate]. exists path. split; [apply string_spec; auto|]. cbn in V5. congruence.
    - rewrite (pilot_eta (o_pilot (w_end o))) at 1. rewrite Pi1, Pi2. reflexivity.
    - destruct (integer_of (get opts "parallel" "n_cores")) as [co|] eqn:E; [|discriminate]. exists co. split; [apply integer_spec; auto|]. cbn in K. congruence.
  Qed.
  (** the options of these sections are the same *)
  Definition same (sections : list string) (o o' : options) : Prop := forall s f, In s sections -> get o s f = get o' s f.
  (** the stages before the projection *)
  Definition front sp fl (km bst : list nat -> _) (t : table_of string string) fe al pr se rh k :=
    match PreprocModel.preproc_run (t_features t) (t_algorithms t) (t_feature_names t) (t_algorithm_names t) fe al (t_sources t) (t_labels t) with
    | Err e => Err (EPreproc e)
    | Ok p =>
        match filter_insts se sp fl (length (PreprocModel.p_feat p)) (length (PreprocModel.p_algo p))
                (prelim pr transform (length (PreprocModel.p_feat p)) (length (PreprocModel.p_algo p)) (PreprocModel.p_inst p) (PreprocModel.p_s p)
                   (PreprocModel.p_x p) (PreprocModel.p_y p) (PreprocModel.p_x_raw p) (PreprocModel.p_y_raw p)) with
        | Err e => Err (EPrelim e)
        | Ok (_, d1, dense) =>
            match sifted_run pearson order sil km bst (PreprocModel.p_feat p) (length (PreprocModel.p_algo p)) rh k
                    (option_map (fun d => (d_x d, d_y d, d_bin d)) dense) (selvars_type se) (min_distance se) (sifted_inputs (PreprocModel.p_inst p) d1) with
            | Err e => Err (ESifted e)
            | Ok (so, d2) => Ok (PreprocModel.p_algo p, so, d2)
            end
        end
    end.
  Lemma build_front sp fl km bst ft t o :
    EndModel.build transform sp fl pearson order sil km bst bfgs quality f16 random ft round3 root t o =
    match front sp fl km bst t (o_feats o) (o_algos o) (o_prelim o) (o_sel o) (o_rho o) (o_k o) with
    | Err e => Err e
    | Ok (algo, so, d2) =>
        match PilotModel.pilot bfgs quality f16 random (d_x d2) (d_y d2) (length (SiftedModel.so_labels so)) (length algo) (SiftedModel.so_labels so) (o_pilot o) with
        | Err e => Err (EPilot e)
        | Ok po =>
            match PythiaModel.pythia (ft (PilotModel.po_z po)) round3 root (d_y_raw d2) (d_bin d2) (map to_num (d_best d2)) algo (length algo) (o_weights o) (o_params o) with
            | Err e => Err (EPythia e)
            | Ok py => Ok {| e_feat := SiftedModel.so_labels so; e_algo := algo; e_idx := SiftedModel.so_idx so; e_data := d2; e_pilot := po; e_pythia := py |}
            end
        end
    end.
  Proof.
    unfold EndModel.build, front. destruct (PreprocModel.preproc_run _ _ _ _ _ _ _ _) as [p|e]; [|reflexivity].
    destruct (filter_insts _ _ _ _ _ _) as [[[m d1] dense]|e]; [|reflexivity]. destruct (sifted_run _ _ _ _ _ _ _ _ _ _ _ _ _) as [[so d2]|e]; reflexivity.
  Qed.
  Notation front_of opts t o := (front (split (get opts "selvars" "small_scale")) (file (get opts "selvars" "file_idx")) (km_labels (kmeans_options opts))
    (best (genetic_options opts)) t (o_feats (w_end o)) (o_algos (w_end o)) (o_prelim (w_end o)) (o_sel (w_end o)) (o_rho (w_end o)) (o_k (w_end o))).
  Notation pilot_of so algo d2 o := (PilotModel.pilot bfgs quality f16 random (d_x d2) (d_y d2) (length (SiftedModel.so_labels so)) (length algo) (SiftedModel.so_labels so) (o_pilot (w_end o))).
  Notation pythia_of opts po d2 algo o := (PythiaModel.pythia (fit (svm_options opts) (PilotModel.po_z po)) round3 root (d_y_raw d2) (d_bin d2) (map to_num (d_best d2)) algo (length algo)
    (o_weights (w_end o)) (o_params (w_end o))).
  Notation cloister_of e o := (CloisterModel.cloister cpearson hull (d_x (e_data e)) (PilotModel.po_a (e_pilot e)) (length (e_feat e)) (w_p_val o) (w_c_thres o)).
  Notation trace_of e o := (TraceModel.run is_empty area contains contains_all intersection difference union no_polygon smooth
    triangulate convex_hull geoms alphashape radius (w_use_sim o) (map point (PilotModel.po_z (e_pilot e))) (w_purity o) (PythiaModel.o_selection0 (e_pythia e)) (d_p (e_data e))
    (PythiaModel.o_y_hat (e_pythia e)) (d_bin (e_data e)) (d_beta (e_data e)) (e_algo e) (length (e_algo e)) (w_cores o)).
  Lemma pipeline_ok fin opts t o out : pipeline_with fin opts t o = Ok out ->
    exists so, front_of opts t o = Ok (e_algo (w_out out), so, e_data (w_out out)) /\
      e_feat (w_out out) = SiftedModel.so_labels so /\ e_idx (w_out out) = SiftedModel.so_idx so /\
      pilot_of so (e_algo (w_out out)) (e_data (w_out out)) o = Ok (e_pilot (w_out out)) /\
      pythia_of opts (e_pilot (w_out out)) (e_data (w_out out)) (e_algo (w_out out)) o = Ok (e_pythia (w_out out)) /\
      cloister_of (w_out out) o = Ok (w_edge out, w_ecorr out) /\ trace_of (w_out out) o fin = Ok (w_trace out).
  Proof.
    unfold FilesModel.pipeline, build_all. rewrite build_front. intro H.
    destruct (front_of opts t o) as [[[algo so] d2]|e]; [|discriminate].
    destruct (PilotModel.pilot _ _ _ _ _ _ _ _ _ _) as [po|e] eqn:E1; [|discriminate].
    destruct (PythiaModel.pythia _ _ _ _ _ _ _ _ _ _) as [py|e] eqn:E2; [|discriminate]. cbn [e_data e_pilot e_feat e_algo e_pythia] in H.
    destruct (CloisterModel.cloister _ _ _ _ _ _ _) as [[ed ec]|e] eqn:E3; [|discriminate].
    destruct (TraceModel.run _ _ _ _ _ _ _ _ _ _ _ _ _ _ _ _ _ _ _ _ _ _ _ _ _ _) as [tr|e] eqn:E4; [|discriminate]. injection H as <-.
    exists so. cbn [w_out w_edge w_ecorr w_trace e_data e_pilot e_feat e_algo e_pythia e_idx]. auto 10.
  Qed.

  Lemma popts_eta (p : popts) : p = {| max_perf := max_perf p; abs_perf := abs_perf p; epsilon := epsilon p; beta_threshold := beta_threshold p; bound := bound p; norm := norm p |}.
  Proof. destruct p; reflexivity. Qed.
  Lemma selopts_eta (p : selopts) : p = {| small_scale_flag := small_scale_flag p; small_scale_float := small_scale_float p; file_idx_flag := file_idx_flag p;
    file_exists := file_exists p; density_flag := density_flag p; min_distance_float := min_distance_float p; type_str := type_str p; selvars_type := selvars_type p; min_distance := min_distance p |}.
  Proof. destruct p; reflexivity. Qed.
  Definition early : list string := ["perf"; "bound"; "norm"; "selvars"; "sifted"; "parallel"]%string.
  Lemma same_front op op' opts opts' o o' t : typed_options (float op) is_file cpus opts = Some o -> typed_options (float op') is_file cpus opts' = Some o' ->
    (forall n, float op n = float op' n) -> same early opts opts' -> front_of opts t o = front_of opts' t o' /\ w_cores o = w_cores o'.
  Proof.
    intros T T' Fl S. destruct (typed_inv _ _ T) as (P & V & I & _ & _ & _ & _ & K). destruct (typed_inv _ _ T') as (P' & V' & I' & _ & _ & _ & _ & K').
    assert (Sg : forall s f, existsb (String.eqb s) early = true -> get opts s f = get opts' s f).
    { intros s f X. apply S. apply existsb_exists in X. destruct X as (s' & X & Y). apply String.eqb_eq in Y. congruence. }
    repeat rewrite Sg in P by reflexivity. repeat rewrite Sg in V by reflexivity. repeat rewrite Sg in I by reflexivity. repeat rewrite Sg in K by reflexivity. rewrite !Fl in V.
    assert (E1 : o_prelim (w_end o) = o_prelim (w_end o')) by (rewrite (popts_eta (o_prelim (w_end o))), (popts_eta (o_prelim (w_end o'))); f_equal; intuition congruence).
    assert (E2 : o_sel (w_end o) = o_sel (w_end o')) by (rewrite (selopts_eta (o_sel (w_end o))), (selopts_eta (o_sel (w_end o'))); f_equal; intuition congruence).
    assert (E3 : o_feats (w_end o) = o_feats (w_end o')) by intuition congruence.
    assert (E4 : o_algos (w_end o) = o_algos (w_end o')) by intuition congruence.
    assert (E5 : o_rho (w_end o) = o_rho (w_end o')) by intuition congruence.
    assert (E6 : o_k (w_end o) = o_k (w_end o')) by intuition congruence.
    split; [|congruence]. rewrite E1, E2, E3, E4, E5, E6. unfold kmeans_options, genetic_options, fields_of. cbn [map fst snd]. repeat rewrite Sg by reflexivity. reflexivity.
  Qed.

  (** Two runs on the same metadata, and the sections of the options in which they agree: what is the same in the results. *)
  Theorem C143_what_the_options_act_on :
    forall mp op op' opts opts' out out', load op = Ok (Some opts) -> load op' = Ok (Some opts') -> (forall n, float op n = float op' n) ->
      run mp op = Some (Ok out) -> run mp op' = Some (Ok out') ->
      same ["perf"; "bound"; "norm"; "selvars"; "sifted"; "parallel"]%string opts opts' ->
      let e := w_out out in let e' := w_out out' in
      e_feat e = e_feat e' /\ e_algo e = e_algo e' /\ e_idx e = e_idx e' /\ e_data e = e_data e' /\
      (same ["pilot"]%string opts opts' ->
         e_pilot e = e_pilot e' /\
         (same ["cloister"]%string opts opts' -> w_edge out = w_edge out' /\ w_ecorr out = w_ecorr out') /\
         (same ["pythia"]%string opts opts' -> e_pythia e = e_pythia e') /\
         (same ["trace"]%string opts opts' ->
          same ["pythia"]%string opts opts' \/ get opts "trace" "use_sim" = Some (JBool false) -> w_trace out = w_trace out')).
  Proof.
    intros mp op op' opts opts' out out' L L' Fl R R' S e e'.
    destruct (run_inv' finished mp _ L R) as (m & t & o & Em & Et & T & H). destruct (run_inv' finished mp _ L' R') as (m' & t' & o' & Em' & Et' & T' & H').
    assert (m' = m) by congruence. subst m'. assert (t' = t) by congruence. subst t'.
    destruct (pipeline_ok finished _ _ _ H) as (so & F & Ef & Ei & Hp & Hy & Hc & Ht). destruct (pipeline_ok finished _ _ _ H') as (so' & F' & Ef' & Ei' & Hp' & Hy' & Hc' & Ht').
    destruct (@same_front op op' opts opts' o o' t T T' Fl S) as (Ff & Ec). rewrite Ff, F' in F. injection F as Ea Es Ed.
    fold e in Ea, Ed, Ef, Ei, Hp, Hy, Hc, Ht. fold e' in Ea, Ed, Ef', Ei', Hp', Hy', Hc', Ht'.
    destruct (typed_inv _ _ T) as (_ & _ & _ & P & Y & C & Tr & _). destruct (typed_inv _ _ T') as (_ & _ & _ & P' & Y' & C' & Tr' & _).
    assert (Ef2 : e_feat e = e_feat e') by congruence.
    split; [auto|]. split; [auto|]. split; [congruence|]. split; [auto|]. intro Sp.
    assert (Eo : o_pilot (w_end o) = o_pilot (w_end o')).
    { rewrite (pilot_eta (o_pilot (w_end o))), (pilot_eta (o_pilot (w_end o'))). rewrite (Sp "pilot" "n_tries")%string in P by (left; auto). f_equal; intuition congruence. }
    assert (Ep : e_pilot e = e_pilot e') by (rewrite <- Ed, <- Ea, <- Es, Eo, Hp' in Hp; congruence).
    assert (Ey : same ["pythia"]%string opts opts' -> e_pythia e = e_pythia e').
    { intro Sy. assert (Ew : o_weights (w_end o) = o_weights (w_end o')) by (rewrite (Sy "pythia" "use_weights")%string in Y by (left; auto); intuition congruence).
      assert (Eq : o_params (w_end o) = o_params (w_end o')) by intuition congruence.
      assert (Ev : svm_options opts = svm_options opts').
      { unfold svm_options, fields_of. cbn [map fst snd]. repeat rewrite (Sy "pythia"%string) by (left; auto).
        repeat rewrite (S "parallel"%string) by (cbn; auto 10). reflexivity. }
      rewrite Ev, Ew, Eq, Ep, <- Ed, <- Ea, Hy' in Hy. congruence. }
    split; [auto|]. split; [|split; [auto|]].
    - intro Sc. repeat rewrite (Sc "cloister"%string) in C by (left; auto).
      assert (E1 : w_p_val o = w_p_val o') by intuition congruence. assert (E2 : w_c_thres o = w_c_thres o') by intuition congruence.
      rewrite E1, E2, Ep, Ef2, <- Ed, Hc' in Hc. injection Hc as <- <-. auto.
    - intros St U. assert (Fs := proj1 Tr). repeat rewrite (St "trace"%string) in Tr by (left; auto). repeat rewrite (St "trace"%string) in Fs by (left; auto).
      assert (E1 : w_use_sim o = w_use_sim o') by intuition congruence. assert (E2 : w_purity o = w_purity o') by intuition congruence.
      rewrite E1, E2, Ep, <- Ed, <- Ea, Ec in Ht. destruct U as [Sy|U].
      + rewrite (Ey Sy), Ht' in Ht. congruence.
      + rewrite (St "trace" "use_sim")%string in U by (left; auto). rewrite U in Fs. cbn [flag_of] in Fs. injection Fs as Fs.
        rewrite <- E1, <- Fs in Ht, Ht'. unfold TraceModel.run in Ht, Ht'. congruence.
  Qed.
  (** An error of the stages before the projection depends on the same sections alone. *)
  Theorem C143_errors :
    forall mp op op' opts opts' x r, load op = Ok (Some opts) -> load op' = Ok (Some opts') -> (forall n, float op n = float op' n) ->
      same ["perf"; "bound"; "norm"; "selvars"; "sifted"; "parallel"]%string opts opts' ->
      run mp op = Some (Err (EBuild x)) -> (forall y, x <> EPythia y) -> (forall y, x = EPilot y -> same ["pilot"]%string opts opts') ->
      run mp op' = Some r -> r = Err (EBuild x).
  Proof.
    intros mp op op' opts opts' x r L L' Fl S R Ny Np R'.
    destruct (run_inv' finished mp _ L R) as (m & t & o & Em & Et & T & H). destruct (run_inv' finished mp _ L' R') as (m' & t' & o' & Em' & Et' & T' & H').
    assert (m' = m) by congruence. subst m'. assert (t' = t) by congruence. subst t'. subst r.
    destruct (@same_front op op' opts opts' o o' t T T' Fl S) as (Ff & Ec). unfold FilesModel.pipeline, build_all in *. rewrite build_front in *.
    rewrite Ff in H. destruct (front_of opts' t o') as [[[algo so] d2]|y]; [|congruence].
    destruct (pilot_of so algo d2 o) as [po|y] eqn:Ep.
    - destruct (pythia_of opts po d2 algo o) as [py|y] eqn:Ey; [|injection H as <-; exfalso; apply (Ny y); auto]. exfalso.
      cbn [e_data e_pilot e_feat e_algo e_pythia] in H. destruct (CloisterModel.cloister _ _ _ _ _ _ _) as [[ed ec]|y]; [|discriminate].
      destruct (TraceModel.run _ _ _ _ _ _ _ _ _ _ _ _ _ _ _ _ _ _ _ _ _ _ _ _ _ _); discriminate.
    - injection H as <-. specialize (Np y eq_refl).
      destruct (typed_inv _ _ T) as (_ & _ & _ & P & _). destruct (typed_inv _ _ T') as (_ & _ & _ & P' & _).
      assert (Eo : o_pilot (w_end o) = o_pilot (w_end o')).
      { rewrite (pilot_eta (o_pilot (w_end o))), (pilot_eta (o_pilot (w_end o'))). rewrite (Np "pilot" "n_tries")%string in P by (left; auto). f_equal; intuition congruence. }
      rewrite Eo in Ep. rewrite Ep. reflexivity.
  Qed.
  (* ------------------------------------------------------------------ the threshold for beta *)
  Definition but_beta (p p' : popts) : Prop :=
    max_perf p = max_perf p' /\ abs_perf p = abs_perf p' /\ epsilon p = epsilon p' /\ bound p = bound p' /\ norm p = norm p'.
  Definition no_beta {L S} (d : inst_data L S) : inst_data L S :=
    {| d_x := d_x d; d_y := d_y d; d_x_raw := d_x_raw d; d_y_raw := d_y_raw d; d_bin := d_bin d; d_beta := []; d_good := d_good d; d_best := d_best d;
       d_p := d_p d; d_labels := d_labels d; d_s := d_s d |}.
  Lemma row_beta p p' row : but_beta p p' -> let r := prelim_row p row in let r' := prelim_row p' row in
    r_bin r = r_bin r' /\ r_good r = r_good r' /\ r_best r = r_best r' /\ r_p r = r_p r' /\ r_y r = r_y r' /\ r_y_inplace r = r_y_inplace r'.
  Proof.
    destruct p as [m1 a1 e1 b1 o1 n1], p' as [m2 a2 e2 b2 o2 n2]. unfold but_beta. cbn [max_perf abs_perf epsilon bound norm]. intros (-> & -> & -> & -> & ->).
    unfold prelim_row.
    change (best_of {| max_perf := m2; abs_perf := a2; epsilon := e2; beta_threshold := b1; bound := o2; norm := n2 |} row)
      with (best_of {| max_perf := m2; abs_perf := a2; epsilon := e2; beta_threshold := b2; bound := o2; norm := n2 |} row).
    destruct (best_of _ row) as [bi bv]. repeat apply conj; reflexivity.
  Qed.
  Lemma prelim_beta {L S} p p' nf na (il : list L) (s : option (list S)) x y xr yr : but_beta p p' ->
    no_beta (prelim p transform nf na il s x y xr yr) = no_beta (prelim p' transform nf na il s x y xr yr).
  Proof.
    intro H. assert (R : forall A (f : row_out -> A) rows, (forall row, f (prelim_row p row) = f (prelim_row p' row)) ->
      map f (map (prelim_row p) rows) = map f (map (prelim_row p') rows)) by (intros; rewrite !map_map; apply map_ext; auto).
    assert (Rr := fun row => @row_beta p p' row H). cbv zeta in Rr.
    assert (Y : prelim_y p transform na y = prelim_y p' transform na y).
    { unfold prelim_y. rewrite (R _ r_y_inplace), (R _ r_y) by (intro; apply Rr). destruct H as (_ & _ & _ & _ & ->). reflexivity. }
    assert (F : map (feature_column p transform) (columns_of None nf x) = map (feature_column p' transform) (columns_of None nf x)).
    { apply map_ext. intro c. unfold feature_column. destruct H as (_ & _ & _ & -> & ->). reflexivity. }
    unfold no_beta, prelim. cbn [d_x d_y d_x_raw d_y_raw d_bin d_beta d_good d_best d_p d_labels d_s].
    rewrite Y, F, (R _ r_y_inplace), (R _ r_bin), (R _ r_good), (R _ r_best), (R _ r_p) by (intro; apply Rr). reflexivity.
  Qed.
  Lemma no_beta_fields {L S} (d d' : inst_data L S) : no_beta d = no_beta d' ->
    d_x d = d_x d' /\ d_y d = d_y d' /\ d_x_raw d = d_x_raw d' /\ d_y_raw d = d_y_raw d' /\ d_bin d = d_bin d' /\ d_good d = d_good d' /\
    d_best d = d_best d' /\ d_p d = d_p d' /\ d_labels d = d_labels d' /\ d_s d = d_s d'.
  Proof. unfold no_beta. intro H. injection H. intros. repeat apply conj; auto. Qed.
  Lemma front_beta sp fl km bst t fe al pr pr' se rh k : but_beta pr pr' ->
    match front sp fl km bst t fe al pr se rh k, front sp fl km bst t fe al pr' se rh k with
    | Ok (algo, so, d), Ok (algo', so', d') => algo = algo' /\ so = so' /\ no_beta d = no_beta d'
    | Err e, Err e' => e = e'
    | _, _ => False
    end.
  Proof.
    intro H. unfold front. destruct (PreprocModel.preproc_run _ _ _ _ _ _ _ _) as [p|e]; [|reflexivity].
    pose proof (@prelim_beta _ _ pr pr' (length (PreprocModel.p_feat p)) (length (PreprocModel.p_algo p)) (PreprocModel.p_inst p) (PreprocModel.p_s p)
                  (PreprocModel.p_x p) (PreprocModel.p_y p) (PreprocModel.p_x_raw p) (PreprocModel.p_y_raw p) H) as N.
    set (d := prelim pr _ _ _ _ _ _ _ _ _) in *. set (d' := prelim pr' _ _ _ _ _ _ _ _ _) in *. clearbody d d'.
    apply no_beta_fields in N. destruct d as [x y xr yr bi be go bs pp lb ss], d' as [x' y' xr' yr' bi' be' go' bs' pp' lb' ss'].
    cbn [d_x d_y d_x_raw d_y_raw d_bin d_beta d_good d_best d_p d_labels d_s] in N. destruct N as (<- & <- & <- & <- & <- & <- & <- & <- & <- & <-).
    unfold filter_insts. cbn [d_x d_y d_bin]. cbv zeta.
    match goal with |- context [match ?mm with Ok m => _ | Err q => Err q end] => destruct mm as [mk|e] end; [|reflexivity].
    destruct (_ || _)%bool.
    - assert (E : forall b : bool, option_map (fun d => (d_x d, d_y d, d_bin d)) (if b then Some {| d_x := x; d_y := y; d_x_raw := xr; d_y_raw := yr; d_bin := bi; d_beta := be; d_good := go; d_best := bs; d_p := pp; d_labels := lb; d_s := ss |} else None)
                = option_map (fun d => (d_x d, d_y d, d_bin d)) (if b then Some {| d_x := x; d_y := y; d_x_raw := xr; d_y_raw := yr; d_bin := bi; d_beta := be'; d_good := go; d_best := bs; d_p := pp; d_labels := lb; d_s := ss |} else None)) by (intros []; reflexivity).
      rewrite E. unfold sifted_run, sifted_inputs, restrict. cbn [d_x d_y d_x_raw d_y_raw d_bin d_beta d_good d_best d_p d_labels d_s].
      destruct (SiftedModel.sifted _ _ _ _ _ _ _ _ _ _ _ _ _ _) as [so|e]; [|reflexivity]. repeat apply conj; reflexivity.
    - unfold sifted_run, sifted_inputs. cbn [option_map d_x d_y d_x_raw d_y_raw d_bin d_beta d_good d_best d_p d_labels d_s].
      destruct (SiftedModel.sifted _ _ _ _ _ _ _ _ _ _ _ _ _ _) as [so|e]; [|reflexivity]. repeat apply conj; reflexivity.
  Qed.
  (** The threshold for beta acts on beta and on the footprint of the hard instances, and on nothing else. *)
  Theorem C143_beta_threshold :
    forall mp op op' opts opts' out out', load op = Ok (Some opts) -> load op' = Ok (Some opts') -> (forall n, float op n = float op' n) ->
      run mp op = Some (Ok out) -> run mp op' = Some (Ok out') ->
      (forall s f, (s, f) <> ("perf", "beta_threshold")%string -> get opts s f = get opts' s f) ->
      let e := w_out out in let e' := w_out out' in let d := e_data e in let d' := e_data e' in
      e_feat e = e_feat e' /\ e_algo e = e_algo e' /\ e_idx e = e_idx e' /\
      (d_x d = d_x d' /\ d_y d = d_y d' /\ d_x_raw d = d_x_raw d' /\ d_y_raw d = d_y_raw d' /\ d_bin d = d_bin d' /\ d_good d = d_good d' /\
       d_best d = d_best d' /\ d_p d = d_p d' /\ d_labels d = d_labels d' /\ d_s d = d_s d') /\
      e_pilot e = e_pilot e' /\ e_pythia e = e_pythia e' /\ w_edge out = w_edge out' /\ w_ecorr out = w_ecorr out' /\
      let t := w_trace out in let t' := w_trace out' in
      TraceModel.t_space t = TraceModel.t_space t' /\ TraceModel.t_good t = TraceModel.t_good t' /\ TraceModel.t_best t = TraceModel.t_best t' /\
      TraceModel.t_summary t = TraceModel.t_summary t'.
  Proof.
    intros mp op op' opts opts' out out' L L' Fl R R' S e e' d d'.
    destruct (run_inv' finished mp _ L R) as (m & t & o & Em & Et & T & H). destruct (run_inv' finished mp _ L' R') as (m' & t' & o' & Em' & Et' & T' & H').
    assert (m' = m) by congruence. subst m'. assert (t' = t) by congruence. subst t'.
    destruct (typed_inv _ _ T) as (P & V & I & Pi & Y & C & Tr & K). destruct (typed_inv _ _ T') as (P' & V' & I' & Pi' & Y' & C' & Tr' & K').
    repeat rewrite S in V by discriminate. repeat rewrite S in I by discriminate. repeat rewrite S in Pi by discriminate. repeat rewrite S in Y by discriminate.
    repeat rewrite S in C by discriminate. repeat rewrite S in Tr by discriminate. repeat rewrite S in K by discriminate. repeat rewrite Fl in V.
    rewrite (S "perf" "max_perf"), (S "perf" "abs_perf"), (S "perf" "epsilon"), (S "bound" "flag"), (S "norm" "flag") in P by discriminate.
    assert (B : but_beta (o_prelim (w_end o)) (o_prelim (w_end o'))) by (unfold but_beta; repeat apply conj; intuition congruence).
    assert (E2 : o_sel (w_end o) = o_sel (w_end o')) by (rewrite (selopts_eta (o_sel (w_end o))), (selopts_eta (o_sel (w_end o'))); clear - V V'; f_equal; intuition congruence).
    assert (E3 : o_feats (w_end o) = o_feats (w_end o')) by (clear - V V'; intuition congruence).
    assert (E4 : o_algos (w_end o) = o_algos (w_end o')) by (clear - V V'; intuition congruence).
    assert (E5 : o_rho (w_end o) = o_rho (w_end o')) by (clear - I I'; intuition congruence).
    assert (E6 : o_k (w_end o) = o_k (w_end o')) by (clear - I I'; intuition congruence).
    assert (E7 : o_pilot (w_end o) = o_pilot (w_end o')) by (rewrite (pilot_eta (o_pilot (w_end o))), (pilot_eta (o_pilot (w_end o'))); clear - Pi Pi'; f_equal; intuition congruence).
    assert (E8 : o_weights (w_end o) = o_weights (w_end o') /\ o_params (w_end o) = o_params (w_end o')) by (clear - Y Y'; intuition congruence).
    assert (E9 : w_p_val o = w_p_val o' /\ w_c_thres o = w_c_thres o') by (clear - C C'; intuition congruence).
    assert (E10 : w_use_sim o = w_use_sim o' /\ w_purity o = w_purity o') by (clear - Tr Tr'; intuition congruence).
    assert (E11 : w_cores o = w_cores o') by congruence.
    assert (Ek : kmeans_options opts = kmeans_options opts') by (unfold kmeans_options, fields_of; cbn [map fst snd]; repeat rewrite S by discriminate; reflexivity).
    assert (Eg : genetic_options opts = genetic_options opts') by (unfold genetic_options, fields_of; cbn [map fst snd]; repeat rewrite S by discriminate; reflexivity).
    assert (Es : svm_options opts = svm_options opts') by (unfold svm_options, fields_of; cbn [map fst snd]; repeat rewrite S by discriminate; reflexivity).
    destruct (pipeline_ok finished _ _ _ H) as (so & F & Ef & Ei & Hp & Hy & Hc & Ht). destruct (pipeline_ok finished _ _ _ H') as (so' & F' & Ef' & Ei' & Hp' & Hy' & Hc' & Ht').
    fold e in F, Ef, Ei, Hp, Hy, Hc, Ht. fold e' in F', Ef', Ei', Hp', Hy', Hc', Ht'. fold d in F, Hp, Hy, Hc, Ht. fold d' in F', Hp', Hy', Hc', Ht'.
    rewrite E2, E3, E4, E5, E6, Ek, Eg, (S "selvars" "small_scale"), (S "selvars" "file_idx") in F by discriminate.
    pose proof (@front_beta (split (get opts' "selvars" "small_scale")) (file (get opts' "selvars" "file_idx")) (km_labels (kmeans_options opts')) (best (genetic_options opts')) t
      (o_feats (w_end o')) (o_algos (w_end o')) _ _ (o_sel (w_end o')) (o_rho (w_end o')) (o_k (w_end o')) B) as X.
    rewrite F, F' in X. destruct X as (Ea & Eso & N). apply no_beta_fields in N. subst so'.
    destruct N as (N1 & N2 & N3 & N4 & N5 & N6 & N7 & N8 & N9 & N10). destruct E8 as (E8 & E8'). destruct E9 as (E9 & E9'). destruct E10 as (E10 & E10').
    assert (Ep : e_pilot e = e_pilot e') by (rewrite N1, N2, Ea, E7, Hp' in Hp; congruence).
    assert (Ey : e_pythia e = e_pythia e') by (rewrite Ep, N4, N5, N7, Ea, E8, E8', Es, Hy' in Hy; congruence).
    assert (Eft : e_feat e = e_feat e') by congruence.
    rewrite N1, Ep, Eft, E9, E9', Hc' in Hc. injection Hc as Hc1 Hc2.
    split; [auto|]. split; [auto|]. split; [congruence|]. split; [repeat apply conj; auto|]. split; [auto|]. split; [auto|]. split; [auto|]. split; [auto|].
    rewrite E10, E10', Ep, Ey, N8, N5, Ea, E11 in Ht. clear - Ht Ht'. unfold TraceModel.run in Ht, Ht'.
    assert (G0 : forall z pu yb pp la n co or b b' tr tr', TraceModel.trace is_empty area contains contains_all intersection difference union no_polygon smooth triangulate convex_hull geoms alphashape radius z pu yb pp b la n co or = Ok tr ->
      TraceModel.trace is_empty area contains contains_all intersection difference union no_polygon smooth triangulate convex_hull geoms alphashape radius z pu yb pp b' la n co or = Ok tr' ->
      TraceModel.t_space tr = TraceModel.t_space tr' /\ TraceModel.t_good tr = TraceModel.t_good tr' /\ TraceModel.t_best tr = TraceModel.t_best tr' /\ TraceModel.t_summary tr = TraceModel.t_summary tr').
    { clear. intros z pu yb pp la n co or b b' tr tr' H H'. unfold TraceModel.trace in H, H'.
      match type of H with match ?a with _ => _ end = _ => destruct a as [sp|x]; [|discriminate] end.
      match type of H with match ?a with _ => _ end = _ => destruct a as [[g b0]|x]; [|discriminate] end.
      match type of H with match ?a with _ => _ end = _ => destruct a as [bb|x]; [|discriminate] end.
      match type of H with match ?a with _ => _ end = _ => destruct a as [h|x]; [|discriminate] end.
      match type of H' with match ?a with _ => _ end = _ => destruct a as [h'|x]; [|discriminate] end.
      destruct (Nat.leb _ _); [|discriminate]. injection H as <-. injection H' as <-. auto. }
    destruct (w_use_sim o'); eapply G0; eauto.
  Qed.

  (** The number of processes, and the order in which TRACE's workers finish, change nothing if the libraries' results
      do not depend on the options for parallel execution passed to them. *)
  Theorem C143_number_of_processes :
    forall mp op op' opts opts' finished' out out', load op = Ok (Some opts) -> load op' = Ok (Some opts') -> (forall n, float op n = float op' n) ->
      (forall s f, s <> "parallel"%string -> get opts s f = get opts' s f) ->
      (forall l a b a' b', best (l ++ [a; b]) = best (l ++ [a'; b'])) -> (forall l a b a' b', fit (l ++ [a; b]) = fit (l ++ [a'; b'])) ->
      run_with finished mp op = Some (Ok out) -> run_with finished' mp op' = Some (Ok out') ->
      Permutation finished (seq 0 (length (e_algo (w_out out)))) -> Permutation finished' (seq 0 (length (e_algo (w_out out)))) ->
      out = out'.
  Proof.
    intros mp op op' opts opts' fin' out out' L L' Fl S Lb Lf R R' Pm Pm'.
    destruct (run_inv' finished mp _ L R) as (m & t & o & Em & Et & T & H). destruct (run_inv' fin' mp _ L' R') as (m' & t' & o' & Em' & Et' & T' & H').
    assert (m' = m) by congruence. subst m'. assert (t' = t) by congruence. subst t'.
    destruct (typed_inv _ _ T) as (P & V & I & Pi & Y & C & Tr & _). destruct (typed_inv _ _ T') as (P' & V' & I' & Pi' & Y' & C' & Tr' & _).
    repeat rewrite S in P by discriminate. repeat rewrite S in V by discriminate. repeat rewrite S in I by discriminate. repeat rewrite S in Pi by discriminate.
    repeat rewrite S in Y by discriminate. repeat rewrite S in C by discriminate. repeat rewrite S in Tr by discriminate. repeat rewrite Fl in V.
    assert (E1 : o_prelim (w_end o) = o_prelim (w_end o')) by (rewrite (popts_eta (o_prelim (w_end o))), (popts_eta (o_prelim (w_end o'))); clear - P P'; f_equal; intuition congruence).
    assert (E2 : o_sel (w_end o) = o_sel (w_end o')) by (rewrite (selopts_eta (o_sel (w_end o))), (selopts_eta (o_sel (w_end o'))); clear - V V'; f_equal; intuition congruence).
    assert (E3 : o_feats (w_end o) = o_feats (w_end o')) by (clear - V V'; intuition congruence).
    assert (E4 : o_algos (w_end o) = o_algos (w_end o')) by (clear - V V'; intuition congruence).
    assert (E5 : o_rho (w_end o) = o_rho (w_end o')) by (clear - I I'; intuition congruence).
    assert (E6 : o_k (w_end o) = o_k (w_end o')) by (clear - I I'; intuition congruence).
    assert (E7 : o_pilot (w_end o) = o_pilot (w_end o')) by (rewrite (pilot_eta (o_pilot (w_end o))), (pilot_eta (o_pilot (w_end o'))); clear - Pi Pi'; f_equal; intuition congruence).
    assert (E8 : o_weights (w_end o) = o_weights (w_end o') /\ o_params (w_end o) = o_params (w_end o')) by (clear - Y Y'; intuition congruence).
    assert (E9 : w_p_val o = w_p_val o' /\ w_c_thres o = w_c_thres o') by (clear - C C'; intuition congruence).
    assert (E10 : w_use_sim o = w_use_sim o' /\ w_purity o = w_purity o') by (clear - Tr Tr'; intuition congruence).
    assert (Ek : kmeans_options opts = kmeans_options opts') by (unfold kmeans_options, fields_of; cbn [map fst snd]; repeat rewrite S by discriminate; reflexivity).
    assert (Eg : best (genetic_options opts) = best (genetic_options opts')).
    { unfold genetic_options, fields_of. cbn [map fst snd]. repeat rewrite S by discriminate.
      match goal with |- best [?a; ?b; ?c; ?d; ?e; ?f; ?g; ?h; ?i; ?j; ?k; ?x; ?y] = best [_; _; _; _; _; _; _; _; _; _; _; ?x'; ?y'] =>
        exact (Lb [a; b; c; d; e; f; g; h; i; j; k] x y x' y') end. }
    assert (Es : fit (svm_options opts) = fit (svm_options opts')).
    { unfold svm_options, fields_of. cbn [map fst snd]. repeat rewrite S by discriminate.
      match goal with |- fit [?a; ?b; ?c; ?x; ?y] = fit [_; _; _; ?x'; ?y'] => exact (Lf [a; b; c] x y x' y') end. }
    destruct (pipeline_ok finished _ _ _ H) as (so & F & Ef & Ei & Hp & Hy & Hc & Ht). destruct (pipeline_ok fin' _ _ _ H') as (so' & F' & Ef' & Ei' & Hp' & Hy' & Hc' & Ht').
    rewrite E1, E2, E3, E4, E5, E6, Ek, Eg, (S "selvars" "small_scale"), (S "selvars" "file_idx"), F' in F by discriminate. injection F as Ea Eso Ed. subst so'.
    destruct E8 as (E8 & E8'). destruct E9 as (E9 & E9'). destruct E10 as (E10 & E10').
    destruct out as [[f1 a1 i1 d1 p1 y1] ed1 ec1 tr1], out' as [[f2 a2 i2 d2 p2 y2] ed2 ec2 tr2].
    cbn [w_out w_edge w_ecorr w_trace e_feat e_algo e_idx e_data e_pilot e_pythia] in *. subst a2 d2 f1 f2 i1 i2.
    rewrite E7, Hp' in Hp. injection Hp as ->. rewrite Es, E8, E8', Hy' in Hy. injection Hy as ->. rewrite E9, E9', Hc' in Hc. injection Hc as -> ->.
    rewrite E10, E10' in Ht. f_equal. clear - Ht Ht' Pm Pm'.
    assert (Co : forall z pu yb pp b la n c c' tr tr', Permutation finished (seq 0 n) -> Permutation fin' (seq 0 n) ->
      TraceModel.trace is_empty area contains contains_all intersection difference union no_polygon smooth triangulate convex_hull geoms alphashape radius z pu yb pp b la n c finished = Ok tr ->
      TraceModel.trace is_empty area contains contains_all intersection difference union no_polygon smooth triangulate convex_hull geoms alphashape radius z pu yb pp b la n c' fin' = Ok tr' -> tr = tr').
    { clear. intros z pu yb pp b la n c c' tr tr' P P' H H'.
      pose proof (TraceProps.C50_completion_order_is_irrelevant is_empty area contains contains_all intersection difference union no_polygon smooth triangulate convex_hull geoms alphashape radius
        z pu yb pp b la n c' P' P H') as H''. clear H'. unfold TraceModel.trace, TraceModel.compute_algorithm_qualities in H, H''.
      match type of H with match ?a with _ => _ end = _ => destruct a as [sp|x]; [|discriminate] end.
      destruct (Z.leb c 0); [discriminate|]. destruct (Z.leb c' 0); [discriminate|]. congruence. }
    unfold TraceModel.run in Ht, Ht'. destruct (w_use_sim o'); eapply Co; eauto.
  Qed.
  (* ------------------------------------------------------------------ options of a selection that is not asked for *)
  Definition idle (o : options) (s f : string) : Prop :=
    s = "selvars"%string /\
    ((f = "small_scale"%string /\ get o "selvars" "small_scale_flag" = Some (JBool false)) \/
     (f = "file_idx"%string /\ get o "selvars" "file_idx_flag" = Some (JBool false)) \/
     ((f = "min_distance"%string \/ f = "selvars_type"%string) /\ get o "selvars" "density_flag" = Some (JBool false))).
  Lemma front_idle sp fl sp' fl' km bst t fe al pr se se' rh k :
    small_scale_flag se = small_scale_flag se' -> (small_scale_flag se = true -> sp = sp' /\ small_scale_float se = small_scale_float se') ->
    file_idx_flag se = file_idx_flag se' -> (file_idx_flag se = true -> fl = fl' /\ file_exists se = file_exists se') ->
    density_flag se = density_flag se' -> (density_flag se = true -> min_distance_float se = min_distance_float se' /\ selvars_type se = selvars_type se' /\ min_distance se = min_distance se') ->
    type_str se = type_str se' -> front sp fl km bst t fe al pr se rh k = front sp' fl' km bst t fe al pr se' rh k.
  Proof.
    destruct se as [a1 b1 c1 d1 f1 g1 h1 i1 j1], se' as [a2 b2 c2 d2 f2 g2 h2 i2 j2].
    cbn [small_scale_flag small_scale_float file_idx_flag file_exists density_flag min_distance_float type_str selvars_type min_distance].
    intros <- A <- B <- C <-. unfold front. destruct (PreprocModel.preproc_run _ _ _ _ _ _ _ _) as [p|e]; [|reflexivity].
    set (d := prelim _ _ _ _ _ _ _ _ _ _). clearbody d.
    assert (D : forall s s' m m' (d1 : inst_data string string), sifted_run pearson order sil km bst (PreprocModel.p_feat p) (length (PreprocModel.p_algo p)) rh k None s m d1 =
              sifted_run pearson order sil km bst (PreprocModel.p_feat p) (length (PreprocModel.p_algo p)) rh k None s' m' d1) by reflexivity.
    match goal with |- match filter_insts ?se ?x ?y ?nf ?na d with _ => _ end = match filter_insts ?se' ?x' ?y' _ _ d with _ => _ end =>
      assert (FE : filter_insts se x y nf na d = filter_insts se' x' y' nf na d) end.
    { unfold filter_insts.
      cbn [small_scale_flag small_scale_float file_idx_flag file_exists density_flag min_distance_float type_str selvars_type min_distance].
      destruct a1; [destruct (A eq_refl) as (<- & <-)|]; (destruct c1; [destruct (B eq_refl) as (<- & <-)|]);
        (destruct f1; [destruct (C eq_refl) as (<- & <- & <-)|]); reflexivity. }
    rewrite FE. clear FE A B. match goal with |- match ?a with _ => _ end = _ => destruct a as [[[mk d0] dense]|e] eqn:E end; [|reflexivity].
    destruct f1; [destruct (C eq_refl) as (_ & <- & <-); reflexivity|].
    assert (Dn : dense = None).
    { unfold filter_insts in E.
      cbn [small_scale_flag small_scale_float file_idx_flag file_exists density_flag min_distance_float type_str selvars_type min_distance andb] in E. cbv zeta in E.
      match type of E with match ?a with _ => _ end = _ => destruct a; [|discriminate] end.
      match type of E with (if ?a then _ else _) = _ => destruct a end; congruence. }
    subst dense. cbn [option_map selvars_type min_distance]. rewrite (D i1 i2 j1 j2). reflexivity.
  Qed.
  (** Two options files that differ in such options only: the runs end the same way. *)
  Theorem C143_idle_options :
    forall mp op op' opts opts' r r', load op = Ok (Some opts) -> load op' = Ok (Some opts') ->
      (forall n, ~ idle opts "selvars" n -> float op n = float op' n) -> (forall s f, ~ idle opts s f -> get opts s f = get opts' s f) ->
      run mp op = Some r -> run mp op' = Some r' -> r = r'.
  Proof.
    intros mp op op' opts opts' r r' L L' Fl S R R'.
    destruct (run_inv' finished mp _ L R) as (m & t & o & Em & Et & T & H). destruct (run_inv' finished mp _ L' R') as (m' & t' & o' & Em' & Et' & T' & H').
    assert (m' = m) by congruence. subst m'. assert (t' = t) by congruence. subst t'. subst r r'.
    destruct (typed_inv _ _ T) as (P & V & I & Pi & Y & C & Tr & K). destruct (typed_inv _ _ T') as (P' & V' & I' & Pi' & Y' & C' & Tr' & K').
    assert (Sg : forall s f, s <> "selvars"%string \/ existsb (String.eqb f) ["feats"; "algos"; "small_scale_flag"; "file_idx_flag"; "density_flag"]%string = true ->
                 get opts s f = get opts' s f).
    { intros s f Q. apply S. intros (Es & Q'). destruct Q as [Q|Q]; [auto|]. destruct Q' as [(-> & _)|[(-> & _)|([-> | ->] & _)]]; discriminate Q. }
    repeat rewrite Sg in P by (left; discriminate). repeat rewrite Sg in I by (left; discriminate). repeat rewrite Sg in Pi by (left; discriminate).
    repeat rewrite Sg in Y by (left; discriminate). repeat rewrite Sg in C by (left; discriminate). repeat rewrite Sg in Tr by (left; discriminate).
    repeat rewrite Sg in K by (left; discriminate).
    destruct V as (V1 & V2 & V3 & V4 & V5 & V6 & V7 & V8 & V9 & V10 & V11). destruct V' as (V1' & V2' & V3' & V4' & V5' & V6' & V7' & V8' & V9' & V10' & V11').
    assert (Act : forall f n b, f = n -> flag_of (get opts "selvars" f) = Some b -> b = true -> get opts "selvars" f <> Some (JBool false)).
    { intros f n b _ X -> Z. rewrite Z in X. discriminate X. }
    assert (A1 : small_scale_flag (o_sel (w_end o)) = true -> split (get opts "selvars" "small_scale") = split (get opts' "selvars" "small_scale") /\
                 small_scale_float (o_sel (w_end o)) = small_scale_float (o_sel (w_end o'))).
    { intro X. pose proof (Act _ _ _ eq_refl V3 X) as Z. assert (Ni : ~ idle opts "selvars" "small_scale").
      { intros (_ & [(_ & Q)|[(Q & _)|([Q|Q] & _)]]); [contradiction|discriminate Q|discriminate Q|discriminate Q]. }
      rewrite (S _ _ Ni), V9, V9', (Fl _ Ni). auto. }
    assert (A2 : file_idx_flag (o_sel (w_end o)) = true -> file (get opts "selvars" "file_idx") = file (get opts' "selvars" "file_idx") /\
                 file_exists (o_sel (w_end o)) = file_exists (o_sel (w_end o'))).
    { intro X. pose proof (Act _ _ _ eq_refl V4 X) as Z. assert (Ni : ~ idle opts "selvars" "file_idx").
      { intros (_ & [(Q & _)|[(_ & Q)|([Q|Q] & _)]]); [discriminate Q|contradiction|discriminate Q|discriminate Q]. }
      rewrite (S _ _ Ni) in *. split; [auto|congruence]. }
    assert (A3 : density_flag (o_sel (w_end o)) = true -> min_distance_float (o_sel (w_end o)) = min_distance_float (o_sel (w_end o')) /\
                 selvars_type (o_sel (w_end o)) = selvars_type (o_sel (w_end o')) /\ min_distance (o_sel (w_end o)) = min_distance (o_sel (w_end o'))).
    { intro X. pose proof (Act _ _ _ eq_refl V6 X) as Z.
      assert (Ni : forall f, f <> "small_scale"%string -> f <> "file_idx"%string -> ~ idle opts "selvars" f).
      { intros f N1 N2 (_ & [(Q & _)|[(Q & _)|(_ & Q)]]); contradiction. }
      rewrite (S _ _ (Ni "selvars_type" ltac:(discriminate) ltac:(discriminate))) in V7. rewrite (S _ _ (Ni "min_distance" ltac:(discriminate) ltac:(discriminate))) in V8.
      rewrite V10, V10', (Fl _ (Ni "min_distance" ltac:(discriminate) ltac:(discriminate))). split; [auto|]. split; congruence. }
    rewrite Sg in V1, V2, V3, V4, V6 by (right; reflexivity).
    assert (E1 : o_prelim (w_end o) = o_prelim (w_end o')) by (rewrite (popts_eta (o_prelim (w_end o))), (popts_eta (o_prelim (w_end o'))); clear - P P'; f_equal; intuition congruence).
    assert (E3 : o_feats (w_end o) = o_feats (w_end o')) by congruence.
    assert (E4 : o_algos (w_end o) = o_algos (w_end o')) by congruence.
    assert (E5 : o_rho (w_end o) = o_rho (w_end o')) by (clear - I I'; intuition congruence).
    assert (E6 : o_k (w_end o) = o_k (w_end o')) by (clear - I I'; intuition congruence).
    assert (E7 : o_pilot (w_end o) = o_pilot (w_end o')) by (rewrite (pilot_eta (o_pilot (w_end o))), (pilot_eta (o_pilot (w_end o'))); clear - Pi Pi'; f_equal; intuition congruence).
    assert (E8 : o_weights (w_end o) = o_weights (w_end o') /\ o_params (w_end o) = o_params (w_end o')) by (clear - Y Y'; intuition congruence).
    assert (E9 : w_p_val o = w_p_val o' /\ w_c_thres o = w_c_thres o') by (clear - C C'; intuition congruence).
    assert (E10 : w_use_sim o = w_use_sim o' /\ w_purity o = w_purity o') by (clear - Tr Tr'; intuition congruence).
    assert (E11 : w_cores o = w_cores o') by congruence.
    assert (Ek : kmeans_options opts = kmeans_options opts') by (unfold kmeans_options, fields_of; cbn [map fst snd]; repeat rewrite Sg by (left; discriminate); reflexivity).
    assert (Eg : genetic_options opts = genetic_options opts') by (unfold genetic_options, fields_of; cbn [map fst snd]; repeat rewrite Sg by (left; discriminate); reflexivity).
    assert (Es : svm_options opts = svm_options opts') by (unfold svm_options, fields_of; cbn [map fst snd]; repeat rewrite Sg by (left; discriminate); reflexivity).
    destruct E8 as (E8 & E8'). destruct E9 as (E9 & E9'). destruct E10 as (E10 & E10').
    unfold FilesModel.pipeline, build_all. rewrite !build_front, Ek, Eg, Es, E1, E3, E4, E5, E6, E7, E8, E8', E9, E9', E10, E10', E11.
    rewrite (@front_idle (split (get opts "selvars" "small_scale")) (file (get opts "selvars" "file_idx")) (split (get opts' "selvars" "small_scale")) (file (get opts' "selvars" "file_idx"))
       _ _ t _ _ _ (o_sel (w_end o)) (o_sel (w_end o'))); auto; congruence.
  Qed.
End Files.

(* ------------------------------------------------------------------ an example *)
Definition fi_column n b l : column entry := {| c_name := n; c_numeric := b; c_cells := l |}.
(** the table of C119_met as a file; the labels are numbers *)
Definition fi_frame : frame entry :=
  {| f_rows := 4; f_cols :=
    [fi_column "Feature_a" true [CNum (z 1); CNum None; CNum (z 3); CNum (z 2)]; fi_column "algo_a" true [CNum (z 1); CNum (z 2); CNum (z 6); CNum (z 5)];
     fi_column "note" false [CStr "x"; CStr "y"; CNum None; CBool true]; fi_column "Instances" true [CNum (z 1); CNum (z 2); CNum (z 3); CNum (z 4)];
     fi_column "algo_b" true [CNum (z 4); CNum (z 2); CNum (z 3); CNum (z 4)]; fi_column "feature_b" true [CNum (z 2); CNum None; CNum (z 5); CNum (z 7)]]%string |}.
Definition fi_options (trees beta purity distance cores : Q) (feats : jval) : jval :=
  JObj [("perf", JObj [("MaxPerf", JBool true); ("epsilon", JNum 4); ("betaThreshold", JNum beta)]); ("bound", JObj [("flag", JBool false)]);
        ("norm", JObj [("flag", JBool false)]);
        ("selvars", JObj [("type", JStr "Ftr"); ("feats", feats); ("mindistance", JNum distance)]);
        ("sifted", JObj [("k", JNum 3); ("ntrees", JNum trees)]); ("pilot", JObj [("ntries", JNum 1)]);
        ("parallel", JObj [("ncores", JNum cores)]); ("trace", JObj [("usesim", JBool false); ("purity", JNum purity)])]%string.
Definition fi_text (v : num) : string :=
  match v with Some q => match Qnum q with 1%Z => "one" | 3%Z => "three" | 4%Z => "four" | _ => "?" end%string | None => "nan"%string end.
Definition fi_csv (p : string) : read_result entry := if String.eqb p "m.csv" then Read fi_frame else NotFound entry.
Definition fi_json (p : string) : option string := Some p.
Definition fi_parse (s : string) : option jval :=
  let is n := String.eqb s n in
  Some (fi_options (if is "p.json" then 8 else 7) (if is "b.json" then 1 # 4 else 1 # 2) (if is "t.json" || is "g.json" then 3 # 4 else 1 # 2)
          (if is "d.json" then 2 else 1) (if is "n.json" then 5 else 2) (if is "f.json" || is "g.json" then JArr [JStr "feature_b"] else JNull))%string.
Notation fi_run_with fin := (run_files fi_text ascii_lower (forallb (fun b => b)) (fun _ => false) fi_csv fi_json fi_parse (fun _ _ => true) (fun _ => false) 8
      (map Some) (fun _ => None) (fun _ => [1; 2]%Z) (fun _ => (Some 0%Q, Some 0%Q)) (fun _ j => [j; 2; 3; 1 - j]) (fun _ => []) (fun _ _ => []) (fun _ _ => [])
      (fun g => (g, Some 0%Q)) (fun _ => Ok (Some 1%Q)) (fun v => v) (fun _ _ => [map Some [1; 0; 0; 1; 1; 0; 1; 0; 1; 0; 1; 0]%Q])
      (fun _ _ _ _ col _ => Ok {| PythiaModel.r_ysub := col; PythiaModel.r_psub := []; PythiaModel.r_yhat := col;
                                  PythiaModel.r_phat := []; PythiaModel.r_c := None; PythiaModel.r_g := None |})
      (fun v => v) (fun v => v)
      (fun _ _ => Ok (Some 0%Q, Some 1%Q)) (fun l => Some (seq 0 (length l)))
      (fun _ => true) (fun _ => 0%Q) (fun _ _ => false) (fun _ _ => false) (fun a _ => a) (fun a _ => a) (fun a _ => a) tt
      (fun a => a) (fun _ => []) (fun a => a) (fun _ => []) (fun _ => None) (fun _ _ => 1%Z)
      (fun _ => (0, 0)%Z) fin "m.csv"%string).
Notation fi_run := (fi_run_with [1; 0]).
Example C142_met : exists c opts out, fi_csv "m.csv" = Read fi_frame /\ rectangular fi_frame /\ NoDup (map (@c_name _) (f_cols fi_frame)) /\ f_rows fi_frame <> 1 /\
  only fi_frame (called ascii_lower "instances") c /\
  from_json_file ascii_lower (fi_json "o.json") fi_parse = Ok (Some opts) /\ get opts "perf" "abs_perf" = Some (JBool true) /\
  fi_run "o.json"%string = Some (Ok out) /\ Permutation [1; 0] (seq 0 (length (e_algo (w_out out)))) /\ d_x (e_data (w_out out)) <> [] /\
  exists d' tx ty, save_to_csv (fun _ => true) true (sv_saved out) (fun _ => None) = (d', None) /\
    d' "feature_raw.csv"%string = Some tx /\ header tx = map Name ["Row"; "Feature_a"; "feature_b"]%string /\
    SerialModel.rows tx = [[CStr "one"; CNum (z 1); CNum (z 2)]; [CStr "three"; CNum (z 3); CNum (z 5)]; [CStr "four"; CNum (z 2); CNum (z 7)]]%string /\
    d' "algorithm_bin.csv"%string = Some ty /\
    SerialModel.rows ty = [[CStr "one"; CBool false; CBool true]; [CStr "three"; CBool true; CBool false]; [CStr "four"; CBool true; CBool true]]%string.
Proof.
  exists (nth 3 (f_cols fi_frame) (fi_column "" true [])). do 2 eexists. split; [reflexivity|]. split; [|split; [|split; [|split]]].
  - intros c H. simpl in H. repeat (destruct H as [<-|H]; [reflexivity|]). destruct H.
  - repeat constructor; cbn; intuition discriminate.
  - discriminate.
  - exists (firstn 3 (f_cols fi_frame)), (skipn 4 (f_cols fi_frame)). split; [reflexivity|]. split; [reflexivity|].
    intros c H. simpl in H. repeat (destruct H as [<-|H]; [intro X; vm_compute in X; discriminate|]). destruct H.
  - split; [vm_compute; reflexivity|]. split; [reflexivity|]. split; [vm_compute; reflexivity|]. split; [apply perm_swap|]. split; [discriminate|].
    do 3 eexists. split; [reflexivity|]. split; [reflexivity|]. split; [reflexivity|]. split; [vm_compute; reflexivity|].
    split; [reflexivity|]. vm_compute. reflexivity.
Qed.
Example C142_options_met : exists opts opts',
  from_json_file ascii_lower (fi_json "o.json") fi_parse = Ok (Some opts) /\ from_json_file ascii_lower (fi_json "p.json") fi_parse = Ok (Some opts') /\
  opts <> opts' /\ forall s f, ~ In (s, f) unread -> get opts s f = get opts' s f.
Proof.
  do 2 eexists. split; [vm_compute; reflexivity|]. split; [vm_compute; reflexivity|]. split; [discriminate|].
  intros s f N. unfold get. cbn [jget].
  repeat match goal with |- context [if String.eqb ?a s then _ else _] => destruct (String.eqb_spec a s); [subst s; try reflexivity|] end; auto.
  cbn [jget]. repeat match goal with |- context [if String.eqb ?a f then _ else _] => destruct (String.eqb_spec a f); [subst f; try reflexivity; exfalso; apply N; unfold unread; cbn [In]; auto 10|] end.
  reflexivity.
Qed.

Ltac fi_agree :=
  let s := fresh in let f := fresh in intros s f; intros; unfold get; cbn [jget];
  repeat match goal with |- context [if String.eqb ?a s then _ else _] => destruct (String.eqb_spec a s); [subst s; try reflexivity|] end; auto;
  cbn [jget]; repeat match goal with |- context [if String.eqb ?a f then _ else _] => destruct (String.eqb_spec a f); [subst f; try reflexivity|] end; try reflexivity.
(** o.json and t.json differ in the purity of TRACE: everything up to PYTHIA must agree, and does *)
Example C143_met : exists opts opts' out out',
  from_json_file ascii_lower (fi_json "o.json") fi_parse = Ok (Some opts) /\ from_json_file ascii_lower (fi_json "t.json") fi_parse = Ok (Some opts') /\
  fi_run "o.json"%string = Some (Ok out) /\ fi_run "t.json"%string = Some (Ok out') /\ opts <> opts' /\
  same ["perf"; "bound"; "norm"; "selvars"; "sifted"; "parallel"]%string opts opts' /\ same ["pilot"]%string opts opts' /\ same ["pythia"]%string opts opts' /\
  same ["cloister"]%string opts opts' /\ ~ same ["trace"]%string opts opts' /\ d_x (e_data (w_out out)) = [[z 1; z 2]; [z 3; z 5]; [z 2; z 7]].
Proof.
  do 4 eexists. split; [vm_compute; reflexivity|]. split; [vm_compute; reflexivity|]. split; [vm_compute; reflexivity|]. split; [vm_compute; reflexivity|].
  split; [discriminate|]. do 4 (split; [unfold same; fi_agree; exfalso; cbn [In] in *; intuition discriminate|]).
  split; [|reflexivity]. intro X. specialize (X "trace" "purity" (or_introl eq_refl))%string. discriminate X.
Qed.
(** f.json and g.json ask for a single feature: both runs end with SIFTED's error *)
Example C143_errors_met : exists opts opts' x,
  from_json_file ascii_lower (fi_json "f.json") fi_parse = Ok (Some opts) /\ from_json_file ascii_lower (fi_json "g.json") fi_parse = Ok (Some opts') /\ opts <> opts' /\
  same ["perf"; "bound"; "norm"; "selvars"; "sifted"; "parallel"]%string opts opts' /\
  fi_run "f.json"%string = Some (Err (EBuild x)) /\ (forall y, x <> EPythia y) /\ (forall y, x <> EPilot y).
Proof.
  do 3 eexists. split; [vm_compute; reflexivity|]. split; [vm_compute; reflexivity|]. split; [discriminate|].
  split; [unfold same; fi_agree; exfalso; cbn [In] in *; intuition discriminate|]. split; [vm_compute; reflexivity|]. split; intro; discriminate.
Qed.
(** o.json and b.json differ in the threshold for beta: beta changes *)
Example C143_beta_met : exists opts opts' out out',
  from_json_file ascii_lower (fi_json "o.json") fi_parse = Ok (Some opts) /\ from_json_file ascii_lower (fi_json "b.json") fi_parse = Ok (Some opts') /\
  fi_run "o.json"%string = Some (Ok out) /\ fi_run "b.json"%string = Some (Ok out') /\
  (forall s f, (s, f) <> ("perf", "beta_threshold")%string -> get opts s f = get opts' s f) /\
  d_beta (e_data (w_out out)) = [false; false; true] /\ d_beta (e_data (w_out out')) = [true; true; true].
Proof.
  do 4 eexists. split; [vm_compute; reflexivity|]. split; [vm_compute; reflexivity|]. split; [vm_compute; reflexivity|]. split; [vm_compute; reflexivity|].
  split; [fi_agree; exfalso; congruence|]. split; reflexivity.
Qed.
(** o.json and d.json differ in the distance of a selection by density, which neither asks for *)
Example C143_idle_met : exists opts opts' out,
  from_json_file ascii_lower (fi_json "o.json") fi_parse = Ok (Some opts) /\ from_json_file ascii_lower (fi_json "d.json") fi_parse = Ok (Some opts') /\
  opts <> opts' /\ (forall s f, ~ idle opts s f -> get opts s f = get opts' s f) /\ fi_run "o.json"%string = Some (Ok out) /\ fi_run "d.json"%string <> None.
Proof.
  do 3 eexists. split; [vm_compute; reflexivity|]. split; [vm_compute; reflexivity|]. split; [discriminate|].
  split; [fi_agree; exfalso; match goal with N : ~ idle _ _ _ |- _ => exact (N (conj eq_refl (or_intror (or_intror (conj (or_introl eq_refl) eq_refl))))) end|].
  split; [vm_compute; reflexivity|]. vm_compute. discriminate.
Qed.
(** o.json and n.json differ in the number of processes, and the workers finish in different orders *)
Example C143_processes_met : exists opts opts' out out',
  from_json_file ascii_lower (fi_json "o.json") fi_parse = Ok (Some opts) /\ from_json_file ascii_lower (fi_json "n.json") fi_parse = Ok (Some opts') /\
  get opts "parallel" "n_cores" = Some (JNum 2) /\ get opts' "parallel" "n_cores" = Some (JNum 5) /\
  (forall s f, s <> "parallel"%string -> get opts s f = get opts' s f) /\
  fi_run_with [1; 0] "o.json"%string = Some (Ok out) /\ fi_run_with [0; 1] "n.json"%string = Some (Ok out') /\
  Permutation [1; 0] (seq 0 (length (e_algo (w_out out)))) /\ Permutation [0; 1] (seq 0 (length (e_algo (w_out out)))).
Proof.
  do 4 eexists. split; [vm_compute; reflexivity|]. split; [vm_compute; reflexivity|]. split; [reflexivity|]. split; [reflexivity|].
  split; [fi_agree; exfalso; congruence|]. split; [vm_compute; reflexivity|]. split; [vm_compute; reflexivity|]. split; [apply perm_swap|reflexivity].
Qed.

Print Assumptions C142_options_reach_the_stages.
Print Assumptions C143_what_the_options_act_on.
Print Assumptions C143_errors.
Print Assumptions C143_beta_threshold.
Print Assumptions C143_idle_options.
Print Assumptions C143_number_of_processes.
Print Assumptions C142_from_files_to_files.
Print Assumptions C142_options_without_effect.
