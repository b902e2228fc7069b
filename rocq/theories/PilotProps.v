(** C44, C70, C72, C73: the numerical solution of PILOT. *)
From Coq Require Import Lqa Qround.
From Verif Require Import BaseLemmas Mat PilotModel PilotSpec PilotProofs.
Set Implicit Arguments.
Open Scope nat_scope.
Open Scope list_scope.

(* ------------------------------------------------------------------ C44 *)
(** Every reported quality is that of the projection of its restart, and the solution returned
    (converted to half precision) is that of the first best restart. *)
Theorem C44_best_restart :
  forall bfgs quality f16 random x y n na labels o out,
    well_formed bfgs random x y n na o ->
    pilot bfgs quality f16 random x y n na labels o = Ok out ->
    length (po_perf out) = p_tries o /\
    (forall i, i < p_tries o ->
       exists start q, nth_error (po_x0 out) i = Some start /\
         quality (projection (fst (bfgs start)) n x) = Ok q /\
         nth_error (po_perf out) i = Some q /\ nth_error (po_eoptim out) i = Some (snd (bfgs start))) /\
    exists best start, first_best (po_perf out) best /\ nth_error (po_x0 out) best = Some start /\
      (let al := map f16 (fst (bfgs start)) in
       length (po_a out) = 2 /\
       (forall r j, r < 2 -> j < n -> nth j (nth r (po_a out) []) None = weight_A al n r j) /\
       po_z out = projection al n x).
Proof.
  intros bfgs quality f16 random x y n na labels o out (Wx & Wy & Wl & Ws) H.
  destruct (pilot_ok _ _ _ _ _ _ _ _ _ _ H) as (_ & _ & _ & E0 & L1 & L2 & Ht & sols & Ls & D & K & _ & Ea & Ez & _).
  assert (S : forall i g, nth_error (po_x0 out) i = Some g -> length g = 2 * (n + na) + 2 * n).
  { intros i g Hg. rewrite E0 in Hg. cbv zeta in Ws. destruct (p_x0 o) as [s|]; rewrite Forall_forall in Ws; apply Ws; eapply nth_error_In; eauto. }
  split; auto. split.
  - intros i Hi. destruct (D i Hi) as (al & e & q & (g & Hg & Hb & Hq) & _ & He & Hp). rewrite <- E0 in Hg.
    exists g, q. split; auto.
    assert (Lg : length al = 2 * (n + na) + 2 * n).
    { change al with (fst (al, e)). rewrite <- Hb, Wl. apply (S i); auto. }
    rewrite Hb. cbn [fst snd]. rewrite project_all in Hq by (auto; lia). auto.
  - exists (nargmax (po_perf out)). destruct (D _ K) as (al & e & q & (g & Hg & Hb & Hq) & Hs & _). rewrite <- E0 in Hg.
    exists g. split; [apply nargmax_spec; intro X; rewrite X in L1; simpl in L1; lia|]. split; auto.
    assert (Lg : length al = 2 * (n + na) + 2 * n).
    { change al with (fst (al, e)). rewrite <- Hb, Wl. apply (S (nargmax (po_perf out))); auto. }
    rewrite Hb. cbn [fst]. rewrite (nth_error_nth _ _ [] Hs) in Ea. cbv zeta.
    split; [rewrite Ea; apply reshape_length|]. split.
    + intros r j Hr Hj. rewrite Ea, reshape_nth by auto. unfold weight_A. apply firstn_nth. nia.
    + rewrite Ez, Ea. apply project_all; auto. rewrite map_length. lia.
Qed.
(** The objective minimised: missing iff every instance misses a feature; otherwise
    non-negative, and zero exactly when every value present of every instance with all its
    features is predicted exactly. *)
Theorem C44_objective :
  forall a x_bar n m, 0 < n <= m -> length a = 2 * n + 2 * m -> Forall (fun r => length r = m) x_bar ->
    (error_function (map Some a) x_bar n m = None <-> forall row, In row x_bar -> misses_a_feature n row) /\
    (forall e, error_function (map Some a) x_bar n m = Some e ->
       (0 <= e)%Q /\
       ((e == 0)%Q <-> forall row fs, In row x_bar -> complete n row fs ->
          forall k v, nth_error row k = Some (Some v) -> (v == predicted a n k fs)%Q)).
Proof. exact objective_spec. Qed.

(** A run: two instances and two restarts; the optimiser returns its start, the "quality" is
    the first coordinate of the first instance.  The second restart wins. *)
Definition ex_x : list (list num) := [[Some 1]; [Some 2]]%Q.
Definition ex_y : list (list num) := [[Some 3; Some 1]; [Some 4; None]]%Q.
Definition ex_starts : list (list num) :=
  [map Some [1#2; 0; 1; 0; 1; 0; 1; 0]; map Some [3#4; 1; 2; 0; 1; 0; 1; 5]]%Q.
Definition ex_quality (z : list (list num)) : res pierr num := Ok (nth 0 (nth 0 z []) None).
Definition ex_run (f16 : num -> num) (tries : nat) :=
  pilot (fun g => (g, Some 0%Q)) ex_quality f16 (fun _ _ => []) ex_x ex_y 1 2 ["f"%string]
    {| p_x0 := Some ex_starts; p_alpha := None; p_tries := tries |}.
Example C44_met : exists out, ex_run (fun v => v) 2 = Ok out /\
  well_formed (fun g => (g, Some 0%Q)) (fun _ _ => []) ex_x ex_y 1 2
    {| p_x0 := Some ex_starts; p_alpha := None; p_tries := 2 |} /\
  po_perf out = [Some ((1#2) * 1 + 0); Some ((3#4) * 1 + 0)]%Q /\ po_a out = [[Some (3#4)]; [Some 1]]%Q.
Proof.
  eexists. split; [vm_compute; reflexivity|]. split.
  - split; [|split; [|split]]; cbv; repeat constructor.
  - split; reflexivity.
Qed.
(** The quality reported for the chosen restart is not that of the projection returned, whose
    weights are rounded to half precision (here: down to integers). *)
Theorem C44_quality_of_the_returned_projection_refuted :
  exists bfgs quality f16 random x y n na labels o out best q,
    well_formed bfgs random x y n na o /\
    pilot bfgs quality f16 random x y n na labels o = Ok out /\
    first_best (po_perf out) best /\ nth_error (po_perf out) best = Some (Some q) /\
    exists q', quality (po_z out) = Ok (Some q') /\ ~ (q' == q)%Q.
Proof.
  exists (fun g => (g, Some 0%Q)), ex_quality,
    (fun v => match v with Some q => Some (inject_Z (Qround.Qfloor q)) | None => None end),
    (fun _ _ => []), ex_x, ex_y, 1, 2, ["f"%string],
    {| p_x0 := Some ex_starts; p_alpha := None; p_tries := 2 |}.
  eexists. exists 1, ((3#4) * 1 + 0)%Q. split; [|split; [vm_compute; reflexivity|]].
  - split; [|split; [|split]]; cbv; repeat constructor.
  - split; [|split; [reflexivity|]].
    + split; [cbv; lia|]. cbn [po_perf]. split.
      * intros _ [|[|[|i]]] v E; simpl in E; try discriminate; injection E as <-; (eexists; split; [reflexivity|]; split;
          [unfold Qle; simpl; lia|intro; try lia; unfold Qlt; simpl; lia]).
      * intros [X|[X|[]]]; discriminate.
    + eexists. split; [vm_compute; reflexivity|]. intro X. vm_compute in X. discriminate.
Qed.

(* ------------------------------------------------------------------ C70 *)
Theorem C70_shape_of_the_result :
  forall bfgs quality f16 random x y n na labels o out,
    well_formed bfgs random x y n na o ->
    pilot bfgs quality f16 random x y n na labels o = Ok out ->
    length (po_z out) = length x /\ Forall (fun r => length r = 2) (po_z out) /\
    exists best start, first_best (po_perf out) best /\ nth_error (po_x0 out) best = Some start /\
      let al := map f16 (fst (bfgs start)) in
      (* the loadings of the features *)
      length (po_b out) = n /\
      (forall k r, k < n -> r < 2 -> nth r (nth k (po_b out) []) None = weight_B al n k r) /\
      (* the loadings of the algorithms: column k belongs to algorithm k+1 *)
      length (po_c out) = 2 /\
      (forall r, r < 2 -> length (nth r (po_c out) []) = na - 1) /\
      (forall k r, k < na - 1 -> r < 2 -> nth k (nth r (po_c out) []) None = weight_B al n (n + (k + 1)) r) /\
      (* the table *)
      po_summary out = (labels, [("Z_{1}"%string, nth 0 (po_a out) []); ("Z_{2}"%string, nth 1 (po_a out) [])]) /\
      length labels = n.
Proof.
  intros bfgs quality f16 random x y n na labels o out (Wx & Wy & Wl & Ws) H.
  destruct (pilot_ok _ _ _ _ _ _ _ _ _ _ H) as (_ & _ & El & E0 & L1 & L2 & Ht & sols & Ls & D & K & _ & Ea & Ez & Eb & Ec & _ & _ & Es).
  split; [rewrite Ez; apply map_length|]. split.
  { rewrite Ez, Ea. apply Forall_forall. intros r Hr. apply in_map_iff in Hr. destruct Hr as (r' & <- & _). reflexivity. }
  exists (nargmax (po_perf out)). destruct (D _ K) as (al & e & q & (g & Hg & Hb & Hq) & Hs & _). rewrite <- E0 in Hg.
  exists g. split; [apply nargmax_spec; intro X; rewrite X in L1; simpl in L1; lia|]. split; auto.
  rewrite Hb. cbn [fst]. cbv zeta in Eb, Ec. rewrite (nth_error_nth _ _ [] Hs) in Ea, Eb, Ec.
  assert (Lb : length (reshape (n + na) 2 (skipn (2 * n) (map f16 al))) = n + na) by apply reshape_length.
  cbv zeta. split; [rewrite Eb, firstn_length; lia|]. split.
  { intros k r Hk Hr. rewrite Eb, firstn_nth, reshape_nth, skipn_nth by lia. unfold weight_B. f_equal. lia. }
  split; [rewrite Ec; reflexivity|].
  assert (Rc : forall r, r < 2 -> nth r (po_c out) [] =
     column None (firstn (n + na - (n + 1)) (skipn (n + 1) (reshape (n + na) 2 (skipn (2 * n) (map f16 al))))) r).
  { intros r Hr. rewrite Ec. unfold transpose. destruct r as [|[|r]]; try lia; reflexivity. }
  split.
  { intros r Hr. rewrite Rc by auto. unfold column. rewrite map_length, firstn_length, skipn_length, Lb. lia. }
  split.
  { intros k r Hk Hr. rewrite Rc by auto.
    set (b2 := firstn (n + na - (n + 1)) (skipn (n + 1) (reshape (n + na) 2 (skipn (2 * n) (map f16 al))))).
    assert (Lb2 : length b2 = na - 1) by (unfold b2; rewrite firstn_length, skipn_length, Lb; lia).
    assert (C : nth k (column None b2 r) None = nth r (nth k b2 []) None) by (apply column_nth; lia).
    etransitivity; [exact C|]. unfold b2.
    rewrite firstn_nth, skipn_nth, reshape_nth, skipn_nth by lia.
    unfold weight_B. f_equal. lia. }
  split; auto. rewrite Es, Ea. reflexivity.
Qed.
(** One loading per algorithm: refuted, already with one algorithm there is none. *)
Theorem C70_loading_for_every_algorithm_refuted :
  exists bfgs quality f16 random x y n na labels o out,
    well_formed bfgs random x y n na o /\
    pilot bfgs quality f16 random x y n na labels o = Ok out /\ na = 1 /\ po_c out = [[]; []].
Proof.
  exists (fun g => (g, Some 0%Q)), ex_quality, (fun v => v), (fun _ _ => []), [[Some 1%Q]], [[Some 2%Q]], 1, 1, ["f"%string],
    {| p_x0 := Some [map Some [1; 0; 1; 0; 1; 0]%Q]; p_alpha := None; p_tries := 1 |}.
  eexists. split; [|split; [vm_compute; reflexivity|]].
  - split; [|split; [|split]]; cbv; repeat constructor.
  - split; reflexivity.
Qed.

(* ------------------------------------------------------------------ C72 *)
(** The reported coefficients of determination do not depend on the fit: there are two per
    instance, each is 1 or missing. *)
Theorem C72_r2_says_nothing :
  forall bfgs quality f16 random x y n na labels o out,
    pilot bfgs quality f16 random x y n na labels o = Ok out ->
    length (po_r2 out) = 2 * length x /\ Forall (fun v => v = None \/ exists q, v = Some q /\ (q == 1)%Q) (po_r2 out).
Proof.
  intros bfgs quality f16 random x y n na labels o out H.
  destruct (pilot_ok _ _ _ _ _ _ _ _ _ _ H) as (Lx & _ & El & E0 & L1 & L2 & Ht & sols & Ls & D & K & _ & Ea & Ez & Eb & Ec & _ & Er & Es).
  rewrite Er. split.
  - assert (Lh : length (hcat x y) = length x).
    { clear - Lx. revert y Lx. induction x as [|a x IH]; intros [|b y] L; simpl in *; try lia; auto. }
    rewrite map_length, app_length, map_length, Lh, Ez, map_length. lia.
  - apply Forall_forall. intros v Hv. apply in_map_iff in Hv. destruct Hv as (r & <- & _).
    unfold self_corr. destruct (variance r) as [w|]; [|auto]. destruct (Qeq_bool w 0) eqn:E; [auto|].
    right. eexists. split; [reflexivity|]. assert (N : ~ (w == 0)%Q) by (intro X; apply Qeq_bool_iff in X; congruence).
    field. auto.
Qed.
(** It is present iff the instance has no missing value and two different ones. *)
Theorem C72_when_r2_is_present :
  forall bfgs quality f16 random x y n na labels o out k rx ry,
    pilot bfgs quality f16 random x y n na labels o = Ok out ->
    nth_error x k = Some rx -> nth_error y k = Some ry ->
    (nth k (po_r2 out) None <> None <->
     ~ In None (rx ++ ry) /\ exists u v, In (Some u) (rx ++ ry) /\ In (Some v) (rx ++ ry) /\ ~ (u == v)%Q).
Proof.
  intros bfgs quality f16 random x y n na labels o out k rx ry H Hx Hy.
  destruct (pilot_ok _ _ _ _ _ _ _ _ _ _ H) as (Lx & _ & El & E0 & L1 & L2 & Ht & sols & Ls & D & K & _ & Ea & Ez & Eb & Ec & _ & Er & Es).
  rewrite Er. assert (Hh : nth_error (hcat x y) k = Some (rx ++ ry)).
  { clear - Hx Hy. revert y k Hx Hy. induction x as [|a x IH]; intros [|b y] [|k] Hx Hy; simpl in *; try discriminate; auto.
    injection Hx as ->. injection Hy as ->. auto. }
  assert (Hk : nth_error (hcat x y ++ map (mulv (reshape (n + na) 2 (skipn (2 * n) (nth (nargmax (po_perf out)) (po_alpha out) [])))) (po_z out)) k = Some (rx ++ ry)).
  { rewrite nth_error_app1; auto. apply nth_error_Some. congruence. }
  match goal with |- context [nth k ?l None] => assert (E : nth_error l k = Some (nsq (self_corr (rx ++ ry)))) end.
  { rewrite nth_error_map. rewrite nth_error_app1 by (apply nth_error_Some; congruence). rewrite Hh. reflexivity. }
  rewrite (nth_error_nth _ _ _ E). rewrite <- self_corr_present. destruct (self_corr (rx ++ ry)); simpl; split; congruence.
Qed.
(** The reported error is the sum over all instances and values of the squared residual, and is
    missing as soon as one performance is. *)
Theorem C72_missing_performance_hides_the_error :
  forall bfgs quality f16 random x y n na labels o out,
    Forall (fun r => length r = n) x -> Forall (fun r => length r = na) y ->
    pilot bfgs quality f16 random x y n na labels o = Ok out ->
    (exists row, In row y /\ In None row) -> po_error out = None.
Proof.
  intros bfgs quality f16 random x y n na labels o out Wx Wy H (row & Hr & Hn).
  destruct (pilot_ok _ _ _ _ _ _ _ _ _ _ H) as (Lx & _ & El & E0 & L1 & L2 & Ht & sols & Ls & D & K & _ & Ea & Ez & Eb & Ec & Ee & Er & Es).
  rewrite Ee, Ez, map_map. set (b := reshape _ _ _). set (f := fun r : list num => _ : list num).
  assert (Lf : forall r, length (f r) = n + na) by (intro r; unfold f, mulv, b; rewrite map_length; apply reshape_length).
  clearbody f. clear - Wx Wy Hr Hn Lx Lf. revert y Wy Hr Lx.
  induction x as [|a x IH]; intros [|c y] Wy Hr L; simpl in L; try lia; [contradiction|].
  cbn [hcat map combine nsum fold_right fst snd].
  inversion Wx as [|? ? La Wx']; inversion Wy as [|? ? Lc Wy']; subst.
  destruct Hr as [->|Hr].
  - assert (X : nsum (map nsq (vsub (a ++ row) (f a))) = None).
    { assert (L1 : length (a ++ row) = length (f a)) by (rewrite Lf, app_length; lia).
      assert (N : In None (a ++ row)) by (apply in_or_app; auto). clear - L1 N.
      revert L1. generalize (f a). induction (a ++ row) as [|v l IH]; intros [|w k] L; simpl in L; try lia; [contradiction|].
      cbn [vsub map nsum fold_right]. destruct N as [->|N]; [reflexivity|].
      assert (Z : nsum (map nsq (vsub l k)) = None) by (apply IH; auto; lia).
      unfold nsum in Z. rewrite Z. destruct (nsq (nsub v w)); reflexivity. }
    unfold nsum in X. unfold nsum. rewrite X. reflexivity.
  - assert (Z := IH Wx' y Wy' Hr ltac:(lia)). unfold nsum at 1 in Z. unfold nsum at 1. 
    match goal with |- nadd ?u _ = None => destruct u end; [|reflexivity].
    etransitivity; [exact (f_equal (nadd (Some q)) Z)|reflexivity].
Qed.

(* ------------------------------------------------------------------ C73 *)
(** Numerical runs that always fail. *)
Theorem C73_precalculated_solution_always_fails :
  forall bfgs quality f16 random x y n na labels o rows,
    length x = length y -> p_alpha o = Some rows -> length rows = 2 * (n + na) + 2 * n ->
    Forall (fun r => length r = 1) rows ->
    exists e, pilot bfgs quality f16 random x y n na labels o = Err e /\ pierr_exn e = "UnboundLocalError"%string.
Proof.
  intros bfgs quality f16 random x y n na labels o rows L Ha Lr Hr. exists EUnboundIdx. split; auto.
  unfold pilot. rewrite L, Nat.eqb_refl. simpl negb. cbv iota zeta.
  assert (P : precalculated o n (n + na) = true).
  { unfold precalculated. rewrite Ha, Lr, Nat.eqb_refl. apply forallb_forall. intros r X. rewrite Forall_forall in Hr.
    apply Nat.eqb_eq, Hr, X. }
  rewrite P. reflexivity.
Qed.
(** a pre-calculated solution of the right shape is given *)
Definition solution_given (o : pilot_options) (n m : nat) : Prop :=
  exists rows, p_alpha o = Some rows /\ length rows = 2 * m + 2 * n /\ Forall (fun r => length r = 1) rows.
Lemma precalculated_spec o n m : precalculated o n m = true <-> solution_given o n m.
Proof.
  unfold precalculated, solution_given. destruct (p_alpha o) as [rows|].
  - rewrite andb_true_iff, Nat.eqb_eq, forallb_forall. setoid_rewrite Nat.eqb_eq. rewrite <- Forall_forall. split; [eauto|].
    intros (r & E & H). injection E as <-. exact H.
  - split; [discriminate|]. intros (r & E & _). discriminate E.
Qed.
Theorem C73_when_it_succeeds :
  forall bfgs quality f16 random x y n na labels o,
    let starts := match p_x0 o with Some s => s | None => random (2 * (n + na) + 2 * n) (p_tries o) end in
    (exists out, pilot bfgs quality f16 random x y n na labels o = Ok out) <->
    length x = length y /\ ~ solution_given o n (n + na) /\ length labels = n /\
    0 < p_tries o <= length starts /\
    forall i start, i < p_tries o -> nth_error starts i = Some start ->
      exists q, quality (map (mulv (reshape 2 n (firstn (2 * n) (fst (bfgs start))))) x) = Ok q.
Proof.
  intros bfgs quality f16 random x y n na labels o starts. split.
  - intros [out H]. destruct (pilot_ok _ _ _ _ _ _ _ _ _ _ H) as (Lx & P & El & E0 & L1 & L2 & Ht & sols & Ls & D & _).
    split; auto. split; [rewrite <- precalculated_spec; congruence|]. split; auto. split.
    + split; auto. destruct (D (p_tries o - 1) ltac:(lia)) as (al & e & q & (g & Hg & _) & _).
      assert (p_tries o - 1 < length starts) by (apply nth_error_Some; intro X; unfold starts in X; congruence). lia.
    + intros i g Hi Hg. destruct (D i Hi) as (al & e & q & (g' & Hg' & Hb & Hq) & _).
      unfold starts in Hg. rewrite Hg in Hg'. injection Hg' as <-. rewrite Hb. eauto.
  - intros (L & P & El & [Ht Hs] & Hq). unfold pilot. rewrite L, Nat.eqb_refl. simpl negb. cbv iota zeta.
    rewrite <- precalculated_spec in P. apply not_true_is_false in P. rewrite P.
    fold starts.
    assert (T : forall len s st, s + len <= p_tries o -> exists st', trials bfgs quality x starts n st (seq s len) = Ok st').
    { induction len as [|len IH]; intros s st Hl; simpl; [eauto|]. unfold trial.
      destruct (nth_error starts s) as [g|] eqn:G; [|apply nth_error_None in G; lia].
      destruct (Hq s g ltac:(lia) G) as [q E]. destruct (bfgs g) as [al e]. simpl in E.
      match type of E with quality ?a = _ => match goal with |- context [quality ?b] => change b with a end end.
      rewrite E. apply IH. lia. }
    destruct (T (p_tries o) 0 {| s_alpha := repeat (repeat (Some 0%Q) (2 * (n + na) + 2 * n)) (p_tries o);
         s_eoptim := repeat (Some 0%Q) (p_tries o); s_perf := repeat (Some 0%Q) (p_tries o); s_idx := None |}) as [st E]; [lia|].
    fold (numerical_solve bfgs quality x starts n (n + na) (p_tries o)) in E. rewrite E.
    destruct (numerical_spec _ _ _ _ _ _ _ E) as (_ & _ & _ & I & _). rewrite I.
    destruct (p_tries o); [lia|]. cbn [Nat.eqb]. rewrite El, Nat.eqb_refl. simpl negb. cbv iota. eauto.
Qed.
(** Which exception it raises: of the concatenation of features and performances first, then of a pre-calculated
    solution, then of the first restart without a start or whose distances pearsonr rejects, then because there was no
    restart at all, and of the column names last. *)
Theorem C73_which_error :
  forall bfgs quality f16 random x y n na labels o,
    let run := pilot bfgs quality f16 random x y n na labels o in
    let starts := match p_x0 o with Some s => s | None => random (2 * (n + na) + 2 * n) (p_tries o) end in
    let judged i r := exists start, nth_error starts i = Some start /\
      quality (map (mulv (reshape 2 n (firstn (2 * n) (fst (bfgs start))))) x) = r in
    let raises c := exists e, run = Err e /\ pierr_exn e = c in
    (length x <> length y -> raises "ValueError"%string) /\
    (length x = length y -> ~ solution_given o n (n + na) ->
       (forall i e, i < p_tries o -> (forall j, j < i -> exists q, judged j (Ok q)) -> judged i (Err e) -> run = Err e) /\
       (length starts < p_tries o -> (forall j, j < length starts -> exists q, judged j (Ok q)) -> raises "IndexError"%string) /\
       (p_tries o = 0 -> raises "UnboundLocalError"%string) /\
       (0 < p_tries o -> (forall j, j < p_tries o -> exists q, judged j (Ok q)) -> length labels <> n -> raises "ValueError"%string)).
Proof.
  intros bfgs quality f16 random x y n na labels o run starts judged raises.
  assert (T : forall i len s st, (forall j, s <= j < s + i -> exists q, judged j (Ok q)) -> i <= len ->
    exists st', trials bfgs quality x starts n st (seq s len) = trials bfgs quality x starts n st' (seq (s + i) (len - i))).
  { induction i as [|i IH]; intros len s st H L; [rewrite Nat.add_0_r, Nat.sub_0_r; eauto|].
    destruct len as [|len]; [lia|]. cbn [seq trials]. unfold trial at 1.
    destruct (H s ltac:(lia)) as (q & g & G & Q). rewrite G. destruct (bfgs g) as [al e]. cbn [fst] in Q.
    match type of Q with quality ?a = _ => match goal with |- context [quality ?b] => change b with a end end.
    rewrite Q. match goal with |- exists _, trials _ _ _ _ _ ?st1 _ = _ => destruct (IH len (S s) st1 ltac:(intros j Hj; apply H; lia) ltac:(lia)) as [st' E] end.
    exists st'. rewrite E. f_equal. f_equal; lia. }
  split.
  - intro N. exists EConcat. split; [|reflexivity]. unfold run, pilot. destruct (Nat.eqb_spec (length x) (length y)); [contradiction|reflexivity].
  - intros L P. rewrite <- precalculated_spec in P. apply not_true_is_false in P.
    set (init := {| s_alpha := repeat (repeat (Some 0%Q) (2 * (n + na) + 2 * n)) (p_tries o);
         s_eoptim := repeat (Some 0%Q) (p_tries o); s_perf := repeat (Some 0%Q) (p_tries o); s_idx := None |}).
    assert (R : forall e, trials bfgs quality x starts n init (seq 0 (p_tries o)) = Err e -> run = Err e).
    { intros e E. unfold run, pilot. rewrite L, Nat.eqb_refl. simpl negb. cbv iota zeta. rewrite P. fold starts. unfold numerical_solve. fold init. rewrite E. reflexivity. }
    split; [|split; [|split]].
    + intros i e Hi Hj (g & G & Q). apply R. destruct (T i (p_tries o) 0 init ltac:(intros j Hl; apply Hj; lia) ltac:(lia)) as [st' E]. rewrite E. cbn [Nat.add].
      destruct (p_tries o - i) as [|k] eqn:K; [lia|]. cbn [seq trials]. unfold trial at 1. rewrite G. destruct (bfgs g) as [al v]. cbn [fst] in Q.
      match type of Q with quality ?a = _ => match goal with |- context [quality ?b] => change b with a end end. rewrite Q. reflexivity.
    + intros Hl Hj. exists EStartIndex. split; [|reflexivity]. apply R.
      destruct (T (length starts) (p_tries o) 0 init ltac:(intros j Hl'; apply Hj; lia) ltac:(lia)) as [st' E]. rewrite E. cbn [Nat.add].
      destruct (p_tries o - length starts) as [|k] eqn:K; [lia|]. cbn [seq trials]. unfold trial at 1.
      assert (G : nth_error starts (length starts) = None) by (apply nth_error_None; lia). rewrite G. reflexivity.
    + intro Z. exists EUnboundIdx. split; [|reflexivity]. unfold run, pilot. rewrite L, Nat.eqb_refl. simpl negb. cbv iota zeta. rewrite P. fold starts.
      rewrite Z. reflexivity.
    + intros Hp Hj Hn. exists ELabels. split; [|reflexivity].
      destruct (T (p_tries o) (p_tries o) 0 init ltac:(intros j Hl'; apply Hj; lia) ltac:(lia)) as [st' E]. rewrite Nat.sub_diag in E. cbn [seq trials Nat.add] in E.
      unfold run, pilot. rewrite L, Nat.eqb_refl. simpl negb. cbv iota zeta. rewrite P. fold starts.
      assert (En : numerical_solve bfgs quality x starts n (n + na) (p_tries o) = Ok st') by exact E.
      destruct (numerical_spec _ _ _ _ _ _ _ En) as (_ & _ & _ & I & _). rewrite En, I.
      destruct (p_tries o); [lia|]. cbn [Nat.eqb]. destruct (Nat.eqb_spec (length labels) n); [contradiction|reflexivity].
Qed.
(** With given starting points, more restarts never lower the best quality. *)
Theorem C73_more_restarts_never_worse :
  forall bfgs quality f16 random x y n na labels starts t1 t2 out1 out2 k1 k2 q1 q2,
    let o t := {| p_x0 := Some starts; p_alpha := None; p_tries := t |} in
    t1 <= t2 ->
    pilot bfgs quality f16 random x y n na labels (o t1) = Ok out1 ->
    pilot bfgs quality f16 random x y n na labels (o t2) = Ok out2 ->
    first_best (po_perf out1) k1 -> nth_error (po_perf out1) k1 = Some (Some q1) ->
    first_best (po_perf out2) k2 -> nth_error (po_perf out2) k2 = Some (Some q2) ->
    (q1 <= q2)%Q.
Proof.
  intros bfgs quality f16 random x y n na labels starts t1 t2 out1 out2 k1 k2 q1 q2 o Ht H1 H2 B1 E1 B2 E2.
  destruct (pilot_ok _ _ _ _ _ _ _ _ _ _ H1) as (_ & _ & _ & _ & L1 & _ & _ & s1 & _ & D1 & _).
  destruct (pilot_ok _ _ _ _ _ _ _ _ _ _ H2) as (_ & _ & _ & _ & L2 & _ & _ & s2 & _ & D2 & _).
  cbn [o p_tries p_x0] in *.
  assert (K : k1 < t1) by (rewrite <- L1; apply B1).
  destruct (D1 k1 K) as (a1 & e1 & p1 & (g1 & G1 & X1 & Y1) & _ & _ & Z1).
  destruct (D2 k1 ltac:(lia)) as (a2 & e2 & p2 & (g2 & G2 & X2 & Y2) & _ & _ & Z2).
  assert (E : g1 = g2) by congruence. subst g2. assert (E : a1 = a2) by congruence. subst a2.
  assert (E : p1 = p2) by congruence. subst p2. assert (E : p1 = Some q1) by congruence. subst p1.
  destruct B2 as (_ & Bf & Bn).
  destruct (in_dec (fun a b : num => ltac:(repeat decide equality)) None (po_perf out2)) as [N|N].
  - destruct (Bn N) as [X _]. congruence.
  - destruct (Bf N _ _ Z2) as (b & Eb & Hle & _). assert (b = q2) by congruence. subst b. exact Hle.
Qed.
(** two starts for three restarts; no restart; two names for one feature; a quality that cannot be computed *)
Example C73_errors_met :
  ex_run (fun v => v) 3 = Err EStartIndex /\ ex_run (fun v => v) 0 = Err EUnboundIdx /\
  pilot (fun g => (g, Some 0%Q)) ex_quality (fun v => v) (fun _ _ => []) ex_x ex_y 1 2 ["f"; "g"]%string
    {| p_x0 := Some ex_starts; p_alpha := None; p_tries := 2 |} = Err ELabels /\
  pilot (fun g => (g, Some 0%Q)) (fun z => if nth 0 (nth 0 z []) None then Err EQuality else Ok None) (fun v => v) (fun _ _ => []) ex_x ex_y 1 2 ["f"; "g"]%string
    {| p_x0 := Some ex_starts; p_alpha := None; p_tries := 2 |} = Err EQuality /\
  pilot (fun g => (g, Some 0%Q)) ex_quality (fun v => v) (fun _ _ => []) ex_x [] 1 2 ["f"]%string
    {| p_x0 := Some ex_starts; p_alpha := None; p_tries := 2 |} = Err EConcat.
Proof. repeat split. Qed.
Example C73_met : exists out1 out2, ex_run (fun v => v) 1 = Ok out1 /\ ex_run (fun v => v) 2 = Ok out2.
Proof. eexists. eexists. split; vm_compute; reflexivity. Qed.

Print Assumptions C44_best_restart.
Print Assumptions C44_objective.
Print Assumptions C44_quality_of_the_returned_projection_refuted.
Print Assumptions C70_shape_of_the_result.
Print Assumptions C70_loading_for_every_algorithm_refuted.
Print Assumptions C72_r2_says_nothing.
Print Assumptions C72_when_r2_is_present.
Print Assumptions C72_missing_performance_hides_the_error.
Print Assumptions C73_precalculated_solution_always_fails.
Print Assumptions C73_when_it_succeeds.
Print Assumptions C73_which_error.
Print Assumptions C73_more_restarts_never_worse.
