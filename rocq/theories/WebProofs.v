(** Proofs for WebProps.v. *)
From Coq Require Import Qround Qabs Lqa.
From Verif Require Import BaseLemmas Mat PreprocSpec CloisterModel CloisterSpec PilotProofs CloisterProofs PythiaWeights
  SerialModel SerialSpec SerialProofs WebSpec.
Set Implicit Arguments.
Open Scope nat_scope.
Open Scope list_scope.

Lemma col_max_none l : In None l -> col_max l = None.
Proof.
  destruct l as [|a l]; [intros []|]. simpl. revert a. induction l as [|b l IH]; intros a H; simpl.
  - destruct H as [|[]]; auto.
  - apply IH. destruct H as [->|[->|H]]; [left; auto|left; destruct a; auto|right; auto].
Qed.
Lemma col_bounds l : l <> [] -> ~ In None l -> exists lo hi, col_min l = Some lo /\ col_max l = Some hi /\ bounds l lo hi.
Proof.
  intros N F. destruct (col_min_spec N F) as (lo & El & Il & Al). destruct (col_max_spec N F) as (hi & Eh & Ih & Ah).
  exists lo, hi. split; auto. split; auto. rewrite El in Il. rewrite Eh in Ih. split; auto. split; auto.
  intros q Hq. destruct (Al _ Hq) as (w & E & X). injection E as <-. destruct (Ah _ Hq) as (w & E & Y). injection E as <-. auto.
Qed.
Lemma bounds_unique l lo hi lo' hi' : bounds l lo hi -> bounds l lo' hi' -> (lo == lo' /\ hi == hi')%Q.
Proof. intros (A & B & C) (A' & B' & C'). split; apply Qle_antisym; first [apply C|apply C']; auto. Qed.

Lemma div_le a b c : (0 < b -> (a <= c / b <-> a * b <= c))%Q.
Proof.
  intro P. split; intro H.
  - setoid_replace c with ((c / b) * b)%Q by (field; lra). apply Qmult_le_compat_r; lra.
  - setoid_replace a with ((a * b) / b)%Q by (field; lra). unfold Qdiv. apply Qmult_le_compat_r; auto. apply Qinv_le_0_compat. lra.
Qed.
Lemma div_lt a b c : (0 < b -> (c / b < a <-> c < a * b))%Q.
Proof.
  intro P. pose proof (div_le a c P) as D. split; intro H; apply Qnot_le_lt; intro X.
  - apply D in X. lra.
  - apply D in X. lra.
Qed.
Lemma floor_rounded lo hi q : (lo < hi)%Q -> rounded_down lo hi q (Qfloor (255 * ((q - lo) / (hi - lo)))).
Proof.
  intro H. assert (P : (0 < hi - lo)%Q) by lra. set (v := (255 * ((q - lo) / (hi - lo)))%Q).
  assert (E : (v == (255 * (q - lo)) / (hi - lo))%Q) by (unfold v; field; lra).
  unfold rounded_down. split.
  - apply (div_le _ _ P). rewrite <- E. apply Qfloor_le.
  - apply (div_lt _ _ P). rewrite <- E. pose proof (Qlt_floor v) as X. rewrite inject_Z_plus in X. exact X.
Qed.
Lemma round_even_near q : (2 * Qabs (inject_Z (round_even q) - q) <= 1)%Q /\
  ((2 * Qabs (inject_Z (round_even q) - q) == 1)%Q -> Z.even (round_even q) = true).
Proof.
  unfold round_even. pose proof (Qfloor_le q) as A. pose proof (Qlt_floor q) as B. rewrite inject_Z_plus in B.
  change (inject_Z 1) with 1%Q in B. set (f := Qfloor q) in *.
  assert (L : forall x, (-(1#2) <= x -> x <= 1#2 -> 2 * Qabs x <= 1)%Q).
  { intros x X Y. assert (Qabs x <= 1#2)%Q by (apply Qabs_Qle_condition; auto). lra. }
  assert (M : forall x, (-(1#2) < x -> x < 1#2 -> ~ 2 * Qabs x == 1)%Q).
  { intros x X Y. assert (Qabs x < 1#2)%Q by (apply Qabs_Qlt_condition; auto). lra. }
  destruct (Qcompare_spec (q - inject_Z f) (1 # 2)) as [C|C|C].
  - destruct (Z.even f) eqn:E; (split; [apply L; rewrite ?inject_Z_plus; change (inject_Z 1) with 1%Q; lra|]); intros _; auto.
    rewrite Z.even_add, E. auto.
  - split; [apply L; lra|]. intro X. exfalso. revert X. apply M; lra.
  - split; [apply L; rewrite ?inject_Z_plus; change (inject_Z 1) with 1%Q; lra|]. intro X. exfalso. revert X.
    apply M; rewrite ?inject_Z_plus; change (inject_Z 1) with 1%Q; lra.
Qed.
Lemma even_rounded lo hi q : (lo < hi)%Q -> rounded lo hi q (round_even (255 * ((q - lo) / (hi - lo)))).
Proof.
  intro H. assert (P : (0 < hi - lo)%Q) by lra. set (v := (255 * ((q - lo) / (hi - lo)))%Q).
  unfold rounded. cbv zeta. pose proof (round_even_near v) as [X Y]. set (z := inject_Z (round_even v)) in *.
  assert (E : (z * (hi - lo) - 255 * (q - lo) == (z - v) * (hi - lo))%Q) by (unfold v; field; lra).
  rewrite E, Qabs_Qmult, (Qabs_pos (hi - lo)) by lra. split.
  - setoid_replace (2 * (Qabs (z - v) * (hi - lo)))%Q with ((2 * Qabs (z - v)) * (hi - lo))%Q by ring.
    setoid_replace (hi - lo)%Q with (1 * (hi - lo))%Q at 2 by ring. apply Qmult_le_compat_r; lra.
  - intro T. apply Y. setoid_replace (2 * Qabs (z - v))%Q with (2 * (Qabs (z - v) * (hi - lo)) / (hi - lo))%Q by (field; lra).
    rewrite T. field. lra.
Qed.

Section Colour.
  Variable f : Q -> Z.
  Variable near : Q -> Q -> Q -> Z -> Prop.
  Hypothesis Hnear : forall lo hi q, (lo < hi)%Q -> near lo hi q (f (255 * ((q - lo) / (hi - lo)))).
  Hypothesis near_eq : forall lo hi lo' hi' q z, (lo == lo')%Q -> (hi == hi')%Q -> near lo hi q z -> near lo' hi' q z.
  Lemma colour_spec l v : In v l -> coloured near l v (colour f (col_min l) (col_max l) v).
  Proof.
    intro Hv. assert (N : l <> []) by (intro X; rewrite X in Hv; destruct Hv). unfold coloured, colour. split.
    - intros lo hi F B L. destruct (col_bounds N F) as (lo' & hi' & -> & -> & B'). destruct (bounds_unique B B') as [El Eh].
      destruct v as [q|]; [|contradiction]. simpl. destruct (Qeq_bool (hi' - lo') 0) eqn:Z.
      + apply Qeq_bool_eq in Z. lra.
      + exists q, (f (255 * ((q - lo') / (hi' - lo')))). split; auto. split; auto. eapply near_eq; [symmetry; eauto|symmetry; eauto|].
        apply Hnear. lra.
    - intros [H|H].
      + rewrite (is_min_none l H), (col_max_none l H). destruct v; auto.
      + destruct (in_dec (fun a b : num => ltac:(decide equality; decide equality; [apply Pos.eq_dec|apply Z.eq_dec]) : {a = b} + {a <> b}) None l) as [X|X].
        * rewrite (is_min_none l X), (col_max_none l X). destruct v; auto.
        * destruct (col_bounds N X) as (lo' & hi' & -> & -> & (A & B & _)). specialize (H _ _ A B). destruct v as [q|]; [|contradiction].
          simpl. rewrite (proj2 (Qeq_bool_iff _ _)); auto. lra.
  Qed.
End Colour.
Lemma down_eq lo hi lo' hi' q z : (lo == lo')%Q -> (hi == hi')%Q -> rounded_down lo hi q z -> rounded_down lo' hi' q z.
Proof. unfold rounded_down. intros A B H. rewrite <- A, <- B. auto. Qed.
Lemma near_eq lo hi lo' hi' q z : (lo == lo')%Q -> (hi == hi')%Q -> rounded lo hi q z -> rounded lo' hi' q z.
Proof. unfold rounded. cbv zeta. intros A B H. rewrite <- A, <- B. auto. Qed.

(** the scaled arrays *)
Lemma nth_map_in A B (f : A -> B) l i d d' : i < length l -> nth i (map f l) d = f (nth i l d').
Proof. intro H. rewrite (nth_indep _ d (f d')) by (rewrite map_length; auto). apply map_nth. Qed.
Lemma colour_scale_spec data cols t : (forall r, In r data -> length r = cols) -> colour_scale data cols = Ok t ->
  length t = length data /\ (forall r, In r t -> length r = cols) /\
  exists c, forall i j, i < length data -> j < cols -> nth j (nth i t []) (CNum None) = CColour (c i j) /\
    coloured rounded_down (column None data j) (cell data i j) (c i j).
Proof.
  intros R H. unfold colour_scale in H. destruct data as [|r0 rest]; [discriminate|]. set (data := r0 :: rest) in *. clearbody data.
  injection H as <-. split; [apply map_length|]. split.
  { intros r Hr. apply in_map_iff in Hr. destruct Hr as (r' & <- & Hr). rewrite map_length, combine_length, seq_length, (R _ Hr). lia. }
  exists (fun i j => colour Qfloor (col_min (column None data j)) (col_max (column None data j)) (cell data i j)). intros i j Hi Hj.
  assert (L : length (nth i data []) = cols) by (apply R; apply nth_In; auto). split.
  - rewrite (@nth_map_in _ _ _ data i [] []) by auto. cbv beta. rewrite (@nth_map_in (nat * num) entry _ (combine (seq 0 cols) (nth i data [])) j (CNum None) (0, None)) by (rewrite combine_length, seq_length; unfold num in *; lia).
    rewrite combine_nth by (rewrite seq_length; auto). rewrite seq_nth by auto. auto.
  - apply colour_spec; [apply floor_rounded|apply down_eq|]. unfold cell, column.
    apply (in_map (fun r => nth j r None)). apply nth_In. auto.
Qed.
Lemma colour_scale_ok data cols : data <> [] -> exists t, colour_scale data cols = Ok t.
Proof. destruct data; [congruence|]. simpl. eauto. Qed.
Lemma colour_scale_g_spec data t : colour_scale_g data = Ok t ->
  length t = length data /\ Forall2 (fun r r' => length r = length r') t data /\
  exists c, forall i j, i < length data -> j < length (nth i data []) -> nth j (nth i t []) (CNum None) = CColour (c i j) /\
    coloured rounded (concat data) (cell data i j) (c i j).
Proof.
  intros H. unfold colour_scale_g in H. destruct (concat data) as [|v0 rest] eqn:E; [discriminate|]. rewrite <- E in *.
  injection H as <-. split; [apply map_length|]. split.
  { clear E. set (all := concat data). clearbody all. induction data; constructor; auto. apply map_length. }
  exists (fun i j => colour round_even (col_min (concat data)) (col_max (concat data)) (cell data i j)). intros i j Hi Hj. split.
  - rewrite (@nth_map_in _ _ _ data i [] []) by auto. cbv beta. rewrite (@nth_map_in num entry _ (nth i data []) j (CNum None) None) by auto. auto.
  - apply colour_spec; [apply even_rounded|apply near_eq|]. apply in_concat. exists (nth i data []). split; [apply nth_In; auto|].
    unfold cell. apply nth_In. auto.
Qed.
Lemma colour_scale_g_ok data : concat data <> [] -> exists t, colour_scale_g data = Ok t.
Proof. unfold colour_scale_g. destruct (concat data); [congruence|]. eauto. Qed.

(** frames of colours *)
Lemma scale_frame a cols labels f : (forall r, In r a -> length r = width a) ->
  ((exists n t, then_frame (colour_scale a (width a)) cols labels f = Ok (n, t)) <-> labels <> [] /\ fits a labels cols) /\
  (forall n t, then_frame (colour_scale a (width a)) cols labels f = Ok (n, t) ->
     n = f /\ shows_colours t cols labels (cell a) (column None a) rounded_down).
Proof.
  intro R. split; [split|].
  - intros (n & t & H). unfold then_frame in H. destruct (colour_scale a (width a)) as [s|] eqn:E; [|discriminate].
    destruct (@colour_scale_spec a _ s R E) as (L & Lr & _). apply frame_inv in H. destruct H as (H1 & H2 & _).
    assert (N : a <> []) by (intro X; rewrite X in E; discriminate).
    assert (Nl : labels <> []) by (intro X; rewrite X in H1; rewrite L in H1; destruct a; [congruence|discriminate]).
    split; auto. split; [congruence|]. intros r Hr. rewrite (R _ Hr). destruct s as [|s0 s].
    { destruct a; [congruence|discriminate]. }
    rewrite <- (Lr s0 (or_introl eq_refl)). apply H2. left. auto.
  - intros [N [L F]]. assert (Na : a <> []) by (intro X; rewrite X in L; destruct labels; [congruence|discriminate]).
    destruct (colour_scale_ok (width a) Na) as [s E]. unfold then_frame. rewrite E.
    destruct (@colour_scale_spec a _ s R E) as (Ls & Lr & _).
    destruct (proj2 (frame_ok s cols labels f)) as [[n t] H]; [|eauto]. split; [congruence|]. intros r Hr. rewrite (Lr _ Hr).
    destruct a as [|r0 a]; [congruence|]. apply (F r0). left. auto.
  - intros n t H. unfold then_frame in H. destruct (colour_scale a (width a)) as [s|] eqn:E; [|discriminate].
    destruct (@colour_scale_spec a _ s R E) as (L & Lr & c & C). pose proof (frame_inv _ _ _ _ H) as (H1 & H2 & N & S). split; auto.
    exists c. assert (Wc : forall i, i < length labels -> width a = length cols).
    { intros i Hi. rewrite <- (Lr (nth i s [])) by (apply nth_In; lia). apply H2. apply nth_In. lia. }
    split.
    + apply (S (fun i j => CColour (c i j))). intros i j Hi Hj. apply C; [lia|]. rewrite (Wc i); auto.
    + intros i j Hi Hj. apply C; [lia|]. rewrite (Wc i); auto.
Qed.
Lemma concat_nonempty A (a : list (list A)) cols labels : labels <> [] -> cols <> [] -> fits a labels cols -> concat a <> [].
Proof.
  intros N C [L F]. destruct a as [|r a]; [destruct labels; [congruence|discriminate]|]. simpl. specialize (F r (or_introl eq_refl)).
  destruct r; [destruct cols; [congruence|discriminate]|discriminate].
Qed.
Lemma Forall2_In_l A B (P : A -> B -> Prop) l l' x : Forall2 P l l' -> In x l -> exists y, In y l' /\ P x y.
Proof. induction 1; [intros []|]; intros [|]; subst; [eexists; split; [left|]; eauto|]. destruct IHForall2 as (z & I & Q); auto. exists z. split; [right|]; auto. Qed.
Lemma Forall2_In_r A B (P : A -> B -> Prop) l l' y : Forall2 P l l' -> In y l' -> exists x, In x l /\ P x y.
Proof. induction 1; [intros []|]; intros [|]; subst; [eexists; split; [left|]; eauto|]. destruct IHForall2 as (z & I & Q); auto. exists z. split; [right|]; auto. Qed.
Lemma scale_g_frame a cols labels f : cols <> [] ->
  ((exists n t, then_frame (colour_scale_g a) cols labels f = Ok (n, t)) <-> labels <> [] /\ fits a labels cols) /\
  (forall n t, then_frame (colour_scale_g a) cols labels f = Ok (n, t) ->
     n = f /\ shows_colours t cols labels (cell a) (fun _ => concat a) rounded).
Proof.
  intro Nc. split; [split|].
  - intros (n & t & H). unfold then_frame in H. destruct (colour_scale_g a) as [s|] eqn:E; [|discriminate].
    destruct (@colour_scale_g_spec a s E) as (L & Lr & _). apply frame_inv in H. destruct H as (H1 & H2 & _).
    assert (N : a <> []) by (intro X; rewrite X in E; discriminate).
    split. { intro X; rewrite X in H1; rewrite L in H1; destruct a; [congruence|discriminate]. }
    split; [congruence|]. intros r Hr. destruct (Forall2_In_r _ Lr Hr) as (s0 & I & <-). auto.
  - intros [N F]. destruct (colour_scale_g_ok a (concat_nonempty N Nc F)) as [s E]. unfold then_frame. rewrite E.
    destruct (@colour_scale_g_spec a s E) as (L & Lr & _). destruct F as [L' F].
    destruct (proj2 (frame_ok s cols labels f)) as [[n t] H]; [|eauto]. split; [congruence|]. intros r Hr.
    destruct (Forall2_In_l _ Lr Hr) as (r0 & I & ->). auto.
  - intros n t H. unfold then_frame in H. destruct (colour_scale_g a) as [s|] eqn:E; [|discriminate].
    destruct (@colour_scale_g_spec a s E) as (L & Lr & c & C). pose proof (frame_inv _ _ _ _ H) as (H1 & H2 & N & S). split; auto.
    assert (X : forall i, i < length labels -> length (nth i a []) = length cols).
    { intros i Hi. destruct (Forall2_In_r _ Lr (nth_In a [] (n := i) ltac:(lia))) as (s0 & I & <-). auto. }
    exists c. split.
    + apply (S (fun i j => CColour (c i j))). intros i j Hi Hj. apply C; [lia|]. rewrite X; auto.
    + intros i j Hi Hj. apply C; [lia|]. rewrite X; auto.
Qed.

Definition web_names : list string :=
  ["feature_raw_color.csv"; "algorithm_raw_single_color.csv"; "feature_process_color.csv"; "algorithm_process_single_color.csv";
   "algorithm_raw_color.csv"; "algorithm_process_color.csv"; "good_algos_color.csv"]%string.
Lemma then_frame_named r cols labels f : named (then_frame r cols labels f) f.
Proof. unfold then_frame. destruct r; [apply frame_named|]. intros k t H. discriminate. Qed.
Lemma web_writes_named m : Forall2 named (web_writes m) web_names.
Proof. unfold web_writes, web_names. repeat (constructor; [apply then_frame_named|]). constructor. Qed.
Lemma web_names_nodup : NoDup web_names.
Proof. repeat constructor; simpl; intuition discriminate. Qed.
Lemma web_writes_names m f t : In (Ok (f, t)) (web_writes m) -> In f (map fst (colour_files m)).
Proof.
  intro H. destruct (Forall2_In_l _ (web_writes_named m) H) as (n & I & N). rewrite (N f t eq_refl). exact I.
Qed.
Lemma web_writes_unique m f t u : In (Ok (f, t)) (web_writes m) -> In (Ok (f, u)) (web_writes m) -> u = t.
Proof.
  intros H K. apply In_nth_error in H. apply In_nth_error in K. destruct H as [i H], K as [k K].
  destruct (Forall2_nth i (web_writes_named m) H) as (n & Ni & Pi). destruct (Forall2_nth k (web_writes_named m) K) as (n' & Nk & Pk).
  rewrite <- (Pi _ _ eq_refl) in Ni. rewrite <- (Pk _ _ eq_refl) in Nk.
  assert (i = k). { apply (proj1 (NoDup_nth_error _) web_names_nodup); [apply nth_error_Some; congruence|congruence]. }
  subst k. congruence.
Qed.

(** the selected columns of the raw features *)
Lemma take_frame a idx cols labels f : (forall r, In r a -> length r = width a) ->
  ((exists n t, then_frame (match take a (width a) idx with Ok b => colour_scale b (length idx) | Err e => Err e end) cols labels f = Ok (n, t)) <->
     labels <> [] /\ (forall j, In j idx -> j < width a) /\ length a = length labels /\ length idx = length cols) /\
  (forall n t, then_frame (match take a (width a) idx with Ok b => colour_scale b (length idx) | Err e => Err e end) cols labels f = Ok (n, t) ->
     n = f /\ shows_colours t cols labels (fun i j => cell a i (nth j idx 0)) (fun j => column None a (nth j idx 0)) rounded_down).
Proof.
  intro R. unfold take. destruct (forallb (fun i => Nat.ltb i (width a)) idx) eqn:B.
  2:{ split; [split|]; [intros (n & t & H); discriminate| |intros n t H; discriminate]. intros (_ & H & _). exfalso.
      rewrite (proj2 (forallb_forall _ idx)) in B; [discriminate|]. intros j Hj. apply Nat.ltb_lt. auto. }
  rewrite forallb_forall in B. set (b := map (fun r => map (fun i => nth i r None) idx) a).
  assert (Rb : forall r, In r b -> length r = length idx).
  { intros r Hr. apply in_map_iff in Hr. destruct Hr as (r' & <- & _). apply map_length. }
  assert (Wb : colour_scale b (length idx) = colour_scale b (width b)).
  { destruct b as [|r b'] eqn:E; [auto|]. simpl width. rewrite (Rb r (or_introl eq_refl)). auto. }
  assert (Rw : forall r, In r b -> length r = width b).
  { destruct b as [|r b'] eqn:E; [intros r []|]. intros r' Hr. simpl width. rewrite (Rb r (or_introl eq_refl)). auto. }
  rewrite Wb. destruct (@scale_frame b cols labels f Rw) as [I S]. split.
  - rewrite I. unfold fits. unfold b at 1. rewrite map_length. split.
    + intros (N & L & F). split; auto. split; [intros j Hj; apply Nat.ltb_lt; auto|]. split; auto.
      destruct b as [|r b'] eqn:E.
      { destruct a; [destruct labels; [congruence|discriminate]|discriminate]. }
      rewrite <- (Rb r (or_introl eq_refl)). apply F. left. auto.
    + intros (N & _ & L & C). split; auto. split; auto. intros r Hr. rewrite <- C. auto.
  - intros n t H. destruct (S n t H) as [Nf (c & Sc & C)]. split; auto. exists c. split; auto. intros i j Hi Hj.
    destruct (proj1 I) as (N & L & F); [eauto|].
    assert (Li : length idx = length cols).
    { destruct b as [|r b'] eqn:E; [destruct labels; [congruence|discriminate]|]. rewrite <- (Rb r (or_introl eq_refl)). apply F. left. auto. }
    specialize (C i j Hi Hj).
    assert (Ec : column None b j = column None a (nth j idx 0)).
    { unfold column, b. rewrite map_map. apply map_ext. intro r.
      rewrite (@nth_map_in _ _ (fun i => nth i r None) idx j None 0) by lia. auto. }
    assert (Ev : cell b i j = cell a i (nth j idx 0)).
    { unfold b in L. rewrite map_length in L. unfold cell, b. rewrite (@nth_map_in _ _ _ a i [] []) by (unfold num in *; lia). cbv beta.
      apply (@nth_map_in _ _ (fun i0 => nth i0 (nth i a []) None) idx j None 0). lia. }
    rewrite Ec, Ev in C. auto.
Qed.
Lemma concat_singles A (l : list A) : concat (map (fun v => [v]) l) = l.
Proof. induction l; simpl; congruence. Qed.
Lemma counts_frame l name labels f :
  ((exists n t, then_frame (colour_scale_g (map (fun v => [v]) l)) [name] labels f = Ok (n, t)) <-> labels <> [] /\ length l = length labels) /\
  (forall n t, then_frame (colour_scale_g (map (fun v => [v]) l)) [name] labels f = Ok (n, t) ->
     n = f /\ shows_colours t [name] labels (fun i _ => nth i l None) (fun _ => l) rounded).
Proof.
  destruct (@scale_g_frame (map (fun v => [v]) l) [name] labels f ltac:(discriminate)) as [I S]. split.
  - rewrite I. unfold fits. rewrite map_length. split; [tauto|]. intros [N L]. split; auto. split; auto. intros r Hr.
    apply in_map_iff in Hr. destruct Hr as (v & <- & _). auto.
  - intros n t H. destruct (S n t H) as [Nf (c & Sc & C)]. split; auto. exists c. split; auto. intros i j Hi Hj.
    destruct (proj1 I) as (N & L & F); [eauto|]. rewrite map_length in L. specialize (C i j Hi Hj). rewrite concat_singles in C.
    unfold cell in C. rewrite (@nth_map_in _ _ (fun v : num => [v]) l i [] None) in C by lia. destruct j; [auto|simpl in Hj; lia].
Qed.

Ltac pick_web k := match goal with W : forall w, In w (web_writes ?m) -> _ |- _ =>
  let n := fresh "n" in let t := fresh "t" in let E := fresh "E" in let X := fresh "X" in
  destruct (W (nth k (web_writes m) (Err EWrite))) as (n & t & E); [apply nth_In; simpl; lia|];
  assert (X : In (nth k (web_writes m) (Err EWrite)) (web_writes m)) by (apply nth_In; simpl; lia);
  rewrite E in X; cbn [nth web_writes] in E end.
Lemma web_consistent_iff m : array_shaped m -> ((forall w, In w (web_writes m) -> exists n t, w = Ok (n, t)) <-> web_consistent m).
Proof.
  intro A.
  assert (Rx : forall r, In r (m_x_raw m) -> length r = width (m_x_raw m)) by (intros r Hr; apply A; simpl; auto).
  assert (Rp : forall r, In r (m_x m) -> length r = width (m_x m)) by (intros r Hr; apply A; simpl; auto).
  assert (Ry : forall r, In r (m_y_raw m) -> length r = width (m_y_raw m)) by (intros r Hr; apply A; simpl; auto).
  assert (Rz : forall r, In r (m_y m) -> length r = width (m_y m)) by (intros r Hr; apply A; simpl; auto).
  split.
  - intro W. unfold web_consistent. cbv zeta.
    pick_web 0. destruct (proj1 (proj1 (@take_frame (m_x_raw m) (m_idx m) (m_feat_labels m) (m_inst_labels m) "feature_raw_color.csv"%string Rx))) as (Ni & Ii & Lx & Li); [eauto|].
    clear n t E X. pick_web 1. destruct (proj1 (proj1 (@scale_frame (m_y_raw m) (m_algo_labels m) (m_inst_labels m) "algorithm_raw_single_color.csv"%string Ry))) as (_ & Fy); [eauto|].
    clear n t E X. pick_web 2. destruct (proj1 (proj1 (@scale_frame (m_x m) (m_feat_labels m) (m_inst_labels m) "feature_process_color.csv"%string Rp))) as (_ & Fx); [eauto|].
    clear n t E X. pick_web 3. destruct (proj1 (proj1 (@scale_frame (m_y m) (m_algo_labels m) (m_inst_labels m) "algorithm_process_single_color.csv"%string Rz))) as (_ & Fz); [eauto|].
    clear n t E X. pick_web 6. destruct (proj1 (proj1 (counts_frame (m_num_good_algos m) "NumGoodAlgos"%string (m_inst_labels m) "good_algos_color.csv"%string))) as (_ & Fn); [eauto|].
    clear n t E X. pick_web 4.
    split; auto. split.
    { intro N. rewrite N in *. unfold then_frame in E. destruct (colour_scale_g (m_y_raw m)) as [s|] eqn:G; [|discriminate].
      unfold colour_scale_g in G. destruct (concat (m_y_raw m)) as [|v c] eqn:K; [discriminate|].
      assert (I : In v (concat (m_y_raw m))) by (rewrite K; left; auto). apply in_concat in I. destruct I as (r & Ir & Iv).
      destruct Fy as [_ Fy]. specialize (Fy _ Ir). destruct r; [destruct Iv|discriminate]. }
    auto 10.
  - intros (Ni & Na & Ii & Lx & Li & Fx & Fy & Fz & Fn) w Hw. unfold web_writes in Hw. cbv zeta in *.
    destruct Hw as [<-|Hw]; [apply (@take_frame _ _ _ _ _ Rx); auto|].
    destruct Hw as [<-|Hw]; [apply (@scale_frame _ _ _ _ Ry); auto|].
    destruct Hw as [<-|Hw]; [apply (@scale_frame _ _ _ _ Rp); auto|].
    destruct Hw as [<-|Hw]; [apply (@scale_frame _ _ _ _ Rz); auto|].
    destruct Hw as [<-|Hw]; [apply (@scale_g_frame _ _ _ _ Na); auto|].
    destruct Hw as [<-|Hw]; [apply (@scale_g_frame _ _ _ _ Na); auto|].
    destruct Hw as [<-|Hw]; [apply counts_frame; auto|]. destruct Hw.
Qed.
Lemma web_file_written m f cols v among near : array_shaped m -> (forall w, In w (web_writes m) -> exists n t, w = Ok (n, t)) ->
  In (f, (cols, v, among, near)) (colour_files m) ->
  exists t, In (Ok (f, t)) (web_writes m) /\ shows_colours t cols (m_inst_labels m) v among near.
Proof.
  intros A W I.
  assert (Rx : forall r, In r (m_x_raw m) -> length r = width (m_x_raw m)) by (intros r Hr; apply A; simpl; auto).
  assert (Rp : forall r, In r (m_x m) -> length r = width (m_x m)) by (intros r Hr; apply A; simpl; auto).
  assert (Ry : forall r, In r (m_y_raw m) -> length r = width (m_y_raw m)) by (intros r Hr; apply A; simpl; auto).
  assert (Rz : forall r, In r (m_y m) -> length r = width (m_y m)) by (intros r Hr; apply A; simpl; auto).
  pose proof (proj1 (web_consistent_iff A) W) as (_ & Na & _).
  unfold colour_files in I.
  destruct I as [I|I]; [injection I as <- <- <- <- <-; pick_web 0; destruct (proj2 (@take_frame _ _ _ _ _ Rx) _ _ E) as [-> S]; eauto|].
  destruct I as [I|I]; [injection I as <- <- <- <- <-; pick_web 1; destruct (proj2 (@scale_frame _ _ _ _ Ry) _ _ E) as [-> S]; eauto|].
  destruct I as [I|I]; [injection I as <- <- <- <- <-; pick_web 2; destruct (proj2 (@scale_frame _ _ _ _ Rp) _ _ E) as [-> S]; eauto|].
  destruct I as [I|I]; [injection I as <- <- <- <- <-; pick_web 3; destruct (proj2 (@scale_frame _ _ _ _ Rz) _ _ E) as [-> S]; eauto|].
  destruct I as [I|I]; [injection I as <- <- <- <- <-; pick_web 4; destruct (proj2 (@scale_g_frame _ _ _ _ Na) _ _ E) as [-> S]; eauto|].
  destruct I as [I|I]; [injection I as <- <- <- <- <-; pick_web 5; destruct (proj2 (@scale_g_frame _ _ _ _ Na) _ _ E) as [-> S]; eauto|].
  destruct I as [I|I]; [injection I as <- <- <- <- <-; pick_web 6; destruct (proj2 (counts_frame _ _ _ _) _ _ E) as [-> S]; eauto|].
  destruct I.
Qed.
