(** Property C98: stages work on copies of the runner's objects.  Specification, proofs and theorems. *)
From Verif Require Import Base BaseLemmas Num Ext BuilderModel RunnerModel RunnerSpec RunnerProofs FilterProofs PrelimModel PrelimProps ObjectModel.
From Verif Require PythiaModel PythiaProps.
Set Implicit Arguments.
Open Scope nat_scope.
Open Scope list_scope.

(** What is known of a stage: it reaches only the objects it is given and those it makes, so it changes no
    other and returns no other; and it returns the outputs it declares. *)
Definition confined (O : Type) (outputs : sid -> list string) (body : sid -> store O -> dict nat -> store O * option (dict nat)) : Prop :=
  forall s h args h' r, body s h args = (h', r) ->
    length h <= length h' /\
    (forall a, a < length h -> ~ In a (map snd args) -> nth_error h' a = nth_error h a) /\
    (forall out, r = Some out -> map fst out = outputs s /\ forall n a, In (n, a) out -> In a (map snd args) \/ length h <= a < length h').
(** Names are bound to objects that exist. *)
Definition grounded (n : nat) (d : dict nat) : Prop := forall f a, In (f, a) d -> a < n.
Definition sound (O : Type) (st : ostate O) : Prop := grounded (length (objs st)) (bound st).

Section Copies.
  Variable O : Type.
  Implicit Types h : store O.

  Lemma dget_in (d : dict nat) k a : dget d k = Some a -> In (k, a) d.
  Proof.
    induction d as [|[k' v] t IH]; simpl; [discriminate|]. destruct (String.eqb_spec k' k) as [->|N]; intro H; [injection H as ->|]; auto.
  Qed.
  Lemma dset_in (d : dict nat) k a f b : In (f, b) (dset d k a) -> (f, b) = (k, a) \/ In (f, b) d.
  Proof.
    induction d as [|[k' v] t IH]; simpl; [intros [H|[]]; auto|]. destruct (String.eqb_spec k' k) as [->|N]; simpl; intros [H|H]; auto.
    destruct (IH H); auto.
  Qed.
  Lemma dupdate_in new : forall (d : dict nat) f b, In (f, b) (dupdate d new) -> In (f, b) new \/ In (f, b) d.
  Proof.
    induction new as [|[k a] t IH]; intros d f b H; [right; auto|]. unfold dupdate in *. simpl in H. apply IH in H.
    destruct H as [H|H]; [left; right; auto|]. apply dset_in in H. destruct H as [->|H]; [left; left; auto|right; auto].
  Qed.
  Lemma grounded_update n (d new : dict nat) : grounded n d -> grounded n new -> grounded n (dupdate d new).
  Proof. intros A B f a H. apply dupdate_in in H. destruct H; eauto. Qed.
  Lemma bind_in d names : forall i, bind d names = Some i -> map fst i = names /\ forall f a, In (f, a) i -> In (f, a) d /\ dget d f = Some a.
  Proof.
    induction names as [|n t IH]; simpl; intros i H; [injection H as <-; split; auto; intros ? ? []|].
    destruct (dget d n) as [a|] eqn:E; [|discriminate]. destruct (bind d t) as [r|]; [|discriminate]. injection H as <-.
    destruct (IH r eq_refl) as [M I]. split; [simpl; f_equal; auto|]. intros f b [X|X]; [injection X as <- <-; split; [apply dget_in|]; auto|auto].
  Qed.

  (** What the memo knows while copying objects below [n0]. *)
  Definition memo_ok n0 h (memo : list (nat * nat)) : Prop :=
    (forall k v, memo_find memo k = Some v -> k < n0 /\ n0 <= v < length h /\ nth_error h v = nth_error h k) /\
    (forall k k' v, memo_find memo k = Some v -> memo_find memo k' = Some v -> k = k').
  Lemma copy_spec n0 : forall inputs memo h h' c,
    n0 <= length h -> grounded n0 inputs -> memo_ok n0 h memo -> deepcopy h memo inputs = (h', c) ->
    length h <= length h' /\
    (forall a, a < length h -> nth_error h' a = nth_error h a) /\
    map fst c = map fst inputs /\
    exists f, (forall a, In a (map snd inputs) -> n0 <= f a < length h' /\ nth_error h' (f a) = nth_error h' a) /\
      (forall a b, (In a (map snd inputs) \/ exists v, memo_find memo a = Some v) -> (In b (map snd inputs) \/ exists v, memo_find memo b = Some v) -> f a = f b -> a = b) /\
      (forall k v, memo_find memo k = Some v -> f k = v) /\
      c = map (fun fa => (fst fa, f (snd fa))) inputs.
  Proof.
    induction inputs as [|[n a] t IH]; intros memo h h' c Hn G M H; simpl in H.
    - injection H as <- <-. split; [lia|]. split; [auto|]. split; [auto|].
      exists (fun k => match memo_find memo k with Some v => v | None => 0 end). split; [intros ? []|].
      split; [|split; [intros k v ->; auto|auto]].
      intros x y [[]|[v Ev]] [[]|[w Ew]] E. rewrite Ev, Ew in E. subst w. destruct M as [_ I]. eauto.
    - assert (Ga : a < n0) by (eapply G; left; eauto). assert (Gt : grounded n0 t) by (intros f b X; eapply G; right; eauto).
      destruct (memo_find memo a) as [b|] eqn:E.
      + destruct (deepcopy h memo t) as [h1 c1] eqn:D. simpl in H. injection H as <- <-.
        destruct (IH _ _ _ _ Hn Gt M D) as (L & Old & Mf & f & F1 & F2 & F3 & F4).
        split; auto. split; auto. split; [simpl; f_equal; auto|]. exists f. split.
        * intros x [<-|X]; auto. simpl. rewrite (F3 _ _ E). destruct M as [M _]. destruct (M _ _ E) as (_ & B & C). split; [lia|].
          rewrite !Old by lia. auto.
        * split; [|split; auto; simpl; rewrite (F3 _ _ E), F4; auto].
          intros x y X Y. apply F2; [destruct X as [[<-|X]|X]; eauto|destruct Y as [[<-|Y]|Y]; eauto].
      + destruct (nth_error h a) as [v|] eqn:V; [|apply nth_error_None in V; lia].
        destruct (deepcopy (h ++ [v]) ((a, length h) :: memo) t) as [h1 c1] eqn:D. simpl in H. injection H as <- <-.
        assert (Ln : length (h ++ [v]) = S (length h)) by (rewrite app_length; simpl; lia).
        assert (M' : memo_ok n0 (h ++ [v]) ((a, length h) :: memo)).
        { destruct M as [M1 M2]. split.
          - intros k w X. simpl in X. destruct (Nat.eqb_spec a k) as [<-|Nk].
            + injection X as <-. rewrite Ln. repeat split; try lia. rewrite nth_error_app2 by lia. rewrite Nat.sub_diag. simpl.
              rewrite nth_error_app1 by lia. auto.
            + destruct (M1 _ _ X) as (A & B & C). rewrite Ln. repeat split; try lia. rewrite !nth_error_app1 by lia. auto.
          - intros k k' w X Y. simpl in X, Y. destruct (Nat.eqb_spec a k) as [<-|Nk], (Nat.eqb_spec a k') as [<-|Nk']; auto.
            + injection X as <-. destruct (M1 _ _ Y). lia.
            + injection Y as <-. destruct (M1 _ _ X). lia.
            + eauto. }
        assert (Hn' : n0 <= length (h ++ [v])) by lia.
        destruct (IH _ _ _ _ Hn' Gt M' D) as (L & Old & Mf & f & F1 & F2 & F3 & F4). rewrite Ln in L, Old.
        assert (Fa : f a = length h) by (apply F3; simpl; rewrite Nat.eqb_refl; auto).
        split; [lia|]. split; [intros x X; rewrite Old by lia; apply nth_error_app1; auto|]. split; [simpl; f_equal; auto|].
        exists f. split.
        * intros x [<-|X]; auto. simpl. rewrite Fa. split; [lia|]. rewrite !Old by lia. rewrite nth_error_app2, Nat.sub_diag by lia. simpl.
          rewrite nth_error_app1 by lia. auto.
        * assert (W : forall x, In x (map snd ((n, a) :: t)) \/ (exists w, memo_find memo x = Some w) ->
                        In x (map snd t) \/ exists w, memo_find ((a, length h) :: memo) x = Some w).
          { intros x [[<-|X]|[w X]]; [right; simpl; rewrite Nat.eqb_refl; eauto|auto|].
            right. simpl. destruct (Nat.eqb_spec a x); eauto. }
          split; [intros x y X Y; apply F2; auto|]. split; [|simpl; rewrite Fa, F4; auto].
          intros k w X. apply F3. simpl. destruct (Nat.eqb_spec a k) as [<-|]; [congruence|auto].
  Qed.
  (** The copy handed to a stage: fresh objects with the same contents, shared exactly as the originals. *)
  Lemma copies h i h' c : grounded (length h) i -> deepcopy h [] i = (h', c) ->
    length h <= length h' /\ (forall a, a < length h -> nth_error h' a = nth_error h a) /\
    exists f, c = map (fun fa => (fst fa, f (snd fa))) i /\
      (forall a, In a (map snd i) -> length h <= f a < length h' /\ nth_error h' (f a) = nth_error h a) /\
      (forall a b, In a (map snd i) -> In b (map snd i) -> f a = f b -> a = b).
  Proof.
    intros G D. assert (M : memo_ok (length h) h []) by (split; simpl; discriminate).
    destruct (copy_spec (le_n _) G M D) as (L & Old & _ & f & F1 & F2 & _ & F4).
    split; auto. split; auto. exists f. split; auto. split.
    - intros a Ha. destruct (F1 a Ha) as [B E]. split; auto. rewrite E. apply Old. apply in_map_iff in Ha. destruct Ha as ([n x] & <- & X). eapply G; eauto.
    - intros a b Ha Hb. apply F2; auto.
  Qed.

  (** the objects a stage is given exist in the store it is given *)
  Lemma copied_bound h i h' c : grounded (length h) i -> deepcopy h [] i = (h', c) -> forall n a, In (n, a) c -> length h <= a < length h'.
  Proof.
    intros G D n a H. destruct (@copies _ _ _ _ G D) as (_ & _ & f & -> & F & _). apply in_map_iff in H. destruct H as ([n' x] & X & I).
    injection X as <- <-. simpl. apply F. apply in_map_iff. exists (n', x). auto.
  Qed.

  Variable fields outputs : sid -> list string.
  Variable body : sid -> store O -> dict nat -> store O * option (dict nat).
  Hypothesis honest : confined outputs body.
  Notation run_stage := (run_stage fields body).

  (** A call of run_stage, whether it returns or raises, changes no object that existed before. *)
  Theorem C98_existing_objects_never_change :
    forall st s args st' r, sound st -> grounded (length (objs st)) args -> run_stage st s args = (st', r) ->
      length (objs st) <= length (objs st') /\
      forall a, a < length (objs st) -> nth_error (objs st') a = nth_error (objs st) a.
  Proof.
    intros st s args st' r S G H. unfold ObjectModel.run_stage in H.
    destruct (bind (dupdate (ObjectModel.bound st) args) (fields s)) as [i|] eqn:B; [|injection H as <- <-; auto].
    assert (Gi : grounded (length (objs st)) i).
    { intros f a Hf. destruct (bind_in _ _ B) as [_ X]. destruct (X _ _ Hf) as [X1 _]. exact (@grounded_update _ _ _ S G _ _ X1). }
    destruct (deepcopy (objs st) [] i) as [h c] eqn:D. destruct (body s h c) as [h' o] eqn:Bo.
    destruct (@copies _ _ _ _ Gi D) as (L & Old & f & -> & F & _). destruct (honest Bo) as (L' & Keep & _).
    assert (E : objs st' = h') by (destruct o; injection H as <- _; auto). rewrite E. split; [lia|].
    intros a Ha. rewrite Keep; [apply Old; auto|lia|]. intro X. rewrite map_map in X. apply in_map_iff in X. destruct X as ([n x] & <- & X). simpl in Ha.
    destruct (F x) as [Y _]; [apply in_map_iff; exists (n, x); auto|lia].
  Qed.
  Lemma run_sound st s args st' r : sound st -> grounded (length (objs st)) args -> run_stage st s args = (st', r) -> sound st'.
  Proof.
    intros S G H. pose proof (C98_existing_objects_never_change _ S G H) as [L _]. unfold ObjectModel.run_stage in H.
    destruct (bind (dupdate (ObjectModel.bound st) args) (fields s)) as [i|] eqn:B; [|injection H as <- <-; auto].
    assert (Gi : grounded (length (objs st)) i).
    { intros f a Hf. destruct (bind_in _ _ B) as [_ X]. destruct (X _ _ Hf) as [X1 _]. exact (@grounded_update _ _ _ S G _ _ X1). }
    destruct (deepcopy (objs st) [] i) as [h c] eqn:D. destruct (body s h c) as [h' o] eqn:Bo. destruct (honest Bo) as (L' & _ & Ret).
    destruct o as [out|]; injection H as <- <-; unfold sound; simpl in *; [|intros n a X; specialize (S n a X); lia].
    apply grounded_update; [intros n a X; specialize (S n a X); lia|]. intros n a X.
    destruct (Ret out eq_refl) as [_ R]. destruct (R n a X) as [Y|Y]; [|lia].
    apply in_map_iff in Y. destruct Y as ([m b] & <- & Y). pose proof (@copied_bound _ _ _ _ Gi D _ _ Y). simpl. lia.
  Qed.
  (** So the values available afterwards are those before, except that the stage's outputs, if it returns,
      are bound to new objects; if it raises, nothing is changed. *)
  Theorem C98_only_outputs_change :
    forall st s args st' r, sound st -> grounded (length (objs st)) args -> run_stage st s args = (st', r) ->
      (forall n, r = false \/ ~ In n (outputs s) -> content st' n = content st n) /\
      (r = true -> forall n, In n (outputs s) -> exists a, dget (bound st') n = Some a /\ length (objs st) <= a).
  Proof.
    intros st s args st' r S G H. pose proof (C98_existing_objects_never_change _ S G H) as [L Old]. unfold ObjectModel.run_stage in H.
    assert (Same : forall n, dget (ObjectModel.bound st') n = dget (ObjectModel.bound st) n -> content st' n = content st n).
    { intros n E. unfold content. rewrite E. destruct (dget (ObjectModel.bound st) n) as [a|] eqn:X; auto. apply Old. eapply S. apply dget_in. eauto. }
    destruct (bind (dupdate (ObjectModel.bound st) args) (fields s)) as [i|] eqn:B; [|injection H as <- <-; split; [auto|discriminate]].
    assert (Gi : grounded (length (objs st)) i).
    { intros f a Hf. destruct (bind_in _ _ B) as [_ X]. destruct (X _ _ Hf) as [X1 _]. exact (@grounded_update _ _ _ S G _ _ X1). }
    destruct (deepcopy (objs st) [] i) as [h c] eqn:D. destruct (body s h c) as [h' o] eqn:Bo. destruct (honest Bo) as (L' & _ & Ret).
    destruct o as [out|]; injection H as <- <-; [|split; [intros; apply Same; auto|discriminate]].
    destruct (Ret out eq_refl) as [N R]. split.
    - intros n [X|X]; [discriminate|]. apply Same. simpl. rewrite dget_dupdate.
      assert (Gn : given out n = None).
      { rewrite <- N in X. clear -X. induction out as [|[k v] t IH]; simpl in *; auto. rewrite IH by tauto.
        destruct (String.eqb_spec k n); [tauto|auto]. }
      rewrite Gn. auto.
    - intros _ n Hn. simpl. rewrite dget_dupdate. rewrite <- N in Hn.
      assert (X : exists a, given out n = Some a /\ In (n, a) out).
      { clear -Hn. induction out as [|[k v] t IH]; simpl in *; [contradiction|].
        destruct (given t n) as [w|] eqn:E.
        - destruct (in_dec string_dec n (map fst t)) as [I|I]; [destruct (IH I) as (a & Ea & Ia); injection Ea as ->; eauto|].
          exfalso. clear -E I. induction t as [|[k v] t IH]; simpl in *; [discriminate|].
          destruct (given t n) eqn:E2; [apply IH; auto; tauto|]. destruct (String.eqb_spec k n); [tauto|discriminate].
        - destruct (String.eqb_spec k n) as [->|Nk]; [eauto|]. destruct Hn as [->|Hn]; [congruence|]. destruct (IH Hn) as (a & Ea & _). discriminate. }
      destruct X as (a & -> & Ia). exists a. split; auto. destruct (@copies _ _ _ _ Gi D) as (L2 & _). destruct (R n a Ia) as [Y|Y]; [|lia].
      apply in_map_iff in Y. destruct Y as ([m b] & <- & Y). pose proof (@copied_bound _ _ _ _ Gi D _ _ Y). simpl. lia.
  Qed.
  (** Through any number of calls: what a caller holds (the metadata it gave, an output it was returned) stays
      as it is. *)
  Theorem C98_through_any_history :
    forall calls st, sound st -> (forall c, In c calls -> grounded (length (objs st)) (snd c)) ->
      forall a, a < length (objs st) -> nth_error (objs (run_stages fields body st calls)) a = nth_error (objs st) a.
  Proof.
    induction calls as [|[s args] t IH]; intros st S G a Ha; auto. unfold run_stages in *. simpl.
    destruct (run_stage st s args) as [st' r] eqn:E. simpl.
    assert (Ga : grounded (length (objs st)) args) by exact (G (s, args) (or_introl eq_refl)).
    destruct (C98_existing_objects_never_change _ S Ga E) as [L Old].
    rewrite IH; [auto|eapply run_sound; eauto| |lia]. intros c Hc n b X. specialize (G c (or_intror Hc) n b X). lia.
  Qed.
  (** The stage itself sees fresh objects with the contents of the originals; two of its inputs are one object
      iff they are one object in the runner. *)
  Theorem C98_what_the_stage_sees :
    forall st s args i h c, sound st -> grounded (length (objs st)) args ->
      bind (dupdate (bound st) args) (fields s) = Some i -> deepcopy (objs st) [] i = (h, c) ->
      map fst c = fields s /\
      forall n a, dget (dupdate (bound st) args) n = Some a -> In n (fields s) ->
        exists b, In (n, b) c /\ length (objs st) <= b /\ nth_error h b = nth_error (objs st) a /\
          forall n' a' b', dget (dupdate (bound st) args) n' = Some a' -> In n' (fields s) -> In (n', b') c -> (b = b' <-> a = a').
  Proof.
    intros st s args i h c S G B D. destruct (bind_in _ _ B) as [M I].
    assert (Gi : grounded (length (objs st)) i) by (intros f a Hf; destruct (I _ _ Hf) as [X1 _]; exact (@grounded_update _ _ _ S G _ _ X1)).
    destruct (@copies _ _ _ _ Gi D) as (L & Old & f & -> & F & Inj). rewrite map_map. simpl.
    split; [rewrite <- M; apply map_ext; intros []; auto|].
    assert (At : forall n a, dget (dupdate (ObjectModel.bound st) args) n = Some a -> In n (fields s) -> In (n, a) i).
    { intros n a E Hn. rewrite <- M in Hn. apply in_map_iff in Hn. destruct Hn as ([n' a'] & <- & X). destruct (I _ _ X) as [_ Y]. simpl in *. congruence. }
    intros n a E Hn. pose proof (At n a E Hn) as X. exists (f a).
    assert (Xa : In a (map snd i)) by (apply in_map_iff; exists (n, a); auto). destruct (F a Xa) as [B1 B2].
    split; [apply in_map_iff; exists (n, a); auto|]. split; [lia|]. split; auto.
    intros n' a' b' E' Hn' Hb'. apply in_map_iff in Hb'. destruct Hb' as ([n2 a2] & Eq & X2). injection Eq as <- <-.
    destruct (I _ _ X2) as [_ Y2]. simpl in *. rewrite E' in Y2. injection Y2 as <-.
    split; [|congruence]. intro Z. apply Inj; auto. apply in_map_iff. exists (n2, a'). auto.
  Qed.
End Copies.

(* ------------------------------------------------------------------ PRELIM and PYTHIA *)
(** PRELIM as far as it touches the raw performances: prelim.py:631-632 and 655-656 write into the array bound
    to y; 846-855 select the instances of y_raw.  Stage number 1, of which only the output y_raw is kept. *)
Notation matrix := (list (list num)).
Definition prelim_body (o : popts) (mask : list bool) (s : sid) (h : store matrix) (args : dict nat) : store matrix * option (dict nat) :=
  match dget args "y", dget args "y_raw" with
  | Some a, Some b =>
      let h1 := upd a (map (fun row => r_y_inplace (prelim_row o row))) h in
      (h1 ++ [select mask (nth b h1 [])], Some [("y_raw"%string, length h1)])
  | _, _ => (h, None)
  end.
Definition prelim_fields (s : sid) : list string := ["y"; "y_raw"]%string.
Definition prelim_outputs (s : sid) : list string := ["y_raw"]%string.
Lemma nth_error_upd_other {A} (f : A -> A) : forall l i j, i <> j -> nth_error (upd i f l) j = nth_error l j.
Proof. induction l as [|x l IH]; intros [|i] [|j] H; simpl; auto; congruence. Qed.
Lemma prelim_confined o mask : confined prelim_outputs (prelim_body o mask).
Proof.
  intros s h args h' r H. unfold prelim_body in H.
  destruct (dget args "y") as [a|] eqn:Ea; [|injection H as <- <-; repeat split; auto; discriminate].
  destruct (dget args "y_raw") as [b|]; [|injection H as <- <-; repeat split; auto; discriminate].
  injection H as <- <-. rewrite app_length, upd_length. simpl. unfold store in *. split; [lia|]. split.
  - intros x Hx N. rewrite nth_error_app1 by (rewrite upd_length; auto). apply nth_error_upd_other. intros <-. apply N.
    apply in_map_iff. exists ("y"%string, a). split; auto. apply dget_in. auto.
  - intros out X. injection X as <-. split; auto. intros n x [X|[]]. injection X as <- <-. right. lia.
Qed.
(** PREPROCESSING returns one array as y and y_raw (preprocessing.py:179-188).  So in a pipeline PRELIM's
    replacement of zeros reaches the raw performances: in relative mode the raw performances it hands on have
    machine epsilon for every zero.  Were they different arrays, the raw performances would be kept. *)
Theorem C98_raw_zeros_become_epsilon :
  forall o mask (st : ostate matrix) a b y y_raw, sound st ->
    dget (bound st) "y" = Some a -> dget (bound st) "y_raw" = Some b ->
    nth_error (objs st) a = Some y -> nth_error (objs st) b = Some y_raw ->
    content (fst (run_stage prelim_fields (prelim_body o mask) st 1 [])) "y_raw" =
      Some (select mask (if Nat.eqb a b then map (fun row => r_y_inplace (prelim_row o row)) y_raw else y_raw)).
Proof.
  intros o mask [h d] a b y y_raw S Ea Eb Ya Yb. simpl in *. unfold ObjectModel.run_stage. simpl.
  change (dupdate d []) with d. rewrite Ea, Eb. cbn [deepcopy memo_find]. rewrite Ya.
  assert (La : a < length h) by (apply nth_error_Some; congruence). assert (Lb : b < length h) by (apply nth_error_Some; congruence).
  simpl. destruct (Nat.eqb_spec a b) as [<-|N].
  - unfold prelim_body. simpl. unfold content. simpl. rewrite dget_dset, String.eqb_refl.
    rewrite nth_error_app2, Nat.sub_diag by lia. simpl. f_equal. f_equal.
    rewrite Ya in Yb. injection Yb as ->. 
    rewrite (nth_error_nth (upd (length h) _ (h ++ [y_raw])) (length h) (x := map (fun row => r_y_inplace (prelim_row o row)) y_raw)); auto.
    clear. induction h as [|x h IH]; simpl; auto.
  - rewrite nth_error_app1 by auto. rewrite Yb. unfold prelim_body. simpl. unfold content. simpl. rewrite dget_dset, String.eqb_refl.
    rewrite nth_error_app2, Nat.sub_diag by lia. simpl. f_equal. f_equal.
    apply nth_error_nth. rewrite nth_error_upd_other by (rewrite app_length; simpl; lia).
    rewrite nth_error_app2, Nat.sub_diag by lia. auto.
Qed.

(** PYTHIA as far as it touches y_raw: the array it is given holds [o_y] of its result afterwards
    (C81).  Stage number 4; its outputs are left out. *)
Definition pythia_body (run : matrix -> res PythiaModel.pyerr PythiaModel.pythia_out) (s : sid) (h : store matrix) (args : dict nat)
  : store matrix * option (dict nat) :=
  match dget args "y_raw" with
  | Some a => match run (nth a h []) with
              | Ok out => (upd a (fun _ => PythiaModel.o_y out) h, Some [])
              | Err _ => (h, None)
              end
  | None => (h, None)
  end.
Lemma pythia_confined run : confined (fun _ => []) (pythia_body run).
Proof.
  intros s h args h' r H. unfold pythia_body in H.
  destruct (dget args "y_raw") as [a|] eqn:Ea; [|injection H as <- <-; repeat split; auto; discriminate].
  destruct (run (nth a h [])) as [out|e]; injection H as <- <-; [|repeat split; auto; discriminate].
  rewrite upd_length. split; [lia|]. split.
  - intros x Hx N. apply nth_error_upd_other. intros <-. apply N. apply in_map_iff. exists ("y_raw"%string, a). split; auto. apply dget_in. auto.
  - intros o X. injection X as <-. split; auto. intros n x [].
Qed.
(** PYTHIA overwrites its copy; the raw performances of the model are not affected. *)
Theorem C98_pythia_leaves_the_raw_performances :
  forall run (st : ostate matrix), sound st ->
    content (fst (run_stage (fun _ => ["y_raw"]%string) (pythia_body run) st 4 [])) "y_raw" = content st "y_raw".
Proof.
  intros run st S. destruct (ObjectModel.run_stage (fun _ => ["y_raw"]%string) (pythia_body run) st 4 []) as [st' r] eqn:E. simpl.
  assert (G : grounded (length (objs st)) []) by (intros ? ? []).
  exact (proj1 (C98_only_outputs_change _ (@pythia_confined run) _ S G E) "y_raw"%string (or_intror (fun H => H))).
Qed.

(** One array as y and y_raw, with a zero: PRELIM changes its copy, and hands on the changed one. *)
Definition ex_o : popts := {| max_perf := true; abs_perf := false; epsilon := 1 # 10; beta_threshold := 1 # 2; PrelimModel.bound := false; norm := false |}.
Definition ex_st : ostate matrix := {| objs := [[[Some 0%Q; Some 5%Q]]]; ObjectModel.bound := [("y", 0); ("y_raw", 0)]%string |}.
Example C98_applies : sound ex_st /\
  content (fst (run_stage prelim_fields (prelim_body ex_o [true]) ex_st 1 [])) "y_raw" = Some [[Some eps; Some 5%Q]] /\
  content (fst (run_stage prelim_fields (prelim_body ex_o [true]) ex_st 1 [])) "y" = Some [[Some 0%Q; Some 5%Q]].
Proof. split; [|split; vm_compute; reflexivity]. intros f a [H|[H|[]]]; injection H as <- <-; simpl; lia. Qed.
(** PYTHIA's copy is really overwritten in a run that returns. *)
Definition py_st : ostate matrix := {| objs := [PythiaProps.ex_y]; ObjectModel.bound := [("y_raw", 0)]%string |}.
Example C98_pythia_applies : exists out, PythiaProps.ex_run = Ok out /\
  snd (run_stage (fun _ => ["y_raw"]%string) (pythia_body (fun _ => PythiaProps.ex_run)) py_st 4 []) = true /\
  objs (fst (run_stage (fun _ => ["y_raw"]%string) (pythia_body (fun _ => PythiaProps.ex_run)) py_st 4 [])) = [PythiaProps.ex_y; PythiaModel.o_y out] /\
  PythiaModel.o_y out <> PythiaProps.ex_y.
Proof. eexists. split; [vm_compute; reflexivity|]. split; [reflexivity|]. split; [reflexivity|]. discriminate. Qed.

Print Assumptions C98_existing_objects_never_change.
Print Assumptions C98_only_outputs_change.
Print Assumptions C98_through_any_history.
Print Assumptions C98_what_the_stage_sees.
Print Assumptions C98_raw_zeros_become_epsilon.
Print Assumptions C98_pythia_leaves_the_raw_performances.
