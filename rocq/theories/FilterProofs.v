(** Lemmas for FilterProps.v. *)
From Verif Require Import Base BaseLemmas Num FilterModel FilterSpec.
From Coq Require Import Lqa.
Set Implicit Arguments.

Lemma upd_length A i f (l : list A) : length (upd i f l) = length l.
Proof. revert i. induction l as [|x t IH]; intros [|i]; simpl; auto. Qed.
Lemma upd_same A i f (l : list A) d : i < length l -> nth i (upd i f l) d = f (nth i l d).
Proof. revert i. induction l as [|x t IH]; intros [|i] H; simpl in *; auto; try lia. apply IH. lia. Qed.
Lemma upd_other A i j f (l : list A) d : i <> j -> nth j (upd i f l) d = nth j l d.
Proof. revert i j. induction l as [|x t IH]; intros [|i] [|j] H; simpl; auto; try lia. Qed.

(* ------------------------------------------------------------------ distances *)
Lemma sqdist_fold l acc :
  fold_left (fun acc p => nadd acc (nmul (nsub (fst p) (snd p)) (nsub (fst p) (snd p)))) l None = None
  /\ (forall u v, l = combine (map Some u) (map Some v) -> exists q,
      fold_left (fun acc p => nadd acc (nmul (nsub (fst p) (snd p)) (nsub (fst p) (snd p)))) l (Some acc)
      = Some q /\ (q == acc + sq_euclid u v)%Q).
Proof.
  split.
  - induction l; simpl; auto.
  - revert acc. induction l as [|p l IH]; intros acc u v E.
    + exists acc. split; auto. destruct u as [|a u], v as [|b v]; simpl in *; try discriminate; ring.
    + destruct u as [|a u], v as [|b v]; simpl in E; try discriminate. injection E as -> E.
      simpl. destruct (IH (acc + (a - b) * (a - b))%Q u v E) as (q & H1 & H2).
      exists q. split; auto. rewrite H2. ring.
Qed.

Lemma sqdist_nan u v : length u = length v ->
  (exists u' v', u = map Some u' /\ v = map Some v') \/ sqdist u v = None.
Proof.
  intro E. unfold sqdist. generalize 0%Q.
  revert v E. induction u as [|a u IH]; intros [|b v] E q; simpl in E; try discriminate.
  - left. exists [], []. auto.
  - injection E as E. simpl. destruct a as [a|], b as [b|]; simpl.
    + destruct (IH v E (q + (a - b) * (a - b))%Q) as [(u' & v' & -> & ->)|H]; auto.
      left. exists (a :: u'), (b :: v'). auto.
    + right. apply (sqdist_fold (combine u v) 0%Q).
    + right. apply (sqdist_fold (combine u v) 0%Q).
    + right. apply (sqdist_fold (combine u v) 0%Q).
Qed.

Lemma map_Some_inj (u v : list Q) : map Some u = map Some v -> u = v.
Proof.
  revert v. induction u; intros [|b v] H; simpl in H; try discriminate; auto.
  injection H as -> H. f_equal. auto.
Qed.

Lemma close_iff s r u v : length u = length v ->
  (Qle_bool 0 r && nle (sqdist u v) (Some (s * (r * r))%Q) = true <-> apart_at_most s r u v).
Proof.
  intro E. unfold apart_at_most. rewrite andb_true_iff, Qle_bool_iff.
  destruct (sqdist_nan u v E) as [(u' & v' & -> & ->)|N].
  - destruct (proj2 (sqdist_fold (combine (map Some u') (map Some v')) 0%Q) u' v' eq_refl) as (q & H1 & H2).
    assert (H1' : sqdist (map Some u') (map Some v') = Some q) by exact H1.
    rewrite H1'. simpl. rewrite Qle_bool_iff, H2. split.
    + intros [A B]. exists u', v'. repeat split; auto. lra.
    + intros (u2 & v2 & E1 & E2 & A & B). apply map_Some_inj in E1. apply map_Some_inj in E2. subst.
      split; auto. lra.
  - rewrite N. simpl. split; [intros [_ H]; discriminate|].
    intros (u' & v' & -> & -> & _).
    destruct (proj2 (sqdist_fold (combine (map Some u') (map Some v')) 0%Q) u' v' eq_refl) as (q & H1 & _).
    assert (H1' : sqdist (map Some u') (map Some v') = Some q) by exact H1. congruence.
Qed.

Section P.
  Variables x y : list (list num).
  Variable y_bin : list (list bool).
  Variables n_feats n_algos : nat.
  Variable r : Q.
  Variable t : ftype.
  Notation n := (length y).
  Notation close_x := (close_x x r).
  Notation mark := (mark y y_bin n_feats n_algos r t).
  Notation inner := (inner x y y_bin n_feats n_algos r t).
  Notation outer := (outer x y y_bin n_feats n_algos r t n).

  (** the boolean form of [alike] *)
  Definition alike_b (i j : nat) : bool :=
    match t with
    | Ftr => true
    | FtrAP => close_y y n_feats n_algos r i j
    | FtrGood => both_good y_bin i j
    | FtrAPGood => both_good y_bin i j && close_y y n_feats n_algos r i j
    end.

  Lemma get_upd st j f k : length st = n -> j < n ->
    get (upd j f st) k = if Nat.eqb k j then f (get st j) else get st k.
  Proof.
    intros L Hj. unfold get. destruct (Nat.eqb_spec k j) as [->|N].
    - rewrite upd_same; auto. lia.
    - rewrite upd_other; auto.
  Qed.

  (** the effect of the whole inner loop on one index *)
  Definition eff (i j : nat) (f : flags) : flags :=
    if excl f then f else if close_x i j then mark i j f else f.

  Lemma inner_fold i js : forall st, length st = n -> NoDup js -> (forall j, In j js -> j < n) ->
    length (fold_left (inner i) js st) = n /\
    forall k, get (fold_left (inner i) js st) k = if in_dec Nat.eq_dec k js then eff i k (get st k) else get st k.
  Proof.
    induction js as [|j js IH]; intros st L ND B; simpl.
    - split; auto.
    - inversion ND as [|? ? N1 N2]; subst.
      assert (Hj : j < n) by (apply B; left; auto).
      assert (L2 : length (inner i st j) = n).
      { unfold FilterModel.inner. destruct (excl _); auto. destruct (close_x i j); auto.
        rewrite upd_length. auto. }
      assert (G : forall k, get (inner i st j) k = if Nat.eqb k j then eff i j (get st j) else get st k).
      { intro k. unfold FilterModel.inner, eff. destruct (excl (get st j)) eqn:E1.
        - destruct (Nat.eqb_spec k j) as [->|]; auto.
        - destruct (close_x i j) eqn:E2; [apply get_upd; auto|].
          destruct (Nat.eqb_spec k j) as [->|]; auto. }
      destruct (IH _ L2 N2 (fun k H => B k (or_intror H))) as [IH1 IH2]. split; auto.
      intro k. rewrite IH2, G. destruct (Nat.eqb_spec k j) as [->|Nk].
      + destruct (in_dec Nat.eq_dec j js); [contradiction|].
        destruct (Nat.eq_dec j j); [auto|congruence].
      + destruct (Nat.eq_dec j k); [congruence|].
        destruct (in_dec Nat.eq_dec k js); auto.
  Qed.

  Lemma outer_get st i k : length st = n -> i < n -> k < n ->
    get (outer st i) k = if excl (get st i) then get st k
                         else if Nat.ltb i k then eff i k (get st k) else get st k.
  Proof.
    intros L Hi Hk. unfold FilterModel.outer. destruct (excl (get st i)); auto.
    destruct (@inner_fold i (seq (S i) (n - S i)) st L (seq_NoDup _ _)) as [_ H].
    { intros j Hj. apply in_seq in Hj. lia. }
    rewrite H. destruct (in_dec Nat.eq_dec k (seq (S i) (n - S i))) as [H1|H1].
    - apply in_seq in H1. destruct (Nat.ltb_spec i k); auto. lia.
    - rewrite in_seq in H1. destruct (Nat.ltb_spec i k); auto. lia.
  Qed.
  Lemma outer_length st i : length st = n -> length (outer st i) = n.
  Proof.
    intro L. unfold FilterModel.outer. destruct (excl (get st i)); auto.
    apply inner_fold; auto; [apply seq_NoDup|]. intros j Hj. apply in_seq in Hj. lia.
  Qed.

  (** what the flags of instance k are once rows 0..m-1 have been handled *)
  Definition kept_before (st : list flags) (m : nat) (k : nat) (c : nat -> nat -> bool) : bool :=
    existsb (fun a => negb (excl (get st a)) && c a k) (seq 0 (min m k)).
  Definition Inv (m : nat) (st : list flags) : Prop :=
    length st = n /\
    forall k, k < n ->
      excl (get st k) = kept_before st m k (fun a k => close_x a k && alike_b a k) /\
      dis (get st k) = negb (kept_before st m k close_x) /\
      visa (get st k) = negb (excl (get st k)) && kept_before st m k close_x.

  Lemma inv_start : Inv 0 (repeat {| excl := false; dis := true; visa := false |} n).
  Proof.
    split; [apply repeat_length|]. intros k Hk. unfold kept_before. simpl.
    unfold get. rewrite nth_repeat. auto.
  Qed.

  Lemma existsb_ext_in A (f g : A -> bool) l : (forall a, In a l -> f a = g a) -> existsb f l = existsb g l.
  Proof. induction l as [|a l IH]; simpl; intro H; auto. rewrite H, IH; auto. Qed.

  Lemma inv_step m st : m < n -> Inv m st -> Inv (S m) (outer st m).
  Proof.
    intros Hm [L I]. split; [apply outer_length; auto|].
    assert (low : forall k, k <= m -> get (outer st m) k = get st k).
    { intros k Hk. rewrite outer_get by lia. destruct (excl (get st m)); auto.
      destruct (Nat.ltb_spec m k); auto. lia. }
    assert (KB : forall k c, k < n -> kept_before (outer st m) (S m) k c =
              kept_before st m k c || (Nat.ltb m k && negb (excl (get st m)) && c m k)).
    { intros k c Hk. unfold kept_before. destruct (Nat.ltb_spec m k) as [H|H].
      - replace (min (S m) k) with (S m) by lia. replace (min m k) with m by lia.
        rewrite seq_S, existsb_app. simpl. rewrite orb_false_r. f_equal.
        + apply existsb_ext_in. intros a Ha. apply in_seq in Ha. rewrite low by lia. auto.
        + rewrite low by lia. auto.
      - replace (min (S m) k) with k by lia. replace (min m k) with k by lia.
        simpl. rewrite orb_false_r. apply existsb_ext_in. intros a Ha. apply in_seq in Ha.
        rewrite low by lia. auto. }
    intros k Hk. rewrite !KB by auto. destruct (I k Hk) as (I1 & I2 & I3).
    rewrite outer_get by lia. destruct (excl (get st m)) eqn:Em.
    - rewrite andb_false_r, !andb_false_l, !orb_false_r. auto.
    - destruct (Nat.ltb_spec m k) as [H|H].
      2:{ simpl. rewrite !orb_false_r. auto. }
      simpl. unfold eff. destruct (excl (get st k)) eqn:Ek.
      + rewrite Ek, <- I1. simpl. split; auto.
        assert (Hx : kept_before st m k close_x = true).
        { symmetry in I1. unfold kept_before in *. apply existsb_exists in I1. apply existsb_exists.
          destruct I1 as (a & Ha & E). exists a. split; auto.
          apply andb_true_iff in E. destruct E as [E1 E2]. apply andb_true_iff in E2. destruct E2 as [E2 _].
          rewrite E1, E2. auto. }
        rewrite Hx in *. simpl in *. auto.
      + rewrite <- I1. simpl.
        destruct (close_x m k) eqn:Ec; simpl.
        2:{ rewrite !orb_false_r, Ek. simpl. rewrite I2, I3. auto. }
        rewrite orb_true_r. simpl. unfold FilterModel.mark, alike_b. destruct t eqn:Et; simpl.
        * repeat split; auto. rewrite I3. simpl.
          destruct (kept_before st m k close_x) eqn:X; auto.
          (* a close kept row would have excluded k under Ftr *)
          unfold kept_before in X, I1. apply existsb_exists in X. destruct X as (a & Ha & Xa).
          symmetry in I1. rewrite existsb_false_iff in I1. specialize (I1 a Ha).
          unfold alike_b in I1. rewrite Et, andb_true_r in I1. congruence.
        * destruct (close_y _ _ _ _ _ _); simpl; auto.
        * destruct (both_good _ _ _); simpl; auto.
        * destruct (both_good _ _ _); simpl; [destruct (close_y _ _ _ _ _ _); simpl; auto|].
          rewrite Ek. auto.
  Qed.

  Lemma inv_all m : m <= n ->
    Inv m (fold_left outer (seq 0 m) (repeat {| excl := false; dis := true; visa := false |} n)).
  Proof.
    induction m as [|m IH]; intro H; [apply inv_start|].
    rewrite seq_S, fold_left_app. simpl. apply inv_step; [lia|]. apply IH. lia.
  Qed.

  Definition final : list flags :=
    fold_left outer (seq 0 n) (repeat {| excl := false; dis := true; visa := false |} n).

  Hypothesis M : matrices x y y_bin n_feats n_algos.

  Lemma row_len A (m : list (list A)) w i : Forall (fun row => length row = w) m -> i < length m ->
    length (nth i m []) = w.
  Proof. intros F H. rewrite Forall_forall in F. apply F. apply nth_In. auto. Qed.

  Lemma close_x_iff i j : i < n -> j < n -> (close_x i j = true <-> near x r i j).
  Proof.
    intros Hi Hj. destruct M as (M1 & M2 & M3 & M4 & M5). unfold FilterModel.close_x, near.
    rewrite <- close_iff.
    - rewrite !andb_true_iff. unfold nle. destruct (sqdist _ _); [|tauto].
      rewrite !Qle_bool_iff. split; intros [A B]; split; auto; lra.
    - rewrite !(row_len M3); auto; lia.
  Qed.
  Lemma close_y_iff i j : i < n -> j < n ->
    (close_y y n_feats n_algos r i j = true <-> near_perf y n_feats n_algos r i j).
  Proof.
    intros Hi Hj. destruct M as (M1 & M2 & M3 & M4 & M5). unfold FilterModel.close_y, near_perf.
    apply close_iff. rewrite !(row_len M4); auto.
  Qed.

  Lemma both_rows (u v : list bool) : length u = length v ->
    (forallb (fun p => fst p && snd p) (combine u v) = true <->
     (forall a, a < length u -> nth a u false = true) /\ (forall a, a < length u -> nth a v false = true)).
  Proof.
    revert v. induction u as [|a u IH]; intros [|b v] E; simpl in *; try discriminate.
    - split; [|auto]. intros _. split; intros; lia.
    - injection E as E. rewrite !andb_true_iff, (IH v E). split.
      + intros ((-> & ->) & H1 & H2). split; intros [|k] Hk; auto; [apply H1|apply H2]; lia.
      + intros (H1 & H2). pose proof (H1 0 ltac:(lia)). pose proof (H2 0 ltac:(lia)). simpl in *.
        split; auto. split; intros k Hk; [apply (H1 (S k))|apply (H2 (S k))]; lia.
  Qed.
  Lemma both_good_iff i j : i < n -> j < n ->
    (both_good y_bin i j = true <-> all_good y_bin n_algos i /\ all_good y_bin n_algos j).
  Proof.
    intros Hi Hj. destruct M as (M1 & M2 & M3 & M4 & M5). unfold both_good, all_good.
    assert (Li := row_len (i:=i) M5 ltac:(lia)). assert (Lj := row_len (i:=j) M5 ltac:(lia)).
    rewrite both_rows by congruence. rewrite Li. tauto.
  Qed.
  Lemma alike_iff i j : i < n -> j < n ->
    (alike_b i j = true <-> alike y y_bin n_feats n_algos r t i j).
  Proof.
    intros Hi Hj. unfold alike_b, alike. destruct t.
    - tauto.
    - apply close_y_iff; auto.
    - apply both_good_iff; auto.
    - rewrite andb_true_iff, both_good_iff, close_y_iff by auto. tauto.
  Qed.

  Lemma final_length : length final = n.
  Proof. exact (proj1 (inv_all (le_n n))). Qed.

  Lemma kept_iff k c : k < n ->
    (kept_before final n k c = true <-> exists i, i < k /\ excl (get final i) = false /\ c i k = true).
  Proof.
    intro Hk. unfold kept_before. replace (min n k) with k by lia. rewrite existsb_exists. split.
    - intros (a & Ha & E). apply in_seq in Ha. apply andb_true_iff in E. destruct E as [E1 E2].
      apply negb_true_iff in E1. exists a. split; [lia|auto].
    - intros (i & Hi & E1 & E2). exists i. split; [apply in_seq; lia|]. rewrite E1, E2. auto.
  Qed.

  Lemma excl_final j : j < n ->
    (excl (get final j) = true <->
     exists i, i < j /\ excl (get final i) = false /\ near x r i j /\ alike y y_bin n_feats n_algos r t i j).
  Proof.
    intro Hj. destruct (inv_all (le_n n)) as [_ I]. destruct (I j Hj) as (I1 & _ & _).
    fold final in I1. rewrite I1, kept_iff by auto. split; intros (i & Hi & E & H).
    - apply andb_true_iff in H. rewrite close_x_iff, alike_iff in H by lia. exists i. tauto.
    - exists i. split; auto. split; auto. apply andb_true_iff. rewrite close_x_iff, alike_iff by lia. auto.
  Qed.
  Lemma dis_final j : j < n ->
    (dis (get final j) = false <-> exists i, i < j /\ excl (get final i) = false /\ near x r i j).
  Proof.
    intro Hj. destruct (inv_all (le_n n)) as [_ I]. destruct (I j Hj) as (_ & I2 & _).
    fold final in I2. rewrite I2, negb_false_iff, kept_iff by auto. split; intros (i & Hi & E & H).
    - rewrite close_x_iff in H by lia. exists i. auto.
    - exists i. rewrite close_x_iff by lia. auto.
  Qed.
  Lemma visa_final j : j < n ->
    (visa (get final j) = true <-> excl (get final j) = false /\
       exists i, i < j /\ excl (get final i) = false /\ near x r i j).
  Proof.
    intro Hj. destruct (inv_all (le_n n)) as [_ I]. destruct (I j Hj) as (_ & _ & I3).
    fold final in I3. rewrite I3, andb_true_iff, negb_true_iff, kept_iff by auto.
    split; intros (E0 & i & Hi & E & H); split; auto; exists i.
    - rewrite close_x_iff in H by lia. auto.
    - rewrite close_x_iff by lia. auto.
  Qed.

  Lemma nth_flag (g : flags -> bool) b j : j < n -> nth j (map g final) b = g (get final j).
  Proof.
    intro Hj. unfold get. rewrite nth_indep with (d' := g {| excl := false; dis := true; visa := false |}).
    - apply map_nth.
    - rewrite map_length, final_length. auto.
  Qed.
End P.

(* ------------------------------------------------------------------ row selection *)
Definition positions (mask : list bool) : list nat := select mask (seq 0 (length mask)).

Lemma select_map A B (g : A -> B) mask l : select mask (map g l) = map g (select mask l).
Proof. revert l. induction mask as [|b m IH]; intros [|x l]; simpl; auto. destruct b; simpl; rewrite IH; auto. Qed.

Lemma select_positions A (mask : list bool) (l : list A) d : length l = length mask ->
  select mask l = map (fun i => nth i l d) (positions mask).
Proof.
  intro E. unfold positions. rewrite <- select_map. f_equal. rewrite <- E.
  apply nth_ext with (d := d) (d' := nth (length l) l d).
  - rewrite map_length, seq_length. auto.
  - intros i Hi. rewrite map_nth with (f := fun i => nth i l d) (d := length l).
    rewrite seq_nth; auto.
Qed.

Lemma select_seq_spec mask : forall s k, k < length (select mask (seq s (length mask))) ->
  s <= nth k (select mask (seq s (length mask))) 0 < s + length mask /\
  nth (nth k (select mask (seq s (length mask))) 0 - s) mask false = true.
Proof.
  induction mask as [|b m IH]; intros s k; simpl; [lia|]. destruct b; simpl.
  - destruct k as [|k]; simpl; intro H.
    + replace (s - s) with 0 by lia. split; [lia|auto].
    + destruct (IH (S s) k ltac:(lia)) as [H1 H2]. split; [lia|].
      replace (nth k (select m (seq (S s) (length m))) 0 - s) with
        (S (nth k (select m (seq (S s) (length m))) 0 - S s)) by lia. auto.
  - intro H. destruct (IH (S s) k H) as [H1 H2]. split; [lia|].
    replace (nth k (select m (seq (S s) (length m))) 0 - s) with
        (S (nth k (select m (seq (S s) (length m))) 0 - S s)) by lia. auto.
Qed.

Lemma select_seq_mono mask : forall s k1 k2, k1 < k2 < length (select mask (seq s (length mask))) ->
  nth k1 (select mask (seq s (length mask))) 0 < nth k2 (select mask (seq s (length mask))) 0.
Proof.
  induction mask as [|b m IH]; intros s k1 k2; simpl; [lia|]. destruct b; simpl.
  - intros [H1 H2]. destruct k2 as [|k2]; [lia|]. destruct k1 as [|k1].
    + destruct (@select_seq_spec m (S s) k2 ltac:(lia)) as [H _]. lia.
    + apply IH. lia.
  - apply IH.
Qed.

Lemma positions_spec mask k : k < length (positions mask) ->
  nth k (positions mask) 0 < length mask /\ nth (nth k (positions mask) 0) mask false = true.
Proof.
  intro H. destruct (@select_seq_spec mask 0 k H) as [H1 H2]. unfold positions.
  rewrite Nat.sub_0_r in H2. split; [lia|auto].
Qed.
Lemma positions_mono mask k1 k2 : k1 < k2 < length (positions mask) ->
  nth k1 (positions mask) 0 < nth k2 (positions mask) 0.
Proof. apply select_seq_mono. Qed.

Lemma select_nth A (mask : list bool) (l : list A) d k : length l = length mask ->
  k < length (positions mask) -> nth k (select mask l) d = nth (nth k (positions mask) 0) l d.
Proof.
  intros E H. rewrite (select_positions mask l d E).
  rewrite nth_indep with (d' := nth 0 l d) by (rewrite map_length; auto).
  apply map_nth with (f := fun i => nth i l d).
Qed.
Lemma select_length A (mask : list bool) (l : list A) : length l = length mask ->
  length (select mask l) = length (positions mask).
Proof.
  intro E. unfold positions. revert l E. generalize 0. induction mask as [|b m IH]; intros s [|x l] E; simpl in *;
    try discriminate; auto. injection E as E. destruct b; simpl; rewrite (IH (S s) l E); auto.
Qed.
Lemma select_Forall A (P : A -> Prop) mask l : Forall P l -> Forall P (select mask l).
Proof.
  intro F. revert mask. induction F as [|a l Ha F IH]; intros [|b m]; simpl; auto.
  destruct b; auto.
Qed.

Section Again.
  Variables x y : list (list num).
  Variable y_bin : list (list bool).
  Variables n_feats n_algos : nat.
  Variable r : Q.
  Variable s : string.
  Hypothesis M : matrices x y y_bin n_feats n_algos.

  Lemma filter_ok ex di vi :
    filter_instance x y y_bin n_feats n_algos r s = Ok (ex, di, vi) ->
    exists t, parse_type s = Some t /\ n_feats <> 0 /\
      ex = map excl (final x y y_bin n_feats n_algos r t) /\
      di = map dis (final x y y_bin n_feats n_algos r t) /\
      vi = map visa (final x y y_bin n_feats n_algos r t).
  Proof.
    unfold filter_instance. destruct (Nat.eqb_spec n_feats 0); [discriminate|].
    destruct (parse_type s) as [t|]; [|discriminate]. intro H. injection H as <- <- <-.
    exists t. auto.
  Qed.

  Lemma refilter ex di vi :
    filter_instance x y y_bin n_feats n_algos r s = Ok (ex, di, vi) ->
    exists ex' di' vi',
      filter_instance (keep_rows ex x) (keep_rows ex y) (keep_rows ex y_bin) n_feats n_algos r s
        = Ok (ex', di', vi') /\
      length ex' = length (keep_rows ex y) /\ forall j, ~ is_set ex' j.
  Proof.
    intro H. destruct (filter_ok H) as (t & Et & Nf & E1 & _ & _).
    assert (Lx : length ex = length y) by (rewrite E1, map_length; apply final_length).
    set (mask := map negb ex).
    assert (Lm : length mask = length y) by (unfold mask; rewrite map_length; auto).
    pose proof M as (M1 & M2 & M3 & M4 & M5).
    set (x' := keep_rows ex x). set (y' := keep_rows ex y). set (b' := keep_rows ex y_bin).
    assert (M' : matrices x' y' b' n_feats n_algos).
    { unfold x', y', b', keep_rows. repeat split.
      - rewrite !select_length; auto; fold mask; lia.
      - rewrite !select_length; auto; fold mask; lia.
      - apply select_Forall; auto.
      - apply select_Forall; auto.
      - apply select_Forall; auto. }
    unfold filter_instance at 1. fold x' y' b'.
    destruct (Nat.eqb_spec n_feats 0); [contradiction|]. rewrite Et.
    fold (final x' y' b' n_feats n_algos r t).
    do 3 eexists. split; [reflexivity|]. split; [rewrite map_length; apply final_length|].
    intros j Hj. unfold is_set in Hj.
    assert (Hjn : j < length y').
    { destruct (Nat.lt_ge_cases j (length y')) as [|Hge]; auto.
      rewrite nth_overflow in Hj; [discriminate|]. rewrite map_length, final_length. auto. }
    rewrite nth_flag in Hj by auto. apply (excl_final r t M' Hjn) in Hj.
    destruct Hj as (i & Hi & _ & Hn & Ha).
    assert (Ly : length y' = length (positions mask)) by (apply select_length; lia).
    assert (Ri : forall k, k < length (positions mask) ->
       nth k x' [] = nth (nth k (positions mask) 0) x [] /\
       nth k y' [] = nth (nth k (positions mask) 0) y [] /\
       nth k b' [] = nth (nth k (positions mask) 0) y_bin []).
    { intros k Hk. unfold x', y', b', keep_rows. fold mask. rewrite !select_nth; auto; lia. }
    destruct (Ri i ltac:(lia)) as (Xi & Yi & Bi). destruct (Ri j ltac:(lia)) as (Xj & Yj & Bj).
    set (i0 := nth i (positions mask) 0) in *. set (j0 := nth j (positions mask) 0) in *.
    assert (Hm : i0 < j0) by (apply positions_mono; lia).
    destruct (@positions_spec mask i ltac:(lia)) as [Bi0 Ki]. destruct (@positions_spec mask j ltac:(lia)) as [Bj0 Kj].
    fold i0 in Bi0, Ki. fold j0 in Bj0, Kj.
    assert (K : forall k, k < length y -> nth k mask false = true ->
                excl (get (final x y y_bin n_feats n_algos r t) k) = false).
    { intros k Hk Em. unfold mask in Em. rewrite nth_indep with (d' := negb false) in Em by (rewrite map_length; lia).
      rewrite map_nth in Em. apply negb_true_iff in Em. rewrite E1, nth_flag in Em by auto. auto. }
    assert (X : excl (get (final x y y_bin n_feats n_algos r t) j0) = true).
    { apply (excl_final r t M); [lia|]. exists i0. split; auto. split; [apply K; auto; lia|].
      unfold near, alike, near_perf, all_good in *. rewrite Xi, Xj in Hn. split; auto.
      rewrite Yi, Yj in Ha. rewrite Bi, Bj in Ha. exact Ha. }
    rewrite K in X; [discriminate|lia|auto].
  Qed.
End Again.
