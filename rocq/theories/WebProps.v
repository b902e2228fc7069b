(** Properties C54, C55 and C96: the files of the web front end and the archive. *)
From Coq Require Import Qround Qabs Lqa.
From Verif Require Import BaseLemmas Mat PreprocSpec CloisterModel PilotProofs CloisterProofs
  SerialModel SerialSpec SerialProofs SerialProps WebSpec WebProofs.
Set Implicit Arguments.
Open Scope nat_scope.
Open Scope list_scope.

(* ========================================================== C54 *)
(** Each colour is the value's place between the smallest and the largest value, of its column or
    of the whole array, on the scale 0..255. *)
Theorem C54_scale_by_column :
  forall data cols t, (forall r, In r data -> length r = cols) -> colour_scale data cols = Ok t ->
    exists c, forall i j, i < length data -> j < cols -> nth j (nth i t []) (CNum None) = CColour (c i j) /\
      coloured rounded_down (column None data j) (cell data i j) (c i j).
Proof. intros data cols t R H. apply (@colour_scale_spec data cols t R H). Qed.
Theorem C54_scale_over_all :
  forall data t, colour_scale_g data = Ok t ->
    exists c, forall i j, i < length data -> j < length (nth i data []) -> nth j (nth i t []) (CNum None) = CColour (c i j) /\
      coloured rounded (concat data) (cell data i j) (c i j).
Proof. intros data t H. apply (@colour_scale_g_spec data t H). Qed.
(** So the colours are in 0..255, the smallest value has 0, the largest 255, and larger values do not
    have smaller colours. *)
Theorem C54_range_and_order :
  forall near, near = rounded_down \/ near = rounded -> forall lo hi q z, (lo < hi)%Q -> (lo <= q)%Q -> (q <= hi)%Q -> near lo hi q z ->
    (0 <= z <= 255)%Z /\ ((q == lo)%Q -> z = 0%Z) /\ ((q == hi)%Q -> z = 255%Z) /\
    forall q' z', (q <= q')%Q -> near lo hi q' z' -> (z <= z')%Z.
Proof.
  assert (M : forall near, near = rounded_down \/ near = rounded -> forall lo hi q z q' z', (lo < hi)%Q -> (q <= q')%Q ->
            near lo hi q z -> near lo hi q' z' -> (z <= z')%Z).
  { intros near Hn lo hi q z q' z' L Hq A B. apply Z.nlt_ge. intro X.
    assert (Y : (inject_Z z' + 1 <= inject_Z z)%Q) by (change 1%Q with (inject_Z 1); rewrite <- inject_Z_plus, <- Zle_Qle; lia).
    assert (W : (0 < hi - lo)%Q) by lra.
    assert (Z : ((inject_Z z' + 1) * (hi - lo) <= inject_Z z * (hi - lo))%Q) by (apply Qmult_le_compat_r; lra).
    destruct Hn as [->| ->].
    - unfold rounded_down in *. lra.
    - unfold rounded in *. cbv zeta in *. destruct A as [A1 A2], B as [B1 B2].
      assert (A3 : (inject_Z z * (hi - lo) - 255 * (q - lo) <= (1 # 2) * (hi - lo))%Q).
      { pose proof (Qle_Qabs (inject_Z z * (hi - lo) - 255 * (q - lo))). lra. }
      assert (B3 : (- ((1 # 2) * (hi - lo)) <= inject_Z z' * (hi - lo) - 255 * (q' - lo))%Q).
      { pose proof (Qle_Qabs (- (inject_Z z' * (hi - lo) - 255 * (q' - lo)))) as P. rewrite Qabs_opp in P. lra. }
      assert (E : (inject_Z z * (hi - lo) == (inject_Z z' + 1) * (hi - lo))%Q) by lra.
      assert (E' : z = (z' + 1)%Z).
      { assert (F : (inject_Z z == inject_Z (z' + 1))%Q).
        { rewrite inject_Z_plus. change (inject_Z 1) with 1%Q.
          setoid_replace (inject_Z z) with (inject_Z z * (hi - lo) / (hi - lo))%Q by (field; lra). rewrite E. field. lra. }
        unfold Qeq, inject_Z in F. simpl in F. lia. }
      subst z. rewrite inject_Z_plus in *. change (inject_Z 1) with 1%Q in *.
      assert (Bt : Z.even z' = true).
      { apply B2. pose proof (Qle_Qabs (- (inject_Z z' * (hi - lo) - 255 * (q' - lo)))) as P. rewrite Qabs_opp in P. lra. }
      assert (At : Z.even (z' + 1) = true).
      { apply A2. pose proof (Qle_Qabs ((inject_Z z' + 1) * (hi - lo) - 255 * (q - lo))). lra. }
      rewrite Z.even_add, Bt in At. discriminate. }
  assert (Z0 : forall near, near = rounded_down \/ near = rounded -> forall lo hi, (lo < hi)%Q -> near lo hi lo 0%Z /\ near lo hi hi 255%Z).
  { intros near [->| ->] lo hi L; unfold rounded_down, rounded; cbv zeta; change (inject_Z 0) with 0%Q; change (inject_Z 255) with 255%Q.
    - lra.
    - assert (X : forall x, (x == 0 -> Qabs x == 0)%Q) by (intros x ->; reflexivity).
      rewrite !X by ring. split; split; intros; try lra; auto. }
  intros near Hn lo hi q z L A B N. destruct (Z0 near Hn lo hi L) as [N0 N1].
  assert (G : (0 <= z)%Z) by (eapply (M near Hn lo hi lo 0%Z q z); eauto).
  assert (U : (z <= 255)%Z) by (eapply (M near Hn lo hi q z hi 255%Z); eauto).
  split; auto. split; [|split].
  - intro E. assert (z <= 0)%Z by (eapply (M near Hn lo hi q z lo 0%Z); eauto; lra). lia.
  - intro E. assert (255 <= z)%Z by (eapply (M near Hn lo hi hi 255%Z q z); eauto; lra). lia.
  - intros q' z' Q N'. eapply (M near Hn lo hi q z q' z'); eauto.
Qed.

(* ========================================================== C96 *)
Section Web.
  Variable can_write : string -> bool.
  Variable colour_table : table.
  Notation save := (save_for_web can_write colour_table).
  (** A call of save_for_web that returns has written the colours of the seven arrays under their
      labels, and the colour table; it changes no other file. *)
  Theorem C96_web_files :
    forall m d d', array_shaped m -> save true m d = (d', None) ->
      d' "color_table.csv"%string = Some colour_table /\
      (forall f cols v among near, In (f, (cols, v, among, near)) (colour_files m) ->
         exists t, d' f = Some t /\ shows_colours t cols (m_inst_labels m) v among near) /\
      (forall f, f <> "color_table.csv"%string -> ~ In f (map fst (colour_files m)) -> d' f = d f).
  Proof.
    intros m d d' A H. unfold save_for_web in H. apply perform_ok in H. destruct H as [W D].
    assert (W' : forall w, In w (web_writes m) -> exists n t, w = Ok (n, t)).
    { intros w Hw. destruct (W w) as (n & t & -> & _); [right; auto|]. eauto. }
    assert (F : forall f t, In (Ok (f, t)) (web_writes m) -> d' f = Some t).
    { intros f t I. rewrite D. unfold after. rewrite (@last_write_unique _ f t); auto; [right; auto|].
      intros u [E|Hu]; [|eapply web_writes_unique; eauto]. injection E as <- _. exfalso.
      apply web_writes_names in I. simpl in I. intuition discriminate. }
    split; [|split].
    - rewrite D. unfold after. rewrite (@last_write_unique _ _ colour_table); auto; [left; auto|].
      intros u [E|Hu]; [congruence|]. exfalso. apply web_writes_names in Hu. simpl in Hu. intuition discriminate.
    - intros f cols v among near I. destruct (@web_file_written m f cols v among near A W' I) as (t & J & S). eauto.
    - intros f N1 N2. rewrite D. unfold after. destruct (last_write _ f) as [t|] eqn:E; auto. exfalso.
      apply last_write_in in E. destruct E as [E|E]; [congruence|]. apply N2. apply web_writes_names in E. exact E.
  Qed.
  (** It returns iff there are instances and algorithms, the arrays have the shapes their labels
      require and the files can be opened. *)
  Theorem C96_when_it_returns :
    forall m d, array_shaped m -> ((exists d', save true m d = (d', None)) <->
      web_consistent m /\ can_write "color_table.csv"%string = true /\ forall f, In f (map fst (colour_files m)) -> can_write f = true).
  Proof.
    intros m d A. unfold save_for_web. split.
    - intros [d' H]. apply perform_ok in H. destruct H as [W _].
      assert (W' : forall w, In w (web_writes m) -> exists n t, w = Ok (n, t)).
      { intros w Hw. destruct (W w) as (n & t & -> & _); [right; auto|]. eauto. }
      split; [apply web_consistent_iff; auto|]. split.
      + destruct (W _ (or_introl eq_refl)) as (n & t & E & C). injection E as <- _. auto.
      + intros f Hf. apply in_map_iff in Hf. destruct Hf as ([f' [[[cols v] among] near]] & <- & Hf). simpl.
        destruct (@web_file_written m f' cols v among near A W' Hf) as (t & J & _).
        destruct (W _ (or_intror J)) as (n & u & E & C). injection E as <- _. auto.
    - intros (C & C0 & Cw). apply perform_all. intros w [<-|Hw].
      + exists "color_table.csv"%string, colour_table. auto.
      + destruct (proj2 (web_consistent_iff A) C w Hw) as (n & t & ->). exists n, t. split; auto. apply Cw.
        apply (web_writes_names Hw).
  Qed.
  (** Without a directory nothing happens. *)
  Theorem C96_no_directory : forall m d, save false m d = (d, Some ENotDirectory).
  Proof. reflexivity. Qed.
End Web.

(* ========================================================== C55 *)
(** The members of the archive are the files that belong in it, each as output/ followed by its base
    name. *)
Theorem C55_members :
  forall z walked n b, In (n, b) (save_zip z walked) <->
    exists f, In f walked /\ kept z f /\ n = append "output/" (f_name f) /\ b = f_bytes f.
Proof.
  intros z walked n b. unfold save_zip. rewrite in_map_iff. split.
  - intros (f & E & I). injection E as <- <-. apply filter_In in I. destruct I as [I K]. exists f. split; auto. split; auto.
    apply negb_true_iff, orb_false_iff in K. destruct K as [K1 K2]. split; apply String.eqb_neq; auto.
  - intros (f & I & [K1 K2] & -> & ->). exists f. split; auto. apply filter_In. split; auto.
    apply negb_true_iff, orb_false_iff. split; apply String.eqb_neq; auto.
Qed.
(** Every file can be read back from the archive iff files of equal base name have equal contents. *)
Theorem C55_when_nothing_is_lost :
  forall z walked,
    (forall f, In f walked -> kept z f -> zip_read (save_zip z walked) (append "output/" (f_name f)) = Some (f_bytes f)) <->
    (forall f g, In f walked -> In g walked -> kept z f -> kept z g -> f_name f = f_name g -> f_bytes f = f_bytes g).
Proof.
  intros z walked.
  assert (R : forall a n r, fold_left (fun r (e : string * string) => if String.eqb (fst e) n then Some (snd e) else r) a r =
            match zip_read a n with Some b => Some b | None => r end).
  { unfold zip_read. induction a as [|e a IH]; intros n r; simpl; auto. destruct (String.eqb (fst e) n); rewrite IH; [|auto].
    destruct (fold_left _ a None); auto. }
  assert (I : forall a n b, zip_read a n = Some b -> In (n, b) a).
  { unfold zip_read. induction a as [|[m c] a IH]; intros n b H; [discriminate|]. simpl in H. rewrite R in H. destruct (zip_read a n) eqn:E.
    - injection H as <-. right. apply IH. exact E.
    - destruct (String.eqb_spec m n); [|discriminate]. injection H as <-. subst m. left. auto. }
  assert (N : forall a n, zip_read a n = None -> forall b, ~ In (n, b) a).
  { induction a as [|[m c] a IH]; intros n H b []; unfold zip_read in H; simpl in H; rewrite R in H; destruct (zip_read a n) eqn:E; try discriminate.
    - destruct (String.eqb_spec m n); [discriminate|]. congruence.
    - eapply IH; eauto. }
  split.
  - intros H f g If Ig Kf Kg E. pose proof (H f If Kf) as A. pose proof (H g Ig Kg) as B. rewrite E in A. congruence.
  - intros H f If Kf. destruct (zip_read _ _) as [b|] eqn:E.
    + apply I in E. apply C55_members in E. destruct E as (g & Ig & Kg & En & ->). f_equal. apply H; auto.
      apply append_inj_l in En. auto.
    + exfalso. eapply (N _ _ E). apply C55_members. exists f. auto.
Qed.
(** Two files of equal base name: one is lost. *)
Theorem C55_nothing_is_lost_refuted :
  exists z walked f, In f walked /\ kept z f /\ zip_read (save_zip z walked) (append "output/" (f_name f)) <> Some (f_bytes f).
Proof.
  exists "out.zip"%string, [{| f_dir := "run1"; f_name := "portfolio.csv"; f_bytes := "1" |}; {| f_dir := "run2"; f_name := "portfolio.csv"; f_bytes := "2" |}]%string.
  eexists. split; [left; reflexivity|]. split; [split; discriminate|discriminate].
Qed.
(** An archive written below the directory, given by a path, is not recognised and holds itself. *)
Theorem C55_archive_is_left_out_refuted :
  exists z walked f, In f walked /\ z = append (f_dir f) (append "/" (f_name f)) /\ In (append "output/" (f_name f), f_bytes f) (save_zip z walked).
Proof.
  exists "web/out.zip"%string, [{| f_dir := "web"; f_name := "out.zip"; f_bytes := "" |}]%string. eexists. split; [left; reflexivity|].
  split; [reflexivity|]. left. reflexivity.
Qed.

Example C54_applies :
  colour_scale [[Some 1; Some 7]; [Some 3; Some 7]; [Some 2; Some 7]]%Q 2 =
    Ok [[CColour (Some 0%Z); CColour None]; [CColour (Some 255%Z); CColour None]; [CColour (Some 127%Z); CColour None]] /\
  colour_scale_g [[Some 1; Some 3]; [Some 2; Some 5]]%Q =
    Ok [[CColour (Some 0%Z); CColour (Some 128%Z)]; [CColour (Some 64%Z); CColour (Some 255%Z)]].
Proof. split; reflexivity. Qed.
Example C96_applies : array_shaped (ex_model ["A"; "B"]%string [0; 1]) /\
  exists d', save_for_web (fun _ => true) {| header := []; rows := [] |} true (ex_model ["A"; "B"]%string [0; 1]) (fun _ => None) = (d', None).
Proof. split; [|eexists; reflexivity]. intros a r Ha Hr. simpl in Ha. intuition (subst a; simpl in *; intuition (subst; auto)). Qed.
Example C55_applies :
  zip_read (save_zip "out.zip" [{| f_dir := ""; f_name := "a.csv"; f_bytes := "1" |}; {| f_dir := ""; f_name := ".gitignore"; f_bytes := "*" |};
    {| f_dir := ""; f_name := "out.zip"; f_bytes := "" |}; {| f_dir := "x"; f_name := "b.csv"; f_bytes := "2" |}])%string "output/b.csv"%string = Some "2"%string.
Proof. reflexivity. Qed.

Print Assumptions C54_scale_by_column.
Print Assumptions C54_scale_over_all.
Print Assumptions C54_range_and_order.
Print Assumptions C96_web_files.
Print Assumptions C96_when_it_returns.
Print Assumptions C96_no_directory.
Print Assumptions C55_members.
Print Assumptions C55_when_nothing_is_lost.
Print Assumptions C55_nothing_is_lost_refuted.
Print Assumptions C55_archive_is_left_out_refuted.
