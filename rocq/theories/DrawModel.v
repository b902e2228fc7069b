(** Model of the plots (/repo/instancespace/_serialisers.py:266-394 and 449-718): what is drawn into which
    file.  A plot is its title, the groups of instances drawn (with their legend), the values that
    colour them, the filled rings and the visible part of the plane.  Colours, marks and axis
    labels are left out, and so are infinite colour values (a constant performance column divided by its
    range), which are NaN here.  Definitions only. *)
From Verif Require Export SerialModel.
Set Implicit Arguments.
Open Scope nat_scope.
Open Scope list_scope.

Definition ring := list (num * num).
Record plot := {
  d_title : string;
  d_groups : list (option string * list nat);   (** legend and instances of each call of scatter *)
  d_values : option (list num);                 (** the colours asked for, one per instance *)
  d_rings : list ring }.

(** ax.set_xlim((-5, 5)), ax.set_ylim((-5, 5)), in every plot
    (_serialisers.py:462-463, 505-506, 544-545, 594-595, 641-642, 697-698) *)
Definition seen (p : num * num) : bool :=
  match p with
  | (Some a, Some b) => Qle_bool (-5) a && Qle_bool a 5 && Qle_bool (-5) b && Qle_bool b 5
  | _ => false
  end.

Definition positions (f : nat -> bool) (n : nat) : list nat := filter f (seq 0 n).

(** _serialisers.py:486-519 [_draw_scatter]: all instances; np.max of no value raises; a colour per point is needed *)
Definition draw_scatter (n : nat) (values : list num) (title : string) : res serr plot :=
  match values with
  | [] => Err EEmpty
  | _ => if Nat.eqb (length values) n
         then Ok {| d_title := title; d_groups := [(None, seq 0 n)]; d_values := Some values; d_rings := [] |}
         else Err EShape
  end.

(** _serialisers.py:643-651 and 699-707: the instances that are not good, then those that are, if any *)
Definition bad_good (flags : list bool) : list (option string * list nat) :=
  let bad := positions (fun k => negb (nth k flags true)) (length flags) in
  let good := positions (fun k => nth k flags false) (length flags) in
  match bad with [] => [] | _ => [(Some "BAD"%string, bad)] end ++
  match good with [] => [] | _ => [(Some "GOOD"%string, good)] end.
(** boolean indexing z[mask, 0] raises unless the mask has one entry per row; nothing is indexed
    with an empty mask *)
Definition mask_fits {A} (n : nat) (mask : list A) : bool :=
  match mask with [] => true | _ => Nat.eqb (length mask) n end.
(** _serialisers.py:680-718 [_draw_binary_performance]: an exception is caught and the plot saved as it is *)
Definition draw_binary (n : nat) (flags : list bool) (title : string) : plot :=
  {| d_title := title; d_groups := if mask_fits n flags then bad_good flags else []; d_values := None; d_rings := [] |}.

(** _serialisers.py:662-677 [_draw_footprint]: the exterior ring of each polygon is filled *)
Definition rings_of (f : option shape) : list ring :=
  match f with
  | None => []
  | Some (Single p) => [exterior p]
  | Some (Multi l) => map exterior l
  | Some Collection => []
  end.
(** _serialisers.py:625-659 [_draw_good_bad_footprint]: the footprint only if an instance is good *)
Definition draw_good_bad_footprint (n : nat) (good : option shape) (flags : list bool) (title : string) : res serr plot :=
  if mask_fits n flags then
    Ok {| d_title := title; d_groups := bad_good flags; d_values := None;
          d_rings := if existsb (fun b => b) flags then rings_of good else [] |}
  else Err EIndexing.

(** _serialisers.py:522-622: the groups of [drawn_groups]; np.max of no coordinate raises; is_worthy of no instance
    has no entries *)
Definition draw_portfolio (n : nat) (p : list nat) (labels : list string) (title : string) : res serr plot :=
  if Nat.eqb n 0 then Err EEmpty else
  match p, labels with
  | [], _ :: _ => Err EIndexing
  | _, _ =>
      let groups := drawn_groups p labels in
      if mask_fits n p || match groups with [] => true | _ => false end then
        Ok {| d_title := title; d_groups := map (fun g => (Some (fst (snd g)), snd (snd g))) groups;
              d_values := None; d_rings := [] |}
      else Err EIndexing
  end.
Fixpoint rings_at (best : list (option shape)) (which : list nat) : res serr (list ring) :=
  match which with
  | [] => Ok []
  | i :: t => match nth_error best i with
              | None => Err EIndexing
              | Some f => match rings_at best t with Ok r => Ok (rings_of f ++ r) | Err e => Err e end
              end
  end.
Definition draw_portfolio_footprint (n : nat) (best : list (option shape)) (p : list nat) (labels : list string) : res serr plot :=
  match draw_portfolio n p labels "Portfolio footprints" with
  | Err e => Err e
  | Ok g => match rings_at best (map fst (drawn_groups p labels)) with
            | Err e => Err e
            | Ok r => Ok {| d_title := d_title g; d_groups := d_groups g; d_values := d_values g; d_rings := r |}
            end
  end.

(** np.unique of an array of texts *)
Fixpoint insert_label (a : string) (l : list string) : list string :=
  match l with
  | [] => [a]
  | b :: t => match String.compare a b with
              | Eq => l
              | Lt => a :: l
              | Gt => b :: insert_label a t
              end
  end.
Definition unique_labels (l : list string) : list string := fold_right insert_label [] l.
(** _serialisers.py:449-483 [_draw_sources]: one group per source, the last one first *)
Definition draw_sources (n : nat) (s : list string) : res serr plot :=
  if Nat.eqb n 0 then Err EEmpty
  else if mask_fits n s then
    Ok {| d_title := "Sources";
          d_groups := map (fun l => (Some l, positions (fun k => String.eqb (nth k s ""%string) l) (length s))) (rev (unique_labels s));
          d_values := None; d_rings := [] |}
  else Err EIndexing.

Definition gcall := res serr (string * plot).
Definition named (f : string) (r : res serr plot) : gcall := match r with Ok p => Ok (f, p) | Err e => Err e end.
Definition png (a l : string) : string := append a (append l ".png").
(** _serialisers.py:296-394, in order.  [w] is data.x.shape[1]; [log10p1] is np.log10(v + 1); [use_sim] is
    options.trace.use_sim (290-295). *)
Section Graphs.
  Variable log10p1 : num -> num.
  Variable use_sim : bool.
  Variable m : model.
  Variable w : nat.
  Definition n := length (m_z m).
  Definition values (f : list (list num) -> nat -> nat -> num) (a : list (list num)) (j : nat) : list num :=
    map (fun i => f a i j) (seq 0 (length a)).
  Definition flags_at (b : list (list bool)) (j : nat) : list bool := map (fun r => nth j r false) b.
  Definition y_foot : list (list bool) := if use_sim then m_y_hat m else m_y_bin m.
  Definition p_foot : list nat := if use_sim then m_selection0 m else m_p m.

  Definition feature_call (j : nat) : gcall :=
    match nth_error (m_feat_labels m) j with
    | None => Err EIndexing
    | Some l => named (png "distribution_feature_" l) (draw_scatter n (values x_aux (m_x m) j) (spaces l))
    end.
  Definition algorithm_calls (j : nat) : list gcall :=
    match nth_error (m_algo_labels m) j with
    | None => [Err EIndexing]
    | Some l =>
        [ named (png "distribution_performance_global_normalized_" l) (draw_scatter n (values (y_glb log10p1) (m_y_raw m) j) (spaces l));
          named (png "distribution_performance_individual_normalized_" l) (draw_scatter n (values y_ind (m_y_raw m) j) (spaces l));
          Ok (png "binary_performance_" l, draw_binary n (flags_at (m_y_bin m) j) (spaces l));
          Ok (png "binary_svm_" l, draw_binary n (flags_at (m_y_hat m) j) (spaces l));
          match nth_error (m_good m) j with
          | None => Err EIndexing
          | Some g => named (png "footprint_" l) (draw_good_bad_footprint n g (flags_at y_foot j) (append (spaces l) " Footprint"))
          end ]
    end.
  Definition share_good : list num := map (fun v => ndiv0 v (Some (inject_Z (Z.of_nat (m_nalgos m))))) (m_num_good_algos m).
  Definition graph_calls : list gcall :=
    map feature_call (seq 0 w) ++ flat_map algorithm_calls (seq 0 (m_nalgos m)) ++
    [ named "distribution_number_good_algos.png" (draw_scatter n share_good "Percentage of good algorithms");
      named "distribution_portfolio.png" (draw_portfolio n (m_p m) (m_algo_labels m) "Best algorithm");
      named "distribution_svm_portfolio.png" (draw_portfolio n (m_selection0 m) (m_algo_labels m) "Predicted best algorithm");
      Ok ("distribution_beta_score.png"%string, draw_binary n (m_beta m) "Beta score") ] ++
    match m_s m with Some s => [named "distribution_sources.png" (draw_sources n s)] | None => [] end ++
    [ named "footprint_portfolio.png" (draw_portfolio_footprint n (m_best m) p_foot (m_algo_labels m)) ].

  (** the files, while the calls are made one after the other until one raises; every file can be
      opened *)
  Fixpoint draw (l : list gcall) (d : string -> option plot) : (string -> option plot) * option serr :=
    match l with
    | [] => (d, None)
    | Err e :: _ => (d, Some e)
    | Ok (f, p) :: t => draw t (fun g => if String.eqb g f then Some p else d g)
    end.
  (** _serialisers.py:266-288: np.max and np.min over no instance raise *)
  Definition save_graphs (is_dir : bool) (d : string -> option plot) : (string -> option plot) * option serr :=
    if is_dir then
      if Nat.eqb (length (m_x m)) 0 || Nat.eqb (length (m_y_raw m)) 0 then (d, Some EEmpty) else draw graph_calls d
    else (d, Some ENotDirectory).
End Graphs.
