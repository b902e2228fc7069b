(** Model of instancespace/stages/sifted.py.  Definitions only.
    The library calls are arguments: [pearson] (scipy pearsonr), [order] (np.argsort),
    [km_labels] (KMeans.fit_predict), [sil] (the silhouette scores), [best] (the chromosome
    the genetic algorithm returns), [cv_error] (cross validation).  Printing is not modelled. *)
From Verif Require Import Base Num FilterModel.
Set Implicit Arguments.

Inductive sierr := ENotEnoughFeatures | ECorrelation | EIndexError | EKeyError | EZeroDivide | ETypeError
                 | EPurifier (e : ferr).

(* ------------------------------------------------------------------ correlation *)
(** sifted.py:1043-1047: the pairs of values where both are present *)
Definition valid_pairs (u v : list num) : list (Q * Q) :=
  flat_map (fun p => match p with (Some a, Some b) => [(a, b)] | _ => [] end) (combine u v).

(** sifted.py:1046-1056, one pair of columns.  [pearson] is scipy.stats.pearsonr on at least two
    points (rho, p-value; NaN possible); it raises ValueError for fewer. *)
Definition corr_pair (pearson : list (Q * Q) -> num * num) (u v : list num) : res sierr (num * num) :=
  match valid_pairs u v with
  | [] => Ok (None, None)
  | [_] => Err ECorrelation
  | l => Ok (pearson l)
  end.
Fixpoint all_ok {E A} (l : list (res E A)) : res E (list A) :=
  match l with
  | [] => Ok []
  | Err e :: _ => Err e
  | Ok a :: t => match all_ok t with Ok r => Ok (a :: r) | Err e => Err e end
  end.
(** sifted.py:1013-1058 [_compute_correlation]: the matrix of (rho, pval), features x algorithms *)
Definition correlations (pearson : list (Q * Q) -> num * num) (x y : list (list num)) (nfeats nalgos : nat)
  : res sierr (list (list (num * num))) :=
  all_ok (map (fun i => all_ok (map (fun j => corr_pair pearson (column None x i) (column None y j)) (seq 0 nalgos)))
              (seq 0 nfeats)).

(** sifted.py:713-743, the start of [select_features_by_performance]: rho after the in-place replacement of NaN and insignificant entries.
    0.05 is PVAL_THRESHOLD. *)
Definition clean_rho (rp : num * num) : Q :=
  match rp with
  | (None, _) => 0
  | (Some r, Some p) => if Qle_bool p (5 # 100) then r else 0
  | (Some r, None) => r
  end%Q.

(* ------------------------------------------------------------------ selection by performance *)
(** sifted.py:745-766, the rest of [select_features_by_performance].  [rho] is the cleaned matrix (features x algorithms); [order j] is column
    j of np.argsort(-abs(rho), axis=0): the features by decreasing absolute correlation. *)
Definition perf_mask (rho : list (list Q)) (order : nat -> list nat) (threshold : Q) (nfeats nalgos : nat) : list bool :=
  let set f m := upd f (fun _ => true) m in
  let m1 := fold_left (fun m j => set (nth 0 (order j) 0) m) (seq 0 nalgos) (repeat false nfeats) in
  fold_left (fun m i =>
    fold_left (fun m j => if Qle_bool threshold (nth j (nth i rho []) 0%Q) then set (nth i (order j) 0) m else m)
              (seq 0 nalgos) m)
    (seq 0 nfeats) m1.
(** np.where(mask)[0] *)
Definition where_true (mask : list bool) : list nat := select mask (seq 0 (length mask)).

(* ------------------------------------------------------------------ clusters *)
(** sifted.py:768-803 [select_features_by_clustering] after k-means (799-801): column c of the boolean matrix [clust] *)
Definition cluster_col (labels : list nat) (c : nat) : list bool := map (Nat.eqb c) labels.

(** Python's [aux[g % aux.size]] for one gene; None: the cluster is empty *)
Definition pick (labels : list nat) (c : nat) (g : Z) : option nat :=
  match where_true (cluster_col labels c) with
  | [] => None
  | aux => Some (nth (Z.to_nat (g mod Z.of_nat (length aux))) aux 0)
  end.
(** sifted.py:832-835 and 936-940: the boolean vector of one chromosome *)
Fixpoint decode (labels : list nat) (genes : list (nat * Z)) (mask : list bool) : option (list bool) :=
  match genes with
  | [] => Some mask
  | (c, g) :: t => match pick labels c g with
                   | None => None
                   | Some f => decode labels t (upd f (fun _ => true) mask)
                   end
  end.
Definition genes_of (k : nat) (best : list Z) : list (nat * Z) := combine (seq 0 k) best.

(** sifted.py:935-943: the features returned *)
Definition decode_selvars (labels : list nat) (k : nat) (best : list Z) (selvars : list nat) : res sierr (list nat) :=
  match decode labels (genes_of k best) (repeat false (length selvars)) with
  | None => Err EZeroDivide
  | Some m => Ok (select m selvars)
  end.
(** sifted.py:830-835: the columns of the full feature matrix on which a chromosome is scored *)
Definition scored_features (labels : list nat) (k : nat) (best : list Z) (nfeats : nat) : option (list nat) :=
  option_map where_true (decode labels (genes_of k best) (repeat false nfeats)).

(** sifted.py:806-857 [cost_fcn]: the fitness (846-857), after the projection (836-844, an argument); [cv_error i] is minus the mean of the cross validation
    scores (neg_mean_squared_error) of algorithm i, [None] is -inf *)
Definition fitness (cv_error : nat -> Q) (nalgos : nat) : option Q :=
  fold_left (fun y i => match y with
                        | None => Some (cv_error i)
                        | Some q => Some (if Qle_bool q (cv_error i) then cv_error i else q)
                        end) (seq 0 nalgos) None.

(** sifted.py:994-1011: np.argmax of the scores and the two look-ups; [sil] has the scores for
    2, 3, .., width-1 clusters *)
Fixpoint argmax_from (l : list Q) (i bi : nat) (bv : Q) : nat :=
  match l with
  | [] => bi
  | v :: t => if Qle_bool v bv then argmax_from t (S i) bi bv else argmax_from t (S i) i v
  end.
Definition argmax (l : list Q) : nat :=
  match l with [] => 0 | v :: t => argmax_from t 1 0 v end.
Definition evaluate_cluster (sil : list Q) (k width : nat) : res sierr unit :=
  let mk := 2 + argmax sil in
  if negb (Nat.eqb mk k) && negb (Nat.eqb mk width) && negb (Nat.ltb mk (length sil))
  then Err EIndexError                            (* silhouette_scores[max_k_silhoulette] *)
  else if Nat.leb 2 k && Nat.ltb k width then Ok tt else Err EKeyError.   (* labels[self.opts.k] *)

(* ------------------------------------------------------------------ the stage *)
Record sift_out := { so_x : list (list num); so_labels : list string; so_selvars : list nat;
                     so_idx : list nat; so_clustered : bool }.
Definition take_columns (x : list (list num)) (cols : list nat) : list (list num) :=
  map (fun row => map (fun c => nth c row None) cols) x.
Definition take_labels (labels : list string) (cols : list nat) : list string :=
  map (fun c => nth c labels EmptyString) cols.

(** sifted.py:487-711 [_sifted].  The output idx is np.arange of the number of features given (542) in
    every branch.  [dense] is [Some (x, y, y_bin)] when the density options are set
    and data_dense is present.  In that branch (662-680) the purifier runs and then the slice
    [[:selvars]] with an array bound raises TypeError. *)
Definition sifted (pearson : list (Q * Q) -> num * num)
    (order : list (list Q) -> nat -> list nat) (sil : list nat -> list Q) (km_labels : list nat -> list nat)
    (best : list nat -> list Z)
    (x y : list (list num)) (labels : list string) (nalgos : nat) (threshold : Q) (k : nat)
    (dense : option (list (list num) * list (list num) * list (list bool))) (stype : string) (min_distance : Q)
  : res sierr sift_out :=
  let nfeats := length labels in
  if Nat.leb nfeats 1 then Err ENotEnoughFeatures
  else if Nat.leb nfeats 3 then
    Ok {| so_x := x; so_labels := labels; so_selvars := seq 0 nfeats; so_idx := seq 0 nfeats; so_clustered := false |}
  else
    match correlations pearson x y nfeats nalgos with
    | Err e => Err e
    | Ok rp =>
        let rho := map (map clean_rho) rp in
        let selvars := where_true (perf_mask rho (order rho) threshold nfeats nalgos) in
        let width := length selvars in
        if Nat.leb width 1 then Err ENotEnoughFeatures
        else if Nat.leb width 3 || Nat.leb width k then
          Ok {| so_x := take_columns x selvars; so_labels := take_labels labels selvars;
                so_selvars := selvars; so_idx := seq 0 nfeats; so_clustered := false |}
        else
          match evaluate_cluster (sil selvars) k width with
          | Err e => Err e
          | Ok _ =>
              match decode_selvars (km_labels selvars) k (best selvars) selvars with
              | Err e => Err e
              | Ok sv =>
                  match dense with
                  | Some (dx, dy, db) =>
                      match filter_instance (take_columns dx sv) dy db (length sv) nalgos min_distance stype with
                      | Err e => Err (EPurifier e)
                      | Ok _ => Err ETypeError
                      end
                  | None =>
                      Ok {| so_x := take_columns x sv; so_labels := take_labels labels sv;
                            so_selvars := sv; so_idx := seq 0 nfeats; so_clustered := true |}
                  end
              end
          end
    end.
