(** Model of instancespace/stages/prelim.py.  Definitions only.
    Rows and columns are lists; a missing value is NaN.  Printing is not modelled. *)
From Verif Require Import Base Num Ext FilterModel.
Set Implicit Arguments.

(** np.finfo(float).eps *)
Definition eps : Q := 1 # 4503599627370496.

(** The options used here (data/options.py:718-728 PrelimOptions). *)
Record popts := { max_perf : bool; abs_perf : bool; epsilon : Q; beta_threshold : Q;
                  bound : bool; norm : bool }.

(* ------------------------------------------------------------------ performance *)
(** prelim.py:620-621, 646-647: y_aux, missing performances are the worst possible *)
Definition y_aux (o : popts) (v : num) : ext :=
  match v with Some q => Fin q | None => if max_perf o then NInf else PInf end.

(** np.argmax / np.argmin with np.max / np.min: the first position of the best value *)
Fixpoint arg_best (better : ext -> ext -> bool) (l : list ext) (i bi : nat) (bv : ext) : nat * ext :=
  match l with
  | [] => (bi, bv)
  | v :: t => if better v bv then arg_best better t (S i) i v else arg_best better t (S i) bi bv
  end.
Definition best_of (o : popts) (row : list num) : nat * ext :=
  match map (y_aux o) row with
  | [] => (0, ENaN)   (* numpy raises for zero algorithms *)
  | v :: t => arg_best (if max_perf o then fun a b => elt b a else elt) t 1 0 v
  end.

Definition count_true (l : list bool) : nat := length (filter (fun b => b) l).
Fixpoint first_true (l : list bool) : nat :=
  match l with [] => 0 | b :: t => if b then 0 else S (first_true t) end.

Record row_out := { r_bin : list bool; r_best : ext; r_p : nat; r_good : nat; r_beta : bool;
                    r_y : list ext; r_y_inplace : list num }.

(** prelim.py:609-683 [_prelim], with [_select_best_algorithms] (379-434), for one instance.
    [r_y] is y as bound to the local name afterwards, [r_y_inplace] is the caller's array after
    the in-place [y[y == 0] = eps]. *)
Definition prelim_row (o : popts) (row : list num) : row_out :=
  let '(bi, bv) := best_of o row in
  let aux := map (y_aux o) row in
  let best := if abs_perf o then bv else if eeq bv (Fin 0) then Fin eps else bv in
  let bin :=
    map (fun v =>
      if max_perf o then
        if abs_perf o then ele (Fin (epsilon o)) v
        else ele (one_minus (ediv v best)) (Fin (epsilon o))
      else
        if abs_perf o then ele v (Fin (epsilon o))
        else ele (one_minus (ediv best v)) (Fin (epsilon o))) aux in
  let inplace := if abs_perf o then row
                 else map (fun v => if neqb v (Some 0%Q) then Some eps else v) row in
  let y := if abs_perf o then map of_num inplace
           else map (fun v => if max_perf o then one_minus (ediv (of_num v) best)
                              else one_minus (ediv best (of_num v))) inplace in
  let ties := map (fun v => eeq (of_num v) best) row in
  let p := if Nat.ltb 1 (count_true ties) then S (first_true ties) else S bi in
  let good := count_true bin in
  {| r_bin := bin; r_best := best; r_p := p; r_good := good;
     r_beta := negb (Qle_bool (inject_Z (Z.of_nat good))
                              (beta_threshold o * inject_Z (Z.of_nat (length row))));
     r_y := y; r_y_inplace := inplace |}.

(* ------------------------------------------------------------------ bounding *)
Fixpoint insert (q : Q) (l : list Q) : list Q :=
  match l with
  | [] => [q]
  | x :: t => if Qle_bool q x then q :: l else x :: insert q t
  end.
Definition qsort (l : list Q) : list Q := fold_right insert [] l.

(** all values of a column, or [None] if one is NaN *)
Fixpoint finite (col : list num) : option (list Q) :=
  match col with
  | [] => Some []
  | None :: _ => None
  | Some q :: t => match finite t with Some l => Some (q :: l) | None => None end
  end.

(** np.median: NaN if the column has a NaN (or is empty) *)
Definition median (col : list num) : num :=
  match finite col with
  | None => None
  | Some l =>
      let n := length l in let s := qsort l in
      if Nat.eqb n 0 then None
      else Some ((nth ((n - 1) / 2)%nat s 0 + nth (n / 2)%nat s 0) / 2)%Q
  end.
(** np.percentile(.., 25 k, interpolation="midpoint") of sorted finite data *)
Definition quartile (k : nat) (s : list Q) : Q :=
  let m := (k * (length s - 1))%nat in
  ((nth (m / 4)%nat s 0 + nth ((m + 3) / 4)%nat s 0) / 2)%Q.
(** scipy.stats.iqr(.., interpolation="midpoint"): NaN propagates *)
Definition iqr (col : list num) : num :=
  match finite col with
  | None => None
  | Some l => if Nat.eqb (length l) 0 then None
              else Some (quartile 3 (qsort l) - quartile 1 (qsort l))%Q
  end.

Definition hi_bound (col : list num) : num := nadd (median col) (nmul (Some 5%Q) (iqr col)).
Definition lo_bound (col : list num) : num := nsub (median col) (nmul (Some 5%Q) (iqr col)).
Definition b2n (b : bool) : num := Some (if b then 1 else 0)%Q.

(** prelim.py:436-468 [_bound], one value of a column with bounds [lo], [hi]; the arithmetic
    with 0/1 masks is kept because 0 * NaN is NaN *)
Definition bound_value (lo hi : num) (v : num) : num :=
  let hm := nlt hi v in let lm := nlt v lo in
  nadd (nadd (nmul v (b2n (negb (hm || lm)))) (nmul (b2n hm) hi)) (nmul (b2n lm) lo).
Definition bound_column (col : list num) : list num :=
  map (bound_value (lo_bound col) (hi_bound col)) col.

(* ------------------------------------------------------------------ normalisation *)
(** np.min: NaN if there is a NaN (or nothing) *)
Definition nmin (l : list num) : num :=
  match finite l with
  | Some (q :: t) => Some (fold_left (fun a b => if Qle_bool a b then a else b) t q)
  | _ => None
  end.
Definition present (col : list num) : list Q :=
  flat_map (fun v => match v with Some q => [q] | None => [] end) col.
(** [col[~idx] = vals] with [idx = isnan(col)] *)
Fixpoint scatter (col vals : list num) : list num :=
  match col, vals with
  | None :: t, _ => None :: scatter t vals
  | Some _ :: t, w :: ws => w :: scatter t ws
  | Some q :: t, [] => Some q :: scatter t []
  | [], _ => []
  end.
(** prelim.py:536-551 (features) and 553-568 (performance): one column of [_normalise].
    [transform] is Box-Cox with the fitted lambda followed by the z-score (scipy); it keeps the
    length.  [shift] is what is added after subtracting [m]. *)
Definition normalise_column (transform : list Q -> list num) (m : num) (shift : Q) (col : list num) : list num :=
  let c := map (fun v => nadd (nsub v m) (Some shift)) col in
  scatter c (transform (present c)).
Definition normalise_feature (transform : list Q -> list num) (col : list num) : list num :=
  normalise_column transform (nmin col) 1 col.
(** all columns of y share one minimum (553-555) *)
Definition normalise_perf (transform : list Q -> list num) (cols : list (list num)) : list (list num) :=
  map (normalise_column transform (nmin (concat cols)) eps) cols.

(** prelim.py:685-716: one feature column through [_prelim] *)
Definition feature_column (o : popts) (transform : list Q -> list num) (col : list num) : list num :=
  let c := if bound o then bound_column col else col in
  if norm o then normalise_feature transform c else c.

(** the columns of a matrix of n columns *)
Definition columns_of {A} (dflt : A) (n : nat) (rows : list (list A)) : list (list A) :=
  map (fun j => map (fun r => nth j r dflt) rows) (seq 0 n).
(** prelim.py:609-716, the output y of [_prelim], by columns.  [_normalise] works on self.y
    (553-568), the array the stage was constructed with, not on the local variable that the
    relative mode rebinds (635, 660). *)
Definition prelim_y (o : popts) (transform : list Q -> list num) (nalgos : nat) (rows : list (list num)) : list (list ext) :=
  let outs := map (prelim_row o) rows in
  if norm o then map (map of_num) (normalise_perf transform (columns_of None nalgos (map r_y_inplace outs)))
  else columns_of ENaN nalgos (map r_y outs).

(* ------------------------------------------------------------------ instance selection *)
Inductive selerr := EIndex | EFilter (e : ferr) | ESplit.

(** [subset_index[aux] = True] for integer indices, negative ones counting from the end;
    [None] is IndexError *)
Definition py_index (n : nat) (z : Z) : option nat :=
  if (0 <=? z)%Z then if (z <? Z.of_nat n)%Z then Some (Z.to_nat z) else None
  else if (0 <=? z + Z.of_nat n)%Z then Some (Z.to_nat (z + Z.of_nat n)) else None.
Fixpoint set_true (mask : list bool) (idx : list Z) : option (list bool) :=
  match idx with
  | [] => Some mask
  | z :: t => match py_index (length mask) z with
              | None => None
              | Some i => set_true (upd i (fun _ => true) mask) t
              end
  end.

(** prelim.py:817-828: the mask read from the index file; [file] is what np.genfromtxt
    returns, flattened (the boolean indexing flattens it) *)
Definition file_mask (n : nat) (file : list Z) : option (list bool) :=
  let aux := filter (fun z => (z <? Z.of_nat n)%Z) file in
  set_true (repeat false n) (map (fun z => (z - 1)%Z) aux).

(** The per-instance data handed to [_filter]. *)
Record inst_data (L S : Type) := {
  d_x : list (list num); d_y : list (list num); d_x_raw : list (list num); d_y_raw : list (list num);
  d_bin : list (list bool); d_beta : list bool; d_good : list nat; d_best : list ext; d_p : list nat;
  d_labels : list L; d_s : option (list S)
}.

(** prelim.py:846-860: every array restricted by the mask *)
Definition restrict {L S} (mask : list bool) (d : inst_data L S) : inst_data L S :=
  {| d_x := select mask (d_x d); d_y := select mask (d_y d);
     d_x_raw := select mask (d_x_raw d); d_y_raw := select mask (d_y_raw d);
     d_bin := select mask (d_bin d); d_beta := select mask (d_beta d);
     d_good := select mask (d_good d); d_best := select mask (d_best d);
     d_p := select mask (d_p d); d_labels := select mask (d_labels d);
     d_s := option_map (select mask) (d_s d) |}.

(** The selection options (SelvarsOptions).  [small_scale_float], [min_distance_float] and
    [type_str] are the isinstance tests; [file_exists] is Path(file_idx).is_file(). *)
Record selopts := {
  small_scale_flag : bool; small_scale_float : bool;
  file_idx_flag : bool; file_exists : bool;
  density_flag : bool; min_distance_float : bool; type_str : bool;
  selvars_type : string; min_distance : Q
}.

(** prelim.py:736-876 [_filter].  [split] is the outcome of train_test_split: the chosen
    positions, or [None] if it raises; [file] the content of the index file. *)
Definition filter_insts {L S} (o : selopts) (split : option (list nat)) (file : list Z)
    (n_feats n_algos : nat) (d : inst_data L S)
  : res selerr (list bool * inst_data L S * option (inst_data L S)) :=
  let n := length (d_x d) in
  let fractional := small_scale_flag o && small_scale_float o in
  let fileindexed := file_idx_flag o && file_exists o in
  let bydensity := density_flag o && min_distance_float o && type_str o in
  let mask :=
    if fractional then
      match split with
      | None => Err ESplit
      | Some idx => match set_true (repeat false n) (map Z.of_nat idx) with
                    | Some m => Ok m | None => Err EIndex end
      end
    else if fileindexed then
      match file_mask n file with Some m => Ok m | None => Err EIndex end
    else if bydensity then
      match filter_instance (d_x d) (d_y d) (d_bin d) n_feats n_algos (min_distance o) (selvars_type o) with
      | Ok (ex, _, _) => Ok (map negb ex)
      | Err e => Err (EFilter e)
      end
    else Ok (repeat true n) in
  match mask with
  | Err e => Err e
  | Ok m =>
      if fileindexed || fractional || bydensity
      then Ok (m, restrict m d, if bydensity then Some d else None)
      else Ok (m, d, None)
  end.
