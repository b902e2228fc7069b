(** Model of instancespace/utils/filter.py: the instance purifier.  Definitions only. *)
From Verif Require Import Base Num.
Set Implicit Arguments.

(** filter.py:20-28 [_FilterType] *)
Inductive ftype := Ftr | FtrAP | FtrGood | FtrAPGood.
(** [_FilterType(selvars_type)]; [None] is ValueError *)
Definition parse_type (s : string) : option ftype :=
  if String.eqb s "Ftr" then Some Ftr
  else if String.eqb s "Ftr&AP" then Some FtrAP
  else if String.eqb s "Ftr&Good" then Some FtrGood
  else if String.eqb s "Ftr&AP&Good" then Some FtrAPGood
  else None.

Inductive ferr := EZeroDivision | EValue.

(** the square of [cdist([u], [v]).item()] *)
Definition sqdist (u v : list num) : num :=
  fold_left (fun acc p => nadd acc (nmul (nsub (fst p) (snd p)) (nsub (fst p) (snd p))))
            (combine u v) (Some 0%Q).

(** the three boolean results of one instance: the entries of subset_index, is_dissimilar and
    is_visa at one index *)
Record flags := { excl : bool; dis : bool; visa : bool }.

Section Filter.
  (** feature rows, performance rows, goodness rows; the data are 2-d arrays, [n_feats] is
      x.shape[1], [n_algos] is y.shape[1] *)
  Variables x y : list (list num).
  Variable y_bin : list (list bool).
  Variables n_feats n_algos : nat.
  Variable min_distance : Q.

  (** filter.py:74,78 [dx <= min_distance].  The square root is avoided: a distance is at most
      [m] iff [m >= 0] and its square is at most [m*m] ([FilterProps.C32_squares_are_distances]). *)
  Definition close_x (i j : nat) : bool :=
    Qle_bool 0 min_distance &&
    nle (sqdist (nth i x []) (nth j x [])) (Some (min_distance * min_distance)%Q).

  (** filter.py:60,75,84 [dy <= gamma], [gamma = sqrt(n_algos / n_feats) * min_distance] *)
  Definition close_y (i j : nat) : bool :=
    Qle_bool 0 min_distance &&
    nle (sqdist (nth i y []) (nth j y []))
        (Some ((Z.of_nat n_algos # 1) / (Z.of_nat n_feats # 1) * (min_distance * min_distance))%Q).

  (** filter.py:76 [db = np.all(np.logical_and(y_bin[i, :], y_bin[j, :]))] *)
  Definition both_good (i j : nat) : bool :=
    forallb (fun p => fst p && snd p) (combine (nth i y_bin []) (nth j y_bin [])).

  (** filter.py:79-97: the effect of row i on the entries of row j, when dx <= min_distance *)
  Definition mark (t : ftype) (i j : nat) (f : flags) : flags :=
    match t with
    | Ftr => {| excl := true; dis := false; visa := visa f |}
    | FtrAP => if close_y i j then {| excl := true; dis := false; visa := false |}
               else {| excl := false; dis := false; visa := true |}
    | FtrGood => if both_good i j then {| excl := true; dis := false; visa := false |}
                 else {| excl := false; dis := false; visa := true |}
    | FtrAPGood => if both_good i j
                   then if close_y i j then {| excl := true; dis := false; visa := false |}
                        else {| excl := false; dis := false; visa := true |}
                   else {| excl := excl f; dis := false; visa := true |}
    end.

  Definition get (st : list flags) (i : nat) : flags :=
    nth i st {| excl := false; dis := true; visa := false |}.

  (** filter.py:69-97: the body of the inner loop *)
  Definition inner (t : ftype) (i : nat) (st : list flags) (j : nat) : list flags :=
    if excl (get st j) then st
    else if close_x i j then upd j (mark t i j) st
    else st.

  (** filter.py:63-97: the body of the outer loop over n instances *)
  Definition outer (t : ftype) (n : nat) (st : list flags) (i : nat) : list flags :=
    if excl (get st i) then st
    else fold_left (inner t i) (seq (S i) (n - S i)) st.

  (** filter.py:53-99 [filter_instance] *)
  Definition filter_instance (selvars_type : string) : res ferr (list bool * list bool * list bool) :=
    let n := length y in
    if Nat.eqb n_feats 0 then Err EZeroDivision
    else match parse_type selvars_type with
         | None => Err EValue
         | Some t =>
             let st := fold_left (outer t n) (seq 0 n)
                         (repeat {| excl := false; dis := true; visa := false |} n) in
             Ok (map excl st, map dis st, map visa st)
         end.
End Filter.
