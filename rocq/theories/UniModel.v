(** Model of instancespace/utils/filter.py:99-157: the uniformity of the retained instances, over
    Coq's reals, and the wrapper [do_filter].  Definitions only.  Features may be missing (NaN). *)
From Coq Require Import Reals Qreals List Bool Arith.
From Verif Require Import Base Num FilterModel PythiaZModel.
Import ListNotations.
Set Implicit Arguments.
Open Scope R_scope.
Open Scope list_scope.

(** a float64 that may be NaN ([None]) *)
Notation rnum := (option R).

(** all values, if none is NaN *)
Fixpoint all_present (l : list rnum) : option (list R) :=
  match l with
  | [] => Some []
  | None :: _ => None
  | Some v :: l => option_map (cons v) (all_present l)
  end.

(** filter.py:116 [pdist(...)]: the Euclidean distance of two rows, NaN if either has a NaN *)
Definition dist (u v : list rnum) : rnum :=
  match all_present u, all_present v with
  | Some u, Some v => Some (sqrt (rsum (map (fun p => (fst p - snd p) * (fst p - snd p)) (combine u v))))
  | _, _ => None
  end.

(** filter.py:118 [np.nanmin]: NaN if there is no number *)
Fixpoint nanmin (l : list rnum) : rnum :=
  match l with
  | [] => None
  | None :: l => nanmin l
  | Some v :: l => match nanmin l with None => Some v | Some w => Some (Rmin v w) end
  end.

(** filter.py:116-118: column [i] of the distance matrix, with NaN on the diagonal; its least entry *)
Definition nearest (pts : list (list rnum)) (i : nat) : rnum :=
  nanmin (map (fun j => if Nat.eqb j i then None else dist (nth j pts []) (nth i pts []))
              (seq 0 (length pts))).

(** filter.py:99-119 [compute_uniformity], of the rows [x[~subset_index, :]].  For no or one row
    numpy gives NaN; so does the division of 0 by 0 (a mean of 0 implies a deviation of 0). *)
Definition compute_uniformity (pts : list (list rnum)) : rnum :=
  match all_present (map (nearest pts) (seq 0 (length pts))) with
  | None => None
  | Some [] => None
  | Some ds => if Req_EM_T (mean ds) 0 then None else Some (1 - std1 ds / mean ds)
  end.

(** the rational data of [FilterModel] as reals *)
Definition as_reals (row : list Num.num) : list rnum := map (option_map Q2R) row.

(** filter.py:122-157 [do_filter]; printing is left out *)
Definition do_filter (x y : list (list Num.num)) (y_bin : list (list bool)) (n_feats n_algos : nat)
    (selvars_type : string) (min_distance : Q)
    : res ferr (list bool * list bool * list bool * rnum) :=
  match filter_instance x y y_bin n_feats n_algos min_distance selvars_type with
  | Err e => Err e
  | Ok (subset_index, is_dissimilar, is_visa) =>
      Ok (subset_index, is_dissimilar, is_visa,
          compute_uniformity (map as_reals (select (map negb subset_index) x)))
  end.
