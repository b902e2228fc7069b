(** Model of instancespace/stages/cloister.py.  Definitions only.  Logging is not modelled. *)
From Verif Require Export Mat.
Set Implicit Arguments.
Open Scope nat_scope.
Open Scope list_scope.

(** ValueError of pearsonr (fewer than two instances) and of np.min (no instance). *)
Inductive clerr := EPearson | ENoInstance.

(** np.min and np.max of a column: NaN if an entry is *)
Definition nmin2 (a b : num) : num :=
  match a, b with Some x, Some y => Some (if Qle_bool x y then x else y) | _, _ => None end.
Definition nmax2 (a b : num) : num :=
  match a, b with Some x, Some y => Some (if Qle_bool x y then y else x) | _, _ => None end.
Definition col_min (l : list num) : num := match l with [] => None | a :: t => fold_left nmin2 t a end.
Definition col_max (l : list num) : num := match l with [] => None | a :: t => fold_left nmax2 t a end.

(** np.sign, and the comparison of two signs; NaN differs from everything *)
Definition nsign (a : num) : option Z := match a with Some q => Some (Z.sgn (Qnum q)) | None => None end.
Definition sign_eq (a b : num) : bool :=
  match nsign a, nsign b with Some s, Some t => Z.eqb s t | _, _ => false end.

(** np.binary_repr(dec, width) for dec < 2^width: the digits, most significant first *)
Definition binary_repr (dec width : nat) : list bool :=
  map (fun p => Nat.testbit dec (width - 1 - p)) (seq 0 width).
(** cloister.py:244-262 [_decimal_to_binary_matrix] (for nfeats > 0) *)
Definition decimal_to_binary_matrix (nfeats : nat) : list (list bool) :=
  map (fun dec => rev (binary_repr dec nfeats)) (seq 0 (2 ^ nfeats)).

Section Cloister.
  (** scipy's pearsonr (rho, p-value) *)
  Variable pearson : list num -> list num -> res clerr (num * num).
  (** scipy's ConvexHull(points).vertices; None: QhullError or ValueError *)
  Variable hull : list (list num) -> option (list nat).

  (** cloister.py:224-241, one entry: insignificant coefficients become zero *)
  Definition rho_entry (x : list (list num)) (p_val : Q) (i j : nat) : res clerr num :=
    if Nat.eqb i j then Ok (Some 0%Q)
    else match pearson (column None x i) (column None x j) with
         | Err e => Err e
         | Ok (r, p) => Ok (if nlt (Some p_val) p then Some 0%Q else r)
         end.
  Fixpoint sequence {E A} (l : list (res E A)) : res E (list A) :=
    match l with
    | [] => Ok []
    | Err e :: _ => Err e
    | Ok a :: t => match sequence t with Ok r => Ok (a :: r) | Err e => Err e end
    end.
  (** cloister.py:202-241 [_compute_correlation] *)
  Definition compute_correlation (x : list (list num)) (nfeats : nat) (p_val : Q)
    : res clerr (list (list num)) :=
    sequence (map (fun i => sequence (map (rho_entry x p_val i) (seq 0 nfeats))) (seq 0 nfeats)).

  (** cloister.py:317-331: the vertices.  The Fortran-order flat index of (bit, j) in a (2, nfeats)
      array is bit + 2 j; x_bnds.T.flatten() lists min, max of each feature in turn. *)
  Definition x_edge (x : list (list num)) (nfeats : nat) : list (list num) :=
    let x_bnds_T := flat_map (fun j => [col_min (column None x j); col_max (column None x j)]) (seq 0 nfeats) in
    map (fun bits => map (fun bj => nth ((if fst bj : bool then 1 else 0) + 2 * snd bj) x_bnds_T None)
                         (combine bits (seq 0 nfeats)))
        (decimal_to_binary_matrix nfeats).
  (** cloister.py:332-346: is the vertex removed?  The breaks only stop the search early. *)
  Definition removed (rho : list (list num)) (c_thres : Q) (nfeats : nat) (v : list num) : bool :=
    existsb (fun j =>
      existsb (fun k =>
        let r := nth k (nth j rho []) None in
        let s := sign_eq (nth j v None) (nth k v None) in
        (nlt (Some c_thres) r && negb s) || (nlt r (Some (- c_thres)%Q) && s))
        (seq (j + 1) (nfeats - (j + 1))))
      (seq 0 nfeats).

  (** cloister.py:265-286 [_compute_convex_hull] *)
  Definition compute_convex_hull (points : list (list num)) : list (list num) :=
    match hull points with
    | Some vs => map (fun i => nth i points []) vs
    | None => []
    end.

  (** cloister.py:161-199 [cloister]: z_edge and z_ecorr; [a] is the projection matrix, [nfeats]
      is x.shape[1] *)
  Definition cloister (x a : list (list num)) (nfeats : nat) (p_val c_thres : Q)
    : res clerr (list (list num) * list (list num)) :=
    match compute_correlation x nfeats p_val with
    | Err e => Err e
    | Ok rho =>
        match x with
        | [] => Err ENoInstance
        | _ =>
            let edge := x_edge x nfeats in
            let remove := map (removed rho c_thres nfeats) edge in
            let z_edge := compute_convex_hull (map (mulv a) edge) in
            let z_ecorr := compute_convex_hull (map (mulv a) (select (map negb remove) edge)) in
            Ok (z_edge, match z_ecorr with [] => z_edge | _ => z_ecorr end)
        end
    end.
End Cloister.
