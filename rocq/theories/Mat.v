(** Vectors and matrices of floats ([Num.num]: exact rationals or NaN).  Definitions only.
    A matrix is the list of its rows. *)
From Verif Require Export Num.
Set Implicit Arguments.
Open Scope nat_scope.
Open Scope list_scope.

(** inner product; NaN if a factor is NaN (numpy's @ and np.dot) *)
Fixpoint dot (u v : list num) : num :=
  match u, v with
  | a :: u', b :: v' => nadd (nmul a b) (dot u' v')
  | _, _ => Some 0%Q
  end.
(** [m @ v] *)
Definition mulv (m : list (list num)) (v : list num) : list num := map (fun r => dot r v) m.
(** column [j] of a matrix with [cols] columns; [a @ b] where b has [cols] columns *)
Definition matmul (a b : list (list num)) (cols : nat) : list (list num) :=
  map (fun r => map (fun j => dot r (column None b j)) (seq 0 cols)) a.
(** [.T] of a matrix with [cols] columns *)
Definition transpose {A} (d : A) (m : list (list A)) (cols : nat) : list (list A) :=
  map (fun j => column d m j) (seq 0 cols).
(** [v.reshape(rows, cols)] (row-major) *)
Fixpoint reshape {A} (rows cols : nat) (v : list A) : list (list A) :=
  match rows with
  | O => []
  | S r => firstn cols v :: reshape r cols (skipn cols v)
  end.
(** [np.concatenate((x, y), axis=1)] *)
Fixpoint hcat {A} (x y : list (list A)) : list (list A) :=
  match x, y with a :: x', b :: y' => (a ++ b) :: hcat x' y' | _, _ => [] end.
(** np.nanmean: mean of the values that are not NaN, NaN when there is none *)
Definition present (l : list num) : list Q := flat_map (fun a => match a with Some q => [q] | None => [] end) l.
Definition qsum (l : list Q) : Q := fold_right Qplus 0%Q l.
Definition qlen {A} (l : list A) : Q := inject_Z (Z.of_nat (length l)).
Definition nanmean (l : list num) : num :=
  match present l with [] => None | _ => Some (qsum (present l) / qlen (present l))%Q end.
(** np.sum *)
Definition nsum (l : list num) : num := fold_right nadd (Some 0%Q) l.
(** np.mean *)
Definition nmean (l : list num) : num :=
  match l with [] => None | _ => match nsum l with Some s => Some (s / qlen l)%Q | None => None end end.
Definition nsq (a : num) : num := nmul a a.
Fixpoint vsub (u v : list num) : list num :=
  match u, v with a :: u', b :: v' => nsub a b :: vsub u' v' | _, _ => [] end.

(** np.argmax on floats: the first NaN if there is one, otherwise the first maximum *)
Fixpoint nargmax_from (l : list num) (i bi : nat) (bv : num) : nat :=
  match l with
  | [] => bi
  | v :: t => match bv with
              | None => bi
              | Some _ => if nle v bv then nargmax_from t (S i) bi bv else nargmax_from t (S i) i v
              end
  end.
Definition nargmax (l : list num) : nat :=
  match l with [] => 0 | v :: t => nargmax_from t 1 0 v end.
