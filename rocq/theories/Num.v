(** Numbers and arrays shared by the numeric stages.  Definitions only.

    A float is an exact rational or NaN ([None]).  Rounding, overflow and the infinities are
    not modelled; a comparison with NaN is false, arithmetic with NaN is NaN. *)
From Coq Require Export QArith.
From Verif Require Export Base.
Set Implicit Arguments.
Open Scope nat_scope.
Open Scope list_scope.

Definition num := option Q.
Definition nle (a b : num) : bool :=
  match a, b with Some x, Some y => Qle_bool x y | _, _ => false end.
Definition nlt (a b : num) : bool :=
  match a, b with Some x, Some y => negb (Qle_bool y x) | _, _ => false end.
Definition neqb (a b : num) : bool :=
  match a, b with Some x, Some y => Qeq_bool x y | _, _ => false end.
Definition nadd (a b : num) : num :=
  match a, b with Some x, Some y => Some (x + y)%Q | _, _ => None end.
Definition nsub (a b : num) : num :=
  match a, b with Some x, Some y => Some (x - y)%Q | _, _ => None end.
Definition nmul (a b : num) : num :=
  match a, b with Some x, Some y => Some (x * y)%Q | _, _ => None end.
Definition isnan (a : num) : bool := match a with None => true | Some _ => false end.

(** [a[i] = f(a[i])] *)
Fixpoint upd {A} (i : nat) (f : A -> A) (l : list A) : list A :=
  match l, i with
  | [], _ => []
  | x :: t, O => f x :: t
  | x :: t, S i => x :: upd i f t
  end.

(** a column of a matrix given by its rows; [d] fills rows that are too short (none are) *)
Definition column {A} (d : A) (m : list (list A)) (j : nat) : list A := map (fun r => nth j r d) m.

(** boolean-mask row selection, [a[mask]] *)
Fixpoint select {A} (mask : list bool) (l : list A) : list A :=
  match mask, l with
  | b :: m, x :: t => if b then x :: select m t else select m t
  | _, _ => []
  end.
