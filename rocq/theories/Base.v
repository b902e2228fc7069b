(** Shared vocabulary: Python results and Python sets as lists. *)
From Coq Require Export String.
From Coq Require Export List Arith ZArith Lia Bool Permutation.
Export ListNotations.
Set Implicit Arguments.
Open Scope list_scope.

(** A Python call either returns a value or raises; exceptions are values. *)
Inductive res (E A : Type) : Type :=
| Ok (a : A)
| Err (e : E).
Arguments Ok {E A} _.
Arguments Err {E A} _.

Definition is_ok {E A} (r : res E A) : bool :=
  match r with Ok _ => true | Err _ => false end.

(** Python sets are modelled by lists read as sets: only membership, the set
    operations below and emptiness are used.  [dec] is Python's [==]. *)
Section Sets.
  Variable A : Type.
  Variable dec : forall x y : A, {x = y} + {x <> y}.

  (** [x in s] *)
  Definition mem (x : A) (s : list A) : bool := if in_dec dec x s then true else false.

  (** [s - t] *)
  Definition sdiff (s t : list A) : list A := filter (fun x => negb (mem x t)) s.

  (** [s & t] *)
  Definition sinter (s t : list A) : list A := filter (fun x => mem x t) s.

  (** [s.add(x)] *)
  Definition sadd (x : A) (s : list A) : list A := if mem x s then s else s ++ [x].

  (** [s | t] *)
  Definition sunion (s t : list A) : list A := fold_left (fun acc x => sadd x acc) t s.
End Sets.

(** [len(s) > 0] *)
Definition nonempty {A} (s : list A) : bool :=
  match s with [] => false | _ :: _ => true end.
