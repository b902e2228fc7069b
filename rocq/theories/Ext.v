(** Floats with the infinities: exact rationals, plus and minus infinity, NaN.  Definitions
    only.  Rounding, overflow and the sign of zero are not modelled. *)
From Verif Require Export Num.
Set Implicit Arguments.
Open Scope nat_scope.
Open Scope list_scope.

Inductive ext := Fin (q : Q) | PInf | NInf | ENaN.

Definition of_num (a : num) : ext := match a with Some q => Fin q | None => ENaN end.

(** [a <= b], [a < b], [a == b]; false with NaN *)
Definition ele (a b : ext) : bool :=
  match a, b with
  | ENaN, _ | _, ENaN => false
  | NInf, _ => true
  | _, PInf => true
  | Fin x, Fin y => Qle_bool x y
  | _, _ => false
  end.
Definition elt (a b : ext) : bool :=
  match a, b with
  | ENaN, _ | _, ENaN => false
  | _, _ => negb (ele b a)
  end.
Definition eeq (a b : ext) : bool := ele a b && ele b a.

(** [1 - a] *)
Definition one_minus (a : ext) : ext :=
  match a with
  | Fin x => Fin (1 - x)
  | PInf => NInf
  | NInf => PInf
  | ENaN => ENaN
  end.

Definition sign (q : Q) : Z := Z.sgn (Qnum q).
Definition inf_of_sign (s : Z) : ext :=
  match s with Z0 => ENaN | Zpos _ => PInf | Zneg _ => NInf end.

(** [a / b]; a zero divisor counts as positive zero *)
Definition ediv (a b : ext) : ext :=
  match a, b with
  | ENaN, _ | _, ENaN => ENaN
  | Fin x, Fin y => if Qeq_bool y 0 then inf_of_sign (sign x) else Fin (x / y)
  | Fin _, _ => Fin 0
  | PInf, Fin y => if Qle_bool 0 y then PInf else NInf
  | NInf, Fin y => if Qle_bool 0 y then NInf else PInf
  | _, _ => ENaN
  end.
