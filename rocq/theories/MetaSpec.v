(** Vocabulary for the properties of metadata files. *)
From Verif Require Import Base OptionsModel MetaModel PreprocSpec.
Set Implicit Arguments.
Open Scope string_scope.
Open Scope list_scope.

Section Spec.
  Variable C : Type.
  Variable lower : string -> string.
  Notation column := (column C).
  Notation frame := (frame C).

  (** every column has a value in every row *)
  Definition rectangular (f : frame) : Prop := forall c, In c (f_cols f) -> length (c_cells c) = f_rows f.
  (** the name of a column, in lower case, is n / begins with p *)
  Definition called (n : string) (c : column) : Prop := lower (c_name c) = n.
  Definition prefixed (p : string) (c : column) : Prop := exists rest, lower (c_name c) = append p rest.

  (** [names] and [values] (a row per instance) are those of the columns with property P, in the order of
      the file: the j-th of them is column number nth j idx. *)
  Definition taken_from (f : frame) (P : column -> Prop) (names : list string) (values : list (list C)) : Prop :=
    exists idx, increasing idx /\
      (forall j, In j idx <-> exists c, nth_error (f_cols f) j = Some c /\ P c) /\
      map Some names = map (fun j => option_map (fun c => c_name c) (nth_error (f_cols f) j)) idx /\
      length values = f_rows f /\
      forall i row, nth_error values i = Some row ->
        map Some row = map (fun j => match nth_error (f_cols f) j with Some c => nth_error (c_cells c) i | None => None end) idx.

  (** c is the only column with property P *)
  Definition only (f : frame) (P : column -> Prop) (c : column) : Prop :=
    exists l r, f_cols f = l ++ c :: r /\ P c /\ forall c', In c' (l ++ r) -> ~ P c'.

  (** Two frames that agree on the columns with property P, in the same order. *)
  Inductive same_columns (P : column -> Prop) : list column -> list column -> Prop :=
  | same_nil : same_columns P [] []
  | same_left c l r : ~ P c -> same_columns P l r -> same_columns P (c :: l) r
  | same_right c l r : ~ P c -> same_columns P l r -> same_columns P l (c :: r)
  | same_both c l r : P c -> same_columns P l r -> same_columns P (c :: l) (c :: r).
End Spec.
