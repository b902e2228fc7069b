(** Vocabulary for the option properties. *)
From Verif Require Import Base OptionsModel.
Set Implicit Arguments.
Open Scope string_scope.
Open Scope list_scope.

(** A Python dict has distinct keys. *)
Definition py_dict {A} (l : list (string * A)) : Prop := NoDup (map fst l).

(** [lower] leaves the (lower-case ASCII) names of the tables and "_" as they are. *)
Definition keeps_names (lower : string -> string) : Prop :=
  lower "_" = "_" /\
  forall sec f, In sec sections ->
    In f (map fst (sec_fields sec)) \/ In f (map fst (sec_alias sec)) -> lower f = f.

(** Lower-casing for ASCII. *)
Definition lower_char (c : Ascii.ascii) : Ascii.ascii :=
  let n := Ascii.nat_of_ascii c in
  if andb (65 <=? n)%nat (n <=? 90)%nat then Ascii.ascii_of_nat (n + 32)%nat else c.
Fixpoint ascii_lower (s : string) : string :=
  match s with EmptyString => EmptyString | String c t => String (lower_char c) (ascii_lower t) end.

Section Spec.
  Variable lower : string -> string.
  (** Key [k] of a section denotes field [f]: in lower case it is the name or an alias. *)
  Definition denotes (sec : section) (k f : string) : Prop :=
    In f (map fst (sec_fields sec)) /\ (lower k = f \/ In (lower k, f) (sec_alias sec)).

  (** What the dictionary says about a section; a section that is not given is empty. *)
  Definition content_of (d : list (string * jval)) (sec : section) (v : jval) : Prop :=
    In (sec_name sec, v) d \/ (~ In (sec_name sec) (map fst d) /\ v = JObj []).

  (** The keys of a section are acceptable: each denotes a field or is "_" and no two
      different keys denote the same thing. *)
  Definition good_keys (sec : section) (l : list (string * jval)) : Prop :=
    (forall k, In k (map fst l) -> lower k = "_" \/ exists f, denotes sec k f) /\
    (forall k1 k2 f, In k1 (map fst l) -> In k2 (map fst l) ->
       denotes sec k1 f -> denotes sec k2 f -> k1 = k2) /\
    (forall k1 k2, In k1 (map fst l) -> In k2 (map fst l) ->
       lower k1 = "_" -> lower k2 = "_" -> k1 = k2).
End Spec.

(** The value of a field of a section in loaded options. *)
Definition option_value (o : list (string * list (string * jval))) (sec f : string) : option jval :=
  match jget o sec with Some l => jget l f | None => None end.

(** The dictionary and the dictionaries it holds have distinct keys. *)
Definition nested_dict (d : list (string * jval)) : Prop :=
  py_dict d /\ forall n l, In (n, JObj l) d -> py_dict l.

(** The same value up to the order of the items of a dictionary. *)
Definition same_value (a b : jval) : Prop :=
  match a, b with
  | JObj l1, JObj l2 => Permutation l1 l2
  | _, _ => a = b
  end.
(** The same dictionary up to the order of its items and of the items in its sections. *)
Definition reordered (d1 d2 : list (string * jval)) : Prop :=
  exists d', Permutation d1 d' /\
    Forall2 (fun a b => fst a = fst b /\ same_value (snd a) (snd b)) d' d2.

(** Loaded options written out as a dictionary again, every field under its own name. *)
Definition as_dict (r : list (string * list (string * jval))) : list (string * jval) :=
  map (fun sl => (fst sl, JObj (snd sl))) r.

(** A name without its underscores (character 95). *)
Fixpoint strip (s : string) : string :=
  match s with
  | EmptyString => EmptyString
  | String c t => if Ascii.eqb c (Ascii.ascii_of_nat 95) then strip t else String c (strip t)
  end.
(** The options that cannot be written without underscores. *)
Definition no_short_form : list (string * string) :=
  [("selvars", "selvars_type"); ("pythia", "use_grid_search"); ("sifted", "num_generations");
   ("sifted", "num_parents_mating"); ("sifted", "sol_per_pop"); ("sifted", "parent_selection_type");
   ("sifted", "k_tournament"); ("sifted", "keep_elitism"); ("sifted", "crossover_type");
   ("sifted", "cross_over_probability"); ("sifted", "mutation_type");
   ("sifted", "mutation_probability"); ("sifted", "stop_criteria")].
(** Other accepted names: section, spelling, option. *)
Definition other_names : list (string * string * string) :=
  [("selvars", "type", "selvars_type"); ("pythia", "uselibsvm", "use_grid_search");
   ("trace", "pi", "purity")].

(** Where each PRELIM option comes from. *)
Definition prelim_sources : list (string * (string * string)) :=
  [("max_perf", ("perf", "max_perf")); ("abs_perf", ("perf", "abs_perf"));
   ("epsilon", ("perf", "epsilon")); ("beta_threshold", ("perf", "beta_threshold"));
   ("bound", ("bound", "flag")); ("norm", ("norm", "flag"))].
