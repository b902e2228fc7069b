(** Model of instancespace/data/metadata.py and of the functions of instance_space.py that read an
    instance space from files.  Definitions only. *)
From Verif Require Import Base OptionsModel.
Set Implicit Arguments.
Open Scope string_scope.
Open Scope list_scope.

(** str.startswith *)
Fixpoint starts_with (p s : string) : bool :=
  match p, s with
  | EmptyString, _ => true
  | String a p', String b s' => if Ascii.eqb a b then starts_with p' s' else false
  | _, _ => false
  end.

Section Meta.
  Variable C : Type.                       (** values of cells *)
  Variable lower : string -> string.       (** str.lower *)
  Variable show : C -> C.                  (** a number as text, [astype(str)] *)
  (** dtype of a row of cells from several columns *)
  Variable row_numeric : list bool -> bool.
  (** whether a text is the name of a numeric dtype *)
  Variable dtype_name : C -> bool.

  (** A DataFrame: columns with their dtype (numeric or not), in order; labels are strings, as
      read_csv makes them. *)
  Record column := { c_name : string; c_numeric : bool; c_cells : list C }.
  Record frame := { f_rows : nat; f_cols : list column }.

  (** metadata.py:43-47 *)
  Definition is_name (c : column) : bool := String.eqb (lower (c_name c)) "instances".
  Definition is_feat (c : column) : bool := starts_with "feature_" (lower (c_name c)).
  Definition is_algo (c : column) : bool := starts_with "algo_" (lower (c_name c)).
  Definition is_source (c : column) : bool := String.eqb (lower (c_name c)) "source".
  (** [data.loc[:, mask]] *)
  Definition loc (f : frame) (p : column -> bool) : list column := filter p (f_cols f).

  (** DataFrame.squeeze: axes of length one are dropped *)
  Inductive squeezed := SFrame (cols : list column) | SSeries (numeric : bool) (l : list C) | SScalar (numeric : bool) (c : C).
  Definition squeeze (rows : nat) (cols : list column) : squeezed :=
    match rows, cols with
    | 1, [c] => match c_cells c with v :: _ => SScalar (c_numeric c) v | [] => SSeries (c_numeric c) [] end
    | _, [c] => SSeries (c_numeric c) (c_cells c)
    | 1, _ => SSeries (row_numeric (map c_numeric cols)) (concat (map (fun c => firstn 1 (c_cells c)) cols))
    | _, _ => SFrame cols
    end.
  (** metadata.py:49-52; a frame is not numeric, and of a single text pandas asks whether it names a
      numeric dtype: then [.astype] raises AttributeError *)
  Inductive merr := EAstype.
  Definition labels_as_text (s : squeezed) : res merr squeezed :=
    match s with
    | SFrame cols => Ok (SFrame cols)
    | SSeries true l => Ok (SSeries false (map show l))
    | SSeries false l => Ok (SSeries false l)
    | SScalar true c => Ok (SScalar false (show c))
    | SScalar false c => if dtype_name c then Err EAstype else Ok (SScalar false c)
    end.

  (** to_numpy *)
  Definition to_numpy (rows : nat) (cols : list column) : list (list C) :=
    map (fun i => concat (map (fun c => match nth_error (c_cells c) i with Some v => [v] | None => [] end) cols)) (seq 0 rows).

  (** metadata.py:22-27 *)
  Record metadata := {
    feature_names : list string; algorithm_names : list string;
    instance_labels : squeezed; instance_sources : option squeezed;
    features : list (list C); algorithms : list (list C)
  }.
  (** metadata.py:29-71 [Metadata.from_data_frame] *)
  Definition from_data_frame (f : frame) : res merr metadata :=
    match labels_as_text (squeeze (f_rows f) (loc f is_name)) with
    | Err e => Err e
    | Ok labels =>
        let source := if existsb is_source (f_cols f) then Some (squeeze (f_rows f) (loc f is_source)) else None in
        let feats := loc f is_feat in
        let algos := loc f is_algo in
        Ok {| feature_names := map c_name feats; algorithm_names := map c_name algos;
              features := to_numpy (f_rows f) feats; algorithms := to_numpy (f_rows f) algos;
              instance_sources := source; instance_labels := labels |}
    end.

  (** What pd.read_csv does: a frame, or one of the exceptions; UnicodeDecodeError is a ValueError
      that is none of the other three. *)
  Inductive read_result := Read (f : frame) | NotFound | OtherOSError | ParserError | EmptyData | DecodeError.
  (** exceptions that leave the functions below *)
  Inductive ferr := EDecode | EMeta (e : merr) | EOptions (e : oerr).
  (** metadata.py:83-119 [from_csv_file]; [Ok None] is a returned None *)
  Definition from_csv_file (r : read_result) : res ferr (option metadata) :=
    match r with
    | NotFound | OtherOSError | ParserError | EmptyData => Ok None
    | DecodeError => Err EDecode
    | Read f => match from_data_frame f with Ok m => Ok (Some m) | Err e => Err (EMeta e) end
    end.

  Variable read_csv : string -> read_result.           (** by path *)
  Variable read_text : string -> option string.        (** open and read, as in [from_json_file] *)
  Variable parse : string -> option jval.              (** json.loads *)
  (** The InstanceSpace made; constructing it with the default stages never fails (C102). *)
  Record instance_space := { is_metadata : metadata; is_options : list (string * list (string * jval)) }.
  (** instance_space.py:314-358 [instance_space_from_files]; also the files opened, in order *)
  Definition instance_space_from_files (metadata_filepath options_filepath : string)
    : list string * res ferr (option instance_space) :=
    match from_csv_file (read_csv metadata_filepath) with
    | Err e => ([metadata_filepath], Err e)
    | Ok None => ([metadata_filepath], Ok None)
    | Ok (Some m) =>
        ([metadata_filepath; options_filepath],
         match from_json_file lower (read_text options_filepath) parse with
         | Err e => Err (EOptions e)
         | Ok None => Ok None
         | Ok (Some o) => Ok (Some {| is_metadata := m; is_options := o |})
         end)
    end.
  (** instance_space.py:361-380 [instance_space_from_directory] *)
  Definition instance_space_from_directory (directory : string) : list string * res ferr (option instance_space) :=
    instance_space_from_files (append directory "/metadata.csv") (append directory "/options.json").
End Meta.
