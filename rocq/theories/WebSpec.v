(** Vocabulary for the files of the web front end and for the archive. *)
From Coq Require Import Qabs.
From Verif Require Import Mat PreprocSpec CloisterModel SerialModel SerialSpec.
Set Implicit Arguments.
Open Scope nat_scope.
Open Scope list_scope.

(** smallest and largest of some values *)
Definition bounds (l : list num) (lo hi : Q) : Prop :=
  In (Some lo) l /\ In (Some hi) l /\ forall q, In (Some q) l -> (lo <= q)%Q /\ (q <= hi)%Q.
(** z is 255 (q - lo) / (hi - lo), rounded down, to the nearest (a half to the even one) *)
Definition rounded_down (lo hi q : Q) (z : Z) : Prop :=
  (inject_Z z * (hi - lo) <= 255 * (q - lo) /\ 255 * (q - lo) < (inject_Z z + 1) * (hi - lo))%Q.
Definition rounded (lo hi q : Q) (z : Z) : Prop :=
  let error := Qabs (inject_Z z * (hi - lo) - 255 * (q - lo)) in
  (2 * error <= hi - lo)%Q /\ ((2 * error == hi - lo)%Q -> Z.even z = true).
(** c is the colour of v among the values l: defined iff none of them is missing and they are not
    all equal *)
Definition coloured (near : Q -> Q -> Q -> Z -> Prop) (l : list num) (v : num) (c : option Z) : Prop :=
  (forall lo hi, ~ In None l -> bounds l lo hi -> (lo < hi)%Q -> exists q z, v = Some q /\ c = Some z /\ near lo hi q z) /\
  (In None l \/ (forall a b, In (Some a) l -> In (Some b) l -> a == b)%Q -> c = None).

(** The seven files of save_for_web that depend on the model: name, column labels, values, values
    they are compared with, rounding. *)
Definition colour_files (m : model) :
  list (string * (list string * (nat -> nat -> num) * (nat -> list num) * (Q -> Q -> Q -> Z -> Prop))) :=
  [ ("feature_raw_color.csv"%string, (m_feat_labels m, fun i j => cell (m_x_raw m) i (nth j (m_idx m) 0),
       fun j => column None (m_x_raw m) (nth j (m_idx m) 0), rounded_down));
    ("algorithm_raw_single_color.csv"%string, (m_algo_labels m, cell (m_y_raw m), column None (m_y_raw m), rounded_down));
    ("feature_process_color.csv"%string, (m_feat_labels m, cell (m_x m), column None (m_x m), rounded_down));
    ("algorithm_process_single_color.csv"%string, (m_algo_labels m, cell (m_y m), column None (m_y m), rounded_down));
    ("algorithm_raw_color.csv"%string, (m_algo_labels m, cell (m_y_raw m), fun _ => concat (m_y_raw m), rounded));
    ("algorithm_process_color.csv"%string, (m_algo_labels m, cell (m_y m), fun _ => concat (m_y m), rounded));
    ("good_algos_color.csv"%string, (["NumGoodAlgos"%string], fun i _ => nth i (m_num_good_algos m) None,
       fun _ => m_num_good_algos m, rounded)) ].
(** The table shows the colours of the values. *)
Definition shows_colours (t : table) (cols labels : list string) (v : nat -> nat -> num) (among : nat -> list num)
  (near : Q -> Q -> Q -> Z -> Prop) : Prop :=
  exists c, shows t cols labels (fun i j => CColour (c i j)) /\
    forall i j, i < length labels -> j < length cols -> coloured near (among j) (v i j) (c i j).
(** arrays are rectangular *)
Definition array_shaped (m : model) : Prop :=
  forall a r, In a [m_x_raw m; m_x m; m_y_raw m; m_y m] -> In r a -> length r = width a.
(** what save_for_web needs of a model *)
Definition web_consistent (m : model) : Prop :=
  let inst := m_inst_labels m in
  inst <> [] /\ m_algo_labels m <> [] /\ (forall j, In j (m_idx m) -> j < width (m_x_raw m)) /\
  length (m_x_raw m) = length inst /\ length (m_idx m) = length (m_feat_labels m) /\
  fits (m_x m) inst (m_feat_labels m) /\ fits (m_y_raw m) inst (m_algo_labels m) /\ fits (m_y m) inst (m_algo_labels m) /\
  length (m_num_good_algos m) = length inst.

(** the files that belong in the archive *)
Definition kept (zip_filename : string) (f : found) : Prop := f_name f <> ".gitignore"%string /\ f_name f <> zip_filename.
