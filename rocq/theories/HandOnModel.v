(** Model of what PRELIM, SIFTED and the Model object hand on besides their results.  Definitions only. *)
From Verif Require Import Mat PrelimModel SerialModel.
From Verif Require SiftedModel.
Set Implicit Arguments.

(** What SIFTED is given after PRELIM has returned [d']: PRELIM's per-instance outputs, but with the labels
    PREPROCESSING returned, because PRELIM calls the restricted labels instlabels (prelim.py:113-160,
    311) and SIFTED reads inst_labels (sifted.py:80-142).  That the names lead there is
    C104_where_values_come_from. *)
Definition sifted_inputs {L S} (inst_labels : list L) (d' : inst_data L S) : inst_data L S :=
  {| d_x := d_x d'; d_y := d_y d'; d_x_raw := d_x_raw d'; d_y_raw := d_y_raw d';
     d_bin := d_bin d'; d_beta := d_beta d'; d_good := d_good d'; d_best := d_best d'; d_p := d_p d';
     d_labels := inst_labels; d_s := d_s d' |}.

(** sifted.py:567-586, 604-623, 630-649, 692-711: every return of [_sifted] hands on all but x as it was given *)
Definition sifted_run {L S} (pearson : list (Q * Q) -> num * num)
    (order : list (list Q) -> nat -> list nat) (sil : list nat -> list Q) (km_labels : list nat -> list nat)
    (best : list nat -> list Z) (labels : list string) (nalgos : nat) (threshold : Q) (k : nat)
    (dense : option (list (list num) * list (list num) * list (list bool))) (stype : string) (min_distance : Q)
    (d : inst_data L S) : res SiftedModel.sierr (SiftedModel.sift_out * inst_data L S) :=
  match SiftedModel.sifted pearson order sil km_labels best (d_x d) (d_y d) labels nalgos threshold k dense stype min_distance with
  | Err e => Err e
  | Ok out => Ok (out, {| d_x := SiftedModel.so_x out; d_y := d_y d; d_x_raw := d_x_raw d; d_y_raw := d_y_raw d;
                          d_bin := d_bin d; d_beta := d_beta d; d_good := d_good d; d_best := d_best d; d_p := d_p d;
                          d_labels := d_labels d; d_s := d_s d |})
  end.

(** data/model.py:39-71: the Data of the model holds what SIFTED returned *)
Definition holds {S} (m : model) (d : inst_data string S) : Prop :=
  m_inst_labels m = d_labels d /\ m_x m = d_x d /\ m_y m = d_y d /\ m_x_raw m = d_x_raw d /\ m_y_raw m = d_y_raw d /\
  m_y_bin m = d_bin d /\ m_beta m = d_beta d.
