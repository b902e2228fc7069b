(** Vocabulary for the SIFTED properties. *)
From Coq Require Import Qabs.
From Verif Require Import Base Num PreprocSpec SiftedModel.
Set Implicit Arguments.

(** Correlation of feature f with algorithm j. *)
Definition corr (rho : list (list Q)) (f j : nat) : Q := nth j (nth f rho []) 0%Q.

(** [order j] ranks all features by decreasing absolute correlation with algorithm j; ties are
    broken in any way (np.argsort is not stable). *)
Definition ranks (rho : list (list Q)) (nfeats nalgos : nat) (order : nat -> list nat) : Prop :=
  forall j, j < nalgos ->
    Permutation (order j) (seq 0 nfeats) /\
    forall a b, a < b < nfeats ->
      (Qabs (corr rho (nth b (order j) 0%nat) j) <= Qabs (corr rho (nth a (order j) 0%nat) j))%Q.

(** Feature f is the selected feature at some position labelled c. *)
Definition in_cluster (selvars labels : list nat) (c f : nat) : Prop :=
  exists p, nth_error selvars p = Some f /\ nth_error labels p = Some c.

(** Every one of the clusters 0..k-1 has a feature. *)
Definition no_empty_cluster (k : nat) (labels : list nat) : Prop := forall c, c < k -> In c labels.

(** The correlation that counts: the coefficient if it is defined and its p-value is not above
    0.05, otherwise zero. *)
Definition effective (rp : num * num) (v : Q) : Prop :=
  let too_likely := exists q, snd rp = Some q /\ ((5 # 100) < q)%Q in
  (fst rp = Some v /\ ~ too_likely) \/ ((fst rp = None \/ too_likely) /\ v = 0%Q).
