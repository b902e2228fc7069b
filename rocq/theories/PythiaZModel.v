(** Model of the real-valued parts of instancespace/stages/pythia.py, over Coq's real numbers:
    normalisation of the coordinates and the hyper-parameter grid.  Definitions only. *)
From Coq Require Export Reals List.
Import ListNotations.
Open Scope R_scope.

(** np.mean; np.std with ddof = 1 *)
Definition rsum (l : list R) : R := fold_right Rplus 0 l.
Definition mean (l : list R) : R := rsum l / INR (length l).
Definition std1 (l : list R) : R :=
  sqrt (rsum (map (fun v => (v - mean l) * (v - mean l)) l) / (INR (length l) - 1)).
(** stats.zscore(_, ddof=1) of one column; a constant column (NaN in the code) gives 0 / 0, which
    Coq's division makes some real number, so nothing is claimed of it *)
Definition zscore (l : list R) : list R := map (fun v => (v - mean l) / std1 l) l.
(** pythia.py:634-652 [_compute_znorm], one column: (mu, sigma, z) *)
Definition compute_znorm (l : list R) : R * R * list R :=
  let z := zscore l in (mean z, std1 z, z).

(** pythia.py:731-753 [_generate_params]: C and gamma of a sample of the unit square *)
Definition maxgrid : R := 4.
Definition mingrid : R := -10.
Definition grid_value (s : R) : R := Rpower 2 ((maxgrid - mingrid) * s + mingrid).
Definition generate_params (samples : list (R * R)) : list R * list R :=
  (map (fun s => grid_value (fst s)) samples, map (fun s => grid_value (snd s)) samples).
