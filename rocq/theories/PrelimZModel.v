(** Model of PRELIM's normalisation (instancespace/stages/prelim.py:470-581) over Coq's real numbers.
    Definitions only.  Columns without missing values: one missing value makes everything NaN
    (PrelimProps.v, C59). *)
From Verif Require Export PythiaZModel.
Import ListNotations.
Open Scope R_scope.

(** scipy.special.boxcox(x, lmbda), x positive *)
Definition boxcox (lam x : R) : R :=
  if Rlt_dec (Rabs lam) (/ 10 ^ 19) then ln x else (Rpower x lam - 1) / lam.
(** np.min of a non-empty list *)
Definition lmin (l : list R) : R :=
  match l with [] => 0 | a :: t => fold_left Rmin t a end.
(** stats.zscore(_, ddof=1); [None] stands for the column of NaNs that a constant column gives *)
Definition zscore_or_nan (l : list R) : option (list R) :=
  if Req_EM_T (std1 l) 0 then None else Some (zscore l).

Section Fit.
  (** the minimum optimize.fmin finds (prelim.py:526-528) for the likelihood of the data *)
  Variable fit : list R -> R.
  Record normalised := { n_values : option (list R); n_lambda : R; n_mu : R; n_sigma : R }.
  (** prelim.py:490-533 and 543-551, 561-568: one column after the shift *)
  Definition normalise_shifted (data : list R) : normalised :=
    let lam := fit data in
    let aux := map (boxcox lam) data in
    {| n_values := zscore_or_nan aux; n_lambda := lam; n_mu := mean aux; n_sigma := std1 aux |}.
  (** prelim.py:536-551: features are shifted by their own minimum; (min_x, the rest) *)
  Definition normalise_x (col : list R) : R * normalised :=
    let m := lmin col in (m, normalise_shifted (map (fun v => v - m + 1) col)).
  (** np.finfo(float).eps *)
  Definition machine_eps : R := / 2 ^ 52.
  (** prelim.py:553-568: performances are shifted by the minimum of all; (min_y, the rest) *)
  Definition normalise_y (cols : list (list R)) : R * list normalised :=
    let m := lmin (concat cols) in (m, map (fun col => normalise_shifted (map (fun v => (v - m) + machine_eps) col)) cols).
End Fit.
