(** Model of instancespace/stages/pilot.py: the numerical solution.  Definitions only.
    The analytic solution is in PilotMxModel.v. *)
From Verif Require Export Mat.
Set Implicit Arguments.
Open Scope nat_scope.
Open Scope list_scope.

Inductive pierr := EConcat | EUnboundIdx | EStartIndex | EQuality | ELabels.
Definition pierr_exn (e : pierr) : string :=
  match e with
  | EConcat => "ValueError"              (* np.concatenate: different numbers of rows *)
  | EUnboundIdx => "UnboundLocalError"   (* idx was never assigned *)
  | EStartIndex => "IndexError"          (* x0[:, i] *)
  | EQuality => "ValueError"             (* pearsonr: fewer than two distances *)
  | ELabels => "ValueError"              (* pd.DataFrame: wrong number of column names *)
  end%string.

(** pilot.py:555-565 [error_function] for the flat parameters [alpha] *)
Definition error_function (alpha : list num) (x_bar : list (list num)) (n m : nat) : num :=
  let a := reshape 2 n (firstn (2 * n) alpha) in
  let b := reshape m 2 (skipn (2 * n) alpha) in
  let ba := matmul b a n in
  nanmean (map (fun row => nanmean (map nsq (vsub row (mulv ba (firstn n row))))) x_bar).

(** options.py:283-313; a start is a column of x0; [p_alpha] are the rows of alpha *)
Record pilot_options := {
  p_x0 : option (list (list num));
  p_alpha : option (list (list num));
  p_tries : nat
}.

(** pilot.py:57-89 [PilotOutput]; alpha by columns *)
Record pilot_output := {
  po_x0 : list (list num); po_alpha : list (list num); po_eoptim : list num; po_perf : list num;
  po_a : list (list num); po_z : list (list num); po_c : list (list num); po_b : list (list num);
  po_error : num; po_r2 : list num; po_summary : list string * list (string * list num)
}.

(** numpy's sample variance; [v / sqrt v / sqrt v] is [v / v]: a diagonal entry of corrcoef *)
Definition variance (l : list num) : num :=
  match nmean l with
  | None => None
  | Some mu => match nsum (map (fun v => nsq (nsub v (Some mu))) l) with
               | Some s => if Nat.leb (length l) 1 then None else Some (s / (qlen l - 1))%Q
               | None => None
               end
  end.
Definition self_corr (l : list num) : num :=
  match variance l with
  | Some v => if Qeq_bool v 0 then None else Some (v / v)%Q
  | None => None
  end.

Section Pilot.
  (** scipy's fmin_bfgs on [error_function] from a start: the end point and its value *)
  Variable bfgs : list num -> list num * num.
  (** [pearsonr(hd, pdist(z))] for a projection z; it raises for fewer than three instances *)
  Variable quality : list (list num) -> res pierr num.
  (** conversion to np.float16 *)
  Variable f16 : num -> num.
  (** the columns of [2 * rng.random((rows, tries)) - 1] with seed 0 *)
  Variable random : nat -> nat -> list (list num).

  (** the loop state: alpha (columns), eoptim, perf, idx *)
  Record pstate := { s_alpha : list (list num); s_eoptim : list num; s_perf : list num;
                     s_idx : option nat }.

  (** pilot.py:501-525, one trial *)
  Definition trial (x x0 : list (list num)) (n : nat) (st : pstate) (i : nat) : res pierr pstate :=
    match nth_error x0 i with
    | None => Err EStartIndex
    | Some guess =>
        let '(xopt, fopt) := bfgs guess in
        let a := reshape 2 n (firstn (2 * n) xopt) in
        match quality (map (mulv a) x) with
        | Err e => Err e
        | Ok q =>
            let perf := upd i (fun _ => q) (s_perf st) in
            Ok {| s_alpha := upd i (fun _ => xopt) (s_alpha st);
                  s_eoptim := upd i (fun _ => fopt) (s_eoptim st);
                  s_perf := perf;
                  s_idx := Some (nargmax perf) |}
        end
    end.
  Fixpoint trials (x x0 : list (list num)) (n : nat) (st : pstate) (is : list nat) : res pierr pstate :=
    match is with
    | [] => Ok st
    | i :: t => match trial x x0 n st i with Ok st' => trials x x0 n st' t | Err e => Err e end
    end.
  (** pilot.py:434-527 [numerical_solve] with the arrays of 241-243; [np.zeros] of shape
      (2m+2n, tries), tries, tries *)
  Definition numerical_solve (x x0 : list (list num)) (n m tries : nat) : res pierr pstate :=
    trials x x0 n
      {| s_alpha := repeat (repeat (Some 0%Q) (2 * m + 2 * n)) tries;
         s_eoptim := repeat (Some 0%Q) tries; s_perf := repeat (Some 0%Q) tries; s_idx := None |}
      (seq 0 tries).

  (** pilot.py:222-228: is a pre-calculated solution of the right shape given? *)
  Definition precalculated (o : pilot_options) (n m : nat) : bool :=
    match p_alpha o with
    | Some rows => Nat.eqb (length rows) (2 * m + 2 * n) && forallb (fun r => Nat.eqb (length r) 1) rows
    | None => false
    end.

  (** pilot.py:175-330 [pilot] with options.analytic false.  [n] is x.shape[1], [na] is
      y.shape[1].  Printing is not modelled. *)
  Definition pilot (x y : list (list num)) (n na : nat) (labels : list string) (o : pilot_options)
    : res pierr pilot_output :=
    let m := n + na in
    if negb (Nat.eqb (length x) (length y)) then Err EConcat
    else
      let x_bar := hcat x y in
      if precalculated o n m then Err EUnboundIdx                  (* 258: idx *)
      else
        let x0 := match p_x0 o with Some s => s | None => random (2 * m + 2 * n) (p_tries o) end in
        match numerical_solve x x0 n m (p_tries o) with
        | Err e => Err e
        | Ok st =>
            match s_idx st with
            | None => Err EUnboundIdx                              (* 527: idx *)
            | Some idx =>
                let alpha := map (map f16) (s_alpha st) in         (* 523 *)
                let best := nth idx alpha [] in
                let out_a := reshape 2 n (firstn (2 * n) best) in
                let out_z := map (mulv out_a) x in                 (* x @ out_a.T *)
                let b := reshape m 2 (skipn (2 * n) best) in
                let x_hat := map (mulv b) out_z in                 (* out_z @ b.T *)
                if negb (Nat.eqb (length labels) n) then Err ELabels
                else Ok {| po_x0 := x0; po_alpha := map (map f16) alpha;
                           po_eoptim := s_eoptim st; po_perf := s_perf st;
                           po_a := out_a; po_z := out_z;
                           po_c := transpose None (firstn (m - (n + 1)) (skipn (n + 1) b)) 2;
                           po_b := firstn n b;
                           po_error := nsum (map (fun rr => nsum (map nsq (vsub (fst rr) (snd rr))))
                                                 (combine x_bar x_hat));
                           po_r2 := map (fun r => nsq (self_corr r)) (x_bar ++ x_hat);
                           po_summary := (labels, combine ["Z_{1}"; "Z_{2}"]%string out_a) |}
            end
        end.
End Pilot.
