(** Model of instancespace/stages/trace.py and of Footprint (instancespace/data/model.py).
    Definitions only.  Printing and timing are not modelled.
    Coordinates are integers: every finite float64 is a multiple of 2^-1074, so integers in that
    unit represent all of them exactly.  z has two columns (PILOT's output).
    shapely's geometry operations and alphashape are arguments of the model. *)
From Verif Require Export Mat FilterModel.
Set Implicit Arguments.
Open Scope nat_scope.
Open Scope list_scope.

Definition pt := (Z * Z)%type.

(* ------------------------------------------------------------------ dbscan *)
Section Dbscan.
  (** [near i j]: TraceStage.dist of rows i and j is at most eps; [m] rows *)
  Variable near : nat -> nat -> bool.
  Variable m : nat.
  Variable k : nat.

  (** trace.py:919-920, 934-935: np.where(d <= eps)[0] *)
  Definition nbrs (i : nat) : list nat := filter (near i) (seq 0 m).
  (** a[l] = v for an array a, here a function of the index *)
  Definition assign {A} (l : list nat) (v : A) (a : nat -> A) : nat -> A :=
    fun j => if existsb (Nat.eqb j) l then v else a j.

  (** trace.py:930-946: the while loop, with fuel (None: out of fuel); the array type_ is
      never read and is left out.  The inner loop over i1 meets each index once, so the ones it
      appends are those not touched before it. *)
  Fixpoint expand (fuel : nat) (no : Z) (queue : list nat) (classes : nat -> Z) (touched : nat -> bool)
    : option ((nat -> Z) * (nat -> bool)) :=
    match queue with
    | [] => Some (classes, touched)
    | c :: q =>
        match fuel with
        | O => None
        | S fuel' =>
            let touched1 := assign [c] true touched in
            let i1 := nbrs c in
            if Nat.ltb 1 (length i1) then
              let new := filter (fun j => negb (touched1 j)) i1 in
              expand fuel' no (q ++ new) (assign new no (assign i1 no classes)) (assign new true touched1)
            else expand fuel' no q classes touched1
        end
    end.

  (** trace.py:916-947: the body of the loop over i *)
  Definition dbscan_step (st : option (Z * (nat -> Z) * (nat -> bool))) (i : nat)
    : option (Z * (nat -> Z) * (nat -> bool)) :=
    match st with
    | None => None
    | Some (no, classes, touched) =>
        if touched i then st
        else
          let ind := nbrs i in
          let classes1 := if Nat.ltb 1 (length ind) && Nat.ltb (length ind) (k + 1)
                          then assign [i] 0%Z classes else classes in
          let classes2 := if Nat.eqb (length ind) 1 then assign [i] (-1)%Z classes1 else classes1 in
          let touched2 := if Nat.eqb (length ind) 1 then assign [i] true touched else touched in
          if Nat.leb (k + 1) (length ind) then
            match expand (2 * m) no ind (assign ind no classes2) touched2 with
            | None => None
            | Some (classes3, touched3) => Some ((no + 1)%Z, classes3, touched3)
            end
          else Some (no, classes2, touched2)
    end.

  (** trace.py:886-952 [dbscan] *)
  Definition dbscan_labels : option (list Z) :=
    match fold_left dbscan_step (seq 0 m) (Some (1%Z, fun _ => 0%Z, fun _ => false)) with
    | None => None
    | Some (_, classes, _) => Some (map (fun i => if Z.eqb (classes i) 0 then (-1)%Z else classes i) (seq 0 m))
    end.
End Dbscan.

(** trace.py:860-884 [dist] (two columns), squared *)
Definition dist2 (a b : pt) : Z :=
  ((fst b - fst a) * (fst b - fst a) + (snd b - snd a) * (snd b - snd a))%Z.
(** d <= eps *)
Definition near (x : list pt) (eps : Z) (i j : nat) : bool :=
  Z.leb 0 eps && Z.leb (dist2 (nth i x (0, 0)%Z) (nth j x (0, 0)%Z)) (eps * eps).
Definition dbscan (x : list pt) (k : nat) (eps : Z) : option (list Z) :=
  dbscan_labels (near x eps) (length x) k.

(* ------------------------------------------------------------------ np.unique *)
Definition peqb (a b : pt) : bool := Z.eqb (fst a) (fst b) && Z.eqb (snd a) (snd b).
Definition pltb (a b : pt) : bool := Z.ltb (fst a) (fst b) || (Z.eqb (fst a) (fst b) && Z.ltb (snd a) (snd b)).
Fixpoint uins (a : pt) (l : list pt) : list pt :=
  match l with
  | [] => [a]
  | b :: t => if peqb a b then l else if pltb a b then a :: l else b :: uins a t
  end.
(** np.unique(_, axis=0): the distinct rows in lexicographic order *)
Definition unique (l : list pt) : list pt := fold_right uins [] l.

(** EIndex: a boolean mask of the wrong length, or an array indexed by a geometry; EAlpha: alphashape
    raised; EAttribute: attribute of None; EZeroDivision; ELabels: algo_labels too short or too
    long; EWorkers: ThreadPoolExecutor rejects max_workers; EFuel: dbscan's loop ran out of fuel. *)
Inductive trerr := EIndex | EAlpha | EAttribute | EZeroDivision | ELabels | EWorkers | EFuel.

Definition take_rows {A} (x : list A) (mask : list bool) : res trerr (list A) :=
  if Nat.eqb (length x) (length mask) then Ok (select mask x) else Err EIndex.

(** int(np.max(labels)) (labels are never empty here) *)
Definition zmax (l : list Z) : Z := fold_right Z.max (-1)%Z l.
Definition qnat (n : nat) : Q := inject_Z (Z.of_nat n).

Section Trace.
  (** shapely geometries *)
  Variable G : Type.
  Variable is_empty : G -> bool.
  Variable area : G -> Q.
  (** g.contains(point) and g.contains(multipoint) *)
  Variable contains : G -> pt -> bool.
  Variable contains_all : G -> list pt -> bool.
  Variable intersection difference union : G -> G -> G.
  (** Polygon() *)
  Variable no_polygon : G.
  (** buffer(0.01).buffer(-0.01) *)
  Variable smooth : G -> G.
  (** triangulate, convex_hull, and the parts of a MultiPolygon (a Polygon is its own part) *)
  Variable triangulate : G -> list G.
  Variable convex_hull : G -> G.
  Variable geoms : G -> list G.
  (** alphashape.alphashape(points, 2.15).simplify(0.05); None: it raises *)
  Variable alphashape : list pt -> option G.
  (** trace.py:836-857 [epsilon] *)
  Variable epsilon : list pt -> nat -> Z.

  (** data/model.py:350-376 [Footprint] *)
  Record footprint := { f_polygon : option G; f_area : Q; f_elements : nat; f_good : nat; f_density : Q; f_purity : Q }.
  (** trace.py:799-810 [throw] *)
  Definition no_footprint : footprint :=
    {| f_polygon := None; f_area := 0; f_elements := 0; f_good := 0; f_density := 0; f_purity := 0 |}.

  (** np.sum([g.contains(point) for point in MultiPoint(z).geoms]) *)
  Definition count_in (g : G) (z : list pt) : nat := length (filter (contains g) z).

  (** data/model.py:378-425 [Footprint.from_polygon] *)
  Definition from_polygon (polygon : option G) (z : list pt) (y_bin : list bool) (smoothen : bool)
    : res trerr footprint :=
    match polygon with
    | None => Ok no_footprint
    | Some g0 =>
        let g := if smoothen then smooth g0 else g0 in
        let elements := count_in g z in
        match take_rows z y_bin with
        | Err e => Err e
        | Ok zg =>
            let good := count_in g zg in
            Ok {| f_polygon := Some g; f_area := area g; f_elements := elements; f_good := good;
                  f_density := if Qeq_bool (area g) 0 then 0 else (qnat elements / area g)%Q;
                  f_purity := if Nat.eqb elements 0 then 0%Q else (qnat good / qnat elements)%Q |}
        end
    end.

  Section Stage.
    Variable z : list pt.
    (** opts.purity *)
    Variable purity : Q.

    (** trace.py:733-753: the loop over the pieces *)
    Fixpoint remove_impure (y_bin : list bool) (pieces : list G) (polygon : G) : res trerr G :=
      match pieces with
      | [] => Ok polygon
      | piece :: t =>
          let elements := count_in (convex_hull piece) z in
          match take_rows z y_bin with
          | Err e => Err e
          | Ok zg =>
              let good := count_in (convex_hull piece) zg in
              remove_impure y_bin t
                (if Nat.ltb 0 elements && negb (Qle_bool purity (qnat good / qnat elements)%Q)
                 then difference polygon piece else polygon)
          end
      end.
    (** trace.py:707-754 [fit_poly] *)
    Definition fit_poly (polydata : list pt) (y_bin : list bool) : res trerr (option G) :=
      if Nat.ltb (length polydata) 3 then Ok None
      else match alphashape polydata with
           | None => Err EAlpha
           | Some polygon =>
               if forallb (fun b => b) y_bin then Ok (Some polygon)
               else if is_empty polygon then Ok None
               else match remove_impure y_bin (triangulate polygon) polygon with
                    | Err e => Err e
                    | Ok g => Ok (Some g)
                    end
           end.

    (** trace.py:830: nn *)
    Definition min_points (y_bin : list bool) : nat :=
      Nat.max (Nat.min ((length (filter (fun b => b) y_bin) + 19) / 20) 50) 3.
    (** trace.py:812-834 [run_dbscan] *)
    Definition run_dbscan (y_bin : list bool) (data : list pt) : option (list Z) :=
      dbscan data (min_points y_bin) (epsilon data (min_points y_bin)).

    (** trace.py:544-556: the loop over the labels; [acc] is None while flag is False *)
    Fixpoint build_loop (y_bin : list bool) (rows : list pt) (labels : list Z) (todo : list Z) (acc : option G)
      : res trerr (option G) :=
      match todo with
      | [] => Ok acc
      | i :: t =>
          match fit_poly (select (map (Z.eqb i) labels) rows) y_bin with
          | Err e => Err e
          | Ok None => build_loop y_bin rows labels t acc
          | Ok (Some aux) =>
              if is_empty aux then build_loop y_bin rows labels t acc
              else build_loop y_bin rows labels t
                     (match acc with None => Some aux | Some body => Some (union body aux) end)
          end
      end.
    (** trace.py:520-562 [build] *)
    Definition build (y_bin : list bool) : res trerr footprint :=
      match take_rows z y_bin with
      | Err e => Err e
      | Ok filtered_z =>
          let unique_rows := unique filtered_z in
          if Nat.ltb (length unique_rows) 3 then Ok no_footprint
          else match run_dbscan y_bin unique_rows with
               | None => Err EFuel
               | Some labels =>
                   match build_loop y_bin unique_rows labels
                           (map Z.of_nat (seq 1 (Z.to_nat (zmax labels)))) None with
                   | Err e => Err e
                   | Ok acc =>
                       from_polygon (Some (match acc with None => no_polygon | Some g => g end)) z y_bin true
                   end
               end
      end.

    (** trace.py:657-705 [tight].  splits[i].contains(MultiPoint(self.z)) is one boolean;
        polydata[boundary] indexes an array with a geometry and raises IndexError, so what
        follows it in the loop is unreachable and [refined_polygons] stays empty. *)
    Fixpoint tight_loop (y_bin : list bool) (splits : list G) : res trerr (option G) :=
      match splits with
      | [] => Ok None
      | s :: t =>
          match take_rows z (map (fun b => contains_all s z && b) y_bin) with
          | Err e => Err e
          | Ok polydata => if Nat.ltb (length polydata) 3 then tight_loop y_bin t else Err EIndex
          end
      end.
    Definition tight (polygon : option G) (y_bin : list bool) : res trerr (option G) :=
      match polygon with None => Ok None | Some g => tight_loop y_bin (geoms g) end.

    (** good / elements, NaN when there is no element (0/0) *)
    Definition share (good elements : nat) : num :=
      if Nat.eqb elements 0 then None else Some (qnat good / qnat elements)%Q.
    (** trace.py:597-650: the while loop; [left] = max_tries - num_tries + 1 rounds are left.  The
        polygons are not None at the head of the loop: is_empty of None raises. *)
    Fixpoint contra_loop (left : nat) (y_base y_test : list bool) (base test contradiction : G)
      : res trerr (option G * option G) :=
      match left with
      | O => Ok (Some base, Some test)
      | S left' =>
          if is_empty contradiction then Ok (Some base, Some test)
          else
            match take_rows z y_base, take_rows z y_test with
            | Ok zb, Ok zt =>
                let elements := count_in contradiction z in
                let purity_base := share (count_in contradiction zb) elements in
                let purity_test := share (count_in contradiction zt) elements in
                let continue (b t : option G) :=
                  match b with
                  | None => Err EAttribute
                  | Some gb =>
                      if is_empty gb then Ok (b, t)
                      else match t with
                           | None => Err EAttribute
                           | Some gt => if is_empty gt then Ok (b, t)
                                        else contra_loop left' y_base y_test gb gt (intersection gb gt)
                           end
                  end in
                if nlt purity_test purity_base then
                  if Qeq_bool (area test) 0 then Err EZeroDivision
                  else
                    let test' := difference test contradiction in
                    match (match left' with O => Ok (Some test') | _ => tight (Some test') y_test end) with
                    | Err e => Err e
                    | Ok t => continue (Some base) t
                    end
                else if nlt purity_base purity_test then
                  if Qeq_bool (area base) 0 then Err EZeroDivision
                  else
                    let base' := difference base contradiction in
                    match (match left' with O => Ok (Some base') | _ => tight (Some base') y_base end) with
                    | Err e => Err e
                    | Ok b => continue b (Some test)
                    end
                else Ok (Some base, Some test)
            | _, _ => Err EIndex
            end
      end.
    (** trace.py:564-655 [contra] *)
    Definition contra (base test : footprint) (y_base y_test : list bool) : res trerr (footprint * footprint) :=
      match f_polygon base, f_polygon test with
      | Some gb, Some gt =>
          match contra_loop 3 y_base y_test gb gt (intersection gb gt) with
          | Err e => Err e
          | Ok (b, t) =>
              match from_polygon b z y_base false, from_polygon t z y_test false with
              | Ok fb, Ok ft => Ok (fb, ft)
              | Err e, _ => Err e
              | _, Err e => Err e
              end
          end
      | _, _ => Ok (base, test)
      end.

    Variable y_bin : list (list bool).
    (** the best algorithm of each instance, counted from 0 *)
    Variable p : list Z.
    Variable beta : list bool.
    Variable algo_labels : list string.

    (** trace.py:966-975: np.array([int(v) == i for v in self.p]) *)
    Definition is_best (i : nat) : list bool := map (Z.eqb (Z.of_nat i)) p.
    (** trace.py:954-984 [process_algorithm] *)
    Definition process_algorithm (i : nat) : res trerr (footprint * footprint) :=
      if Nat.ltb i (length algo_labels) then
        match build (column false y_bin i) with
        | Err e => Err e
        | Ok g => match build (is_best i) with Err e => Err e | Ok b => Ok (g, b) end
        end
      else Err ELabels.

    (** trace.py:1011-1018: results are stored as the workers finish, in the order [order] *)
    Fixpoint collect (order : list nat) (good best : list footprint) : res trerr (list footprint * list footprint) :=
      match order with
      | [] => Ok (good, best)
      | i :: t => match process_algorithm i with
                  | Err e => Err e
                  | Ok (g, b) => collect t (upd i (fun _ => g) good) (upd i (fun _ => b) best)
                  end
      end.
    (** trace.py:986-1020 [compute_algorithm_qualities]; [cores] = min(n_cores, cpu_count()) *)
    Definition compute_algorithm_qualities (cores : Z) (nalgos : nat) (order : list nat)
      : res trerr (list footprint * list footprint) :=
      if Z.leb cores 0 then Err EWorkers
      else collect order (repeat no_footprint nalgos) (repeat no_footprint nalgos).

    (** trace.py:404-433: the pairs i < j in order *)
    Definition pairs (n : nat) : list (nat * nat) :=
      flat_map (fun i => map (fun j => (i, j)) (seq (i + 1) (n - (i + 1)))) (seq 0 n).
    Fixpoint resolve (todo : list (nat * nat)) (best : list footprint) : res trerr (list footprint) :=
      match todo with
      | [] => Ok best
      | (i, j) :: t =>
          match contra (nth i best no_footprint) (nth j best no_footprint) (is_best i) (is_best j) with
          | Err e => Err e
          | Ok (b, b') => resolve t (upd j (fun _ => b') (upd i (fun _ => b) best))
          end
      end.

    (** trace.py:756-797 [summary]; nothing is NaN here *)
    Definition summary (f space : footprint) : list Q :=
      [f_area f;
       if Qeq_bool (f_area space) 0 then f_area f else (f_area f / f_area space)%Q;
       f_density f;
       if Qeq_bool (f_density space) 0 then f_density f else (f_density f / f_density space)%Q;
       f_purity f].

    Record trace_out := { t_space : footprint; t_good : list footprint; t_best : list footprint;
                          t_hard : footprint; t_summary : list (string * list Q) }.

    (** trace.py:351-518 [_trace]; [nalgos] is y_bin.shape[1]; [order] is the order in which the
        workers finish *)
    Definition trace (nalgos : nat) (cores : Z) (order : list nat) : res trerr trace_out :=
      match build (map (fun _ => true) y_bin) with
      | Err e => Err e
      | Ok space =>
          match compute_algorithm_qualities cores nalgos order with
          | Err e => Err e
          | Ok (good, best0) =>
              match resolve (pairs nalgos) best0 with
              | Err e => Err e
              | Ok best =>
                  match build (map negb beta) with
                  | Err e => Err e
                  | Ok hard =>
                      if Nat.leb (length algo_labels) nalgos then
                        Ok {| t_space := space; t_good := good; t_best := best; t_hard := hard;
                              t_summary :=
                                map (fun il : nat * string =>
                                       (snd il, summary (nth (fst il) good no_footprint) space
                                                ++ summary (nth (fst il) best no_footprint) space))
                                    (combine (seq 0 (length algo_labels)) algo_labels) |}
                      else Err ELabels
                  end
              end
          end
      end.
  End Stage.

  (** trace.py:270-310 [_run] *)
  Definition run (use_sim : bool) (z : list pt) (purity : Q) (selection0 p : list nat) (y_hat y_bin : list (list bool))
      (beta : list bool) (algo_labels : list string) (nalgos : nat) (cores : Z) (order : list nat)
    : res trerr trace_out :=
    if use_sim then trace z purity y_hat (map Z.of_nat selection0) beta algo_labels nalgos cores order
    else trace z purity y_bin (map Z.of_nat p) beta algo_labels nalgos cores order.
End Trace.
