(** Model of the rest of instancespace/stages/sifted.py: the reported correlations, silhouette scores
    and clusters, and the random numbers.  Definitions only; the selection is that of SiftedModel.v.
    Not modelled: printing, and NaN silhouette scores. *)
From Verif Require Import Base Num FilterModel SiftedModel.
Set Implicit Arguments.

(** ESelection: as in SiftedModel.v; ELibrary: KMeans or silhouette_score raised *)
Inductive soerr := ESelection (e : sierr) | ELibrary.

(** sifted.py:138-199 [SiftedOutput]: the fields that describe the selection *)
Record full_out := { fo_sift : sift_out; fo_rho : option (list (list Q)); fo_pval : option (list (list num));
                     fo_silhouette : option (list Q); fo_clust : option (list (list bool)) }.

Section SiftedOut.
  Variable pearson : list (Q * Q) -> num * num.
  Variable order : list (list Q) -> nat -> list nat.
  (** the numbers rng.integers(1000) gives, in the order of the calls (sifted.py:543) *)
  Variable draw : nat -> nat.
  (** KMeans(n_clusters, n_init, random_state).fit_predict on the columns [features]; [true]: n_init="auto",
      [false]: the replicates and max_iter of the options.  None: it raises *)
  Variable kmeans : nat -> bool -> nat -> list nat -> option (list nat).
  (** silhouette_score(.., metric="correlation"); None: it raises *)
  Variable silhouette : list nat -> list nat -> option Q.
  (** the genetic algorithm with the seeds of the folds and of the algorithm itself (sifted.py:886-932) *)
  Variable ga : nat -> nat -> list nat -> list (list bool) -> list Z.

  (** sifted.py:981-993: the score for n clusters *)
  Definition score_of (features : list nat) (n : nat) : res soerr Q :=
    match kmeans n true (draw (n - 2)) features with
    | None => Err ELibrary
    | Some l => match silhouette features l with None => Err ELibrary | Some q => Ok q end
    end.
  (** sifted.py:974-981: n = 2, .., width-1 *)
  Definition scores (features : list nat) : res soerr (list Q) :=
    all_ok (map (score_of features) (seq 2 (length features - 2))).

  (** sifted.py:798-801 *)
  Definition clust_matrix (labels : list nat) (k : nat) : list (list bool) :=
    map (fun l => map (fun c => Nat.eqb c l) (seq 0 k)) labels.

  (** sifted.py:487-711 [_sifted] without density: the selection and what is reported with it.
      The reported rho is the array changed in place by 739-740. *)
  Definition sifted_full (x y : list (list num)) (labels : list string) (nalgos : nat) (threshold : Q) (k : nat)
    : res soerr full_out :=
    let nfeats := length labels in
    if Nat.leb nfeats 1 then Err (ESelection ENotEnoughFeatures)
    else if Nat.leb nfeats 3 then
      Ok {| fo_sift := {| so_x := x; so_labels := labels; so_selvars := seq 0 nfeats; so_idx := seq 0 nfeats; so_clustered := false |};
            fo_rho := None; fo_pval := None; fo_silhouette := None; fo_clust := None |}
    else
      match correlations pearson x y nfeats nalgos with
      | Err e => Err (ESelection e)
      | Ok rp =>
          let rho := map (map clean_rho) rp in
          let pval := map (map snd) rp in
          let selvars := where_true (perf_mask rho (order rho) threshold nfeats nalgos) in
          let width := length selvars in
          if Nat.leb width 1 then Err (ESelection ENotEnoughFeatures)
          else if Nat.leb width 3 || Nat.leb width k then
            Ok {| fo_sift := {| so_x := take_columns x selvars; so_labels := take_labels labels selvars;
                                so_selvars := selvars; so_idx := seq 0 nfeats; so_clustered := false |};
                  fo_rho := Some rho; fo_pval := Some pval; fo_silhouette := None; fo_clust := None |}
          else
            match scores selvars with
            | Err e => Err e
            | Ok sc =>
                match evaluate_cluster sc k width with
                | Err e => Err (ESelection e)
                | Ok _ =>
                    (* sifted.py:789-796: the draw after those of the width-2 scores *)
                    match kmeans k false (draw (width - 2)) selvars with
                    | None => Err ELibrary
                    | Some km =>
                        let clust := clust_matrix km k in
                        match decode_selvars km k (ga (draw (width - 1)) (draw width) selvars clust) selvars with
                        | Err e => Err (ESelection e)
                        | Ok sv =>
                            Ok {| fo_sift := {| so_x := take_columns x sv; so_labels := take_labels labels sv;
                                                so_selvars := sv; so_idx := seq 0 nfeats; so_clustered := true |};
                                  fo_rho := Some rho; fo_pval := Some pval; fo_silhouette := Some sc; fo_clust := Some clust |}
                        end
                    end
                end
            end
      end.
End SiftedOut.
