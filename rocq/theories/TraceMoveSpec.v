(** Vocabulary for C136.  Nothing here refers to the model of TRACE's loops. *)
From Coq Require Import ZArith QArith List Bool.
Import ListNotations.
Set Implicit Arguments.

Definition shifted (v q : Z * Z) : Z * Z := (fst v + fst q, snd v + snd q)%Z.

(** Moving the regions by [move] fits moving the points by [v]: a moved region has the same area, contains the moved
    points, and the operations of the geometry library give the moved region for moved arguments. *)
Record moves_along {G : Type} (v : Z * Z) (move : G -> G)
    (is_empty : G -> bool) (area : G -> Q) (contains : G -> Z * Z -> bool) (contains_all : G -> list (Z * Z) -> bool)
    (intersection difference union : G -> G -> G) (no_polygon : G) (smooth : G -> G) (triangulate : G -> list G)
    (convex_hull : G -> G) (geoms : G -> list G) (alphashape : list (Z * Z) -> option G) : Prop := {
  mv_empty : forall g, is_empty (move g) = is_empty g;
  mv_area : forall g, area (move g) = area g;
  mv_contains : forall g q, contains (move g) (shifted v q) = contains g q;
  mv_contains_all : forall g l, contains_all (move g) (map (shifted v) l) = contains_all g l;
  mv_intersection : forall g h, intersection (move g) (move h) = move (intersection g h);
  mv_difference : forall g h, difference (move g) (move h) = move (difference g h);
  mv_union : forall g h, union (move g) (move h) = move (union g h);
  mv_none : move no_polygon = no_polygon;
  mv_smooth : forall g, smooth (move g) = move (smooth g);
  mv_triangulate : forall g, triangulate (move g) = map move (triangulate g);
  mv_hull : forall g, convex_hull (move g) = move (convex_hull g);
  mv_geoms : forall g, geoms (move g) = map move (geoms g);
  mv_alpha : forall l, alphashape (map (shifted v) l) = option_map move (alphashape l) }.
