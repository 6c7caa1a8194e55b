(** Points of whole runs against the solids of the map file (C97). *)
From Coq Require Import Reals.
From Verif Require Import Prelude F32 Text MapModel GeoModel SceneModel MapSpec RealSpec ErrorSpec.
Local Open Scope R_scope.

(** The plane a line of the map file stands for. *)
Definition reads_as (p : platform) (l : str) (pl : brush_plane f32) : Prop :=
  exists ws, written ws l /\ plane_words (parse_f32 (p_modern_parse p)) (to_lowercase p) ws pl.

(** All planes of a document go through whole points, and brushes have at most 4000 of them. *)
Definition grid_document (p : platform) (d : doc) : Prop :=
  forall e b, In e d -> In b (doc_brushes e) -> (Z.of_nat (length b) <= 4000)%Z
    /\ forall l pl, In l b -> reads_as p l pl -> grid_plane pl.

(** The lists of points a node holds: one for each surface or shape. *)
Definition point_lists (n : node f32) : list (list (vec3 f32)) :=
  match n with
  | NVisual _ (VisMesh ss) => map s_vertices ss
  | NCollision _ (ColConvex cs) => map cx_points cs
  | NCollision _ (ColConcave cs) => map cc_vertices cs
  | _ => []
  end.

(** Not far in front of any plane of a brush, for a point of a list within [m] of the origin. *)
Definition near_solid (m : R) (b : list (brush_plane R)) (v : vec3 R) : Prop :=
  forall q, In q b -> within (10001 / 10000000 + / 2 ^ 20 * (m + norm (bp_v0 q))) q v.

(** Near the point where three planes of the brush meet. *)
Definition near_corner (m : R) (b : list (brush_plane R)) (v : vec3 R) : Prop :=
  exists p0 p1 p2 x, In p0 b /\ In p1 b /\ In p2 b /\ on_plane p0 x /\ on_plane p1 x /\ on_plane p2 x
    /\ 99 / 100000 <= openness p0 p1 p2
    /\ norm (minus v x) <= / 2 ^ 19 * (distances p0 p1 p2 x / openness p0 p1 p2) + / 2 ^ 21 * m + / 10 ^ 29.
