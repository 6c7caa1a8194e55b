(** Vertices of the meshes of whole runs against the sides written in the map file (C102). *)
From Coq Require Import Reals.
From Verif Require Import Prelude F32 Text MapModel GeoModel SceneModel MapSpec NumberSpec RealSpec ErrorSpec PointsSpec UvSpec.
Local Open Scope R_scope.

(** A side of a brush of the map file: its entity, the planes of the brush's lines and the side's own. *)
Definition side_of (p : platform) (d : doc) (e : doc_entity) (planes : list (brush_plane f32)) (pl : brush_plane f32) : Prop :=
  exists b, In e d /\ In b (doc_brushes e) /\ Forall2 (reads_as p) b planes /\ In pl planes.

(** The side belongs to the surface of this texture; sides whose texture is not loaded, to the one without. *)
Definition drawn_as (sizes : hmap (N * N)) (pl : brush_plane f32) (t : option str) : Prop :=
  match t with
  | Some name => bp_texture pl = name /\ exists size, hget sizes name = Some size
  | None => hget sizes (bp_texture pl) = None
  end.

(** Near the point where the side meets two other sides, in a mesh within [m] of the origin. *)
Definition near_side_corner (m : R) (p0 : brush_plane R) (b : list (brush_plane R)) (v : vec3 R) : Prop :=
  exists p1 p2 x, In p1 b /\ In p2 b /\ on_plane p0 x /\ on_plane p1 x /\ on_plane p2 x
    /\ 99 / 100000 <= openness p0 p1 p2
    /\ norm (minus v x) <= / 2 ^ 19 * (distances p0 p1 p2 x / openness p0 p1 p2) + / 2 ^ 21 * m + / 10 ^ 29.

(** A normal: of length one, and along the side's if the entity is not smoothed. *)
Definition near_normal (e : doc_entity) (pl : brush_plane R) (n : vec3 f32) : Prop :=
  finite_point n /\ Rabs (norm (point_of n) - 1) <= / 2 ^ 21
  /\ (doc_value e (lit "_phong") <> Some (lit "1") -> forall u, unit_of (facing pl) u -> norm (minus (point_of n) u) <= / 2 ^ 21).

(** Texture coordinates: near those of the side's line at the vertex [x]. *)
Definition near_uv (p : platform) (m : R) (pl : brush_plane f32) (size : N * N) (x : vec3 R) (t : vec2 f32) : Prop :=
  let sx := ux (bp_scale pl) in let sy := uy (bp_scale pl) in
  let near k bound_u bound_v exact_u exact_v uo vo := finite (ux t) /\ finite (uy t)
    /\ Rabs (val (ux t) - coordinate exact_u (val sx) (val uo) (fst size)) <= coordinate_error k bound_u (val sx) (val uo) (fst size) + / 10 ^ 30
    /\ Rabs (val (uy t) - coordinate exact_v (val sy) (val vo) (snd size)) <= coordinate_error k bound_v (val sy) (val vo) (snd size) + / 10 ^ 30 in
  sane_scale sx -> sane_scale sy -> sane_size (fst size) -> sane_size (snd size) ->
  match bp_uv pl with
  | UVValve ua uo va vo => sane_axis ua -> sane_axis va -> sane_offset uo -> sane_offset vo ->
      near (/ 2 ^ 20) (norm (point_of ua) * (5 * m)) (norm (point_of va) * (5 * m)) (inner (point_of ua) x) (inner (point_of va) x) uo vo
  | UVQuake uo vo => forall c s d, turns p (bp_rotation pl) c s d -> sane_offset uo -> sane_offset vo ->
      exists a, nearly (facing (plane_of pl)) a /\ (extent (2 ^ 19) (facing (plane_of pl)) -> mostly (facing (plane_of pl)) a)
        /\ near (/ 2 ^ 20 + 2 * d) (5 * m) (5 * m) (ux (turned_by c s (projected a x))) (uy (turned_by c s (projected a x))) uo vo
  end.
