(** Accuracy of corners computed in single precision (C89 to C91). *)
From Coq Require Import Reals.
From Verif Require Import Prelude F32 Text MapModel GeoModel NumberSpec RealSpec.
Local Open Scope R_scope.

(** The point a vector of floats stands for, and the plane through the points of a plane; the rest of the
    plane is of no concern. *)
Definition point_of (v : vec3 f32) : vec3 R := V3 (val (vx v)) (val (vy v)) (val (vz v)).
Definition plane_of (pl : brush_plane f32) : brush_plane R :=
  BrushPlane (point_of (bp_v0 pl)) (point_of (bp_v1 pl)) (point_of (bp_v2 pl)) [] (UVQuake 0 0) 0 (V2 0 0) ExNone.

(** A vector of finite numbers. *)
Definition finite_point (v : vec3 f32) : Prop := finite (vx v) /\ finite (vy v) /\ finite (vz v).
(** A point with integer coordinates up to 2^20. *)
Definition grid_point (v : vec3 f32) : Prop :=
  finite_point v /\ exists x y z : Z, point_of v = V3 (IZR x) (IZR y) (IZR z) /\ (Z.abs x <= 2 ^ 20 /\ Z.abs y <= 2 ^ 20 /\ Z.abs z <= 2 ^ 20)%Z.
Definition extent (m : Z) (v : vec3 R) : Prop := Rabs (vx v) <= IZR m /\ Rabs (vy v) <= IZR m /\ Rabs (vz v) <= IZR m.
(** A plane through three such points that are not in line; the products of the edges' extents are bounded
    so that the direction of the plane is computed exactly. *)
Definition grid_plane (pl : brush_plane f32) : Prop :=
  grid_point (bp_v0 pl) /\ grid_point (bp_v1 pl) /\ grid_point (bp_v2 pl) /\ proper (plane_of pl)
  /\ exists m n, extent m (minus (point_of (bp_v2 pl)) (point_of (bp_v0 pl))) /\ extent n (minus (point_of (bp_v1 pl)) (point_of (bp_v0 pl)))
     /\ (m * n < 2 ^ 23)%Z.

(** The determinant of the planes' unit normals: 1 for planes at right angles, 0 if they have no single point
    in common. *)
Definition openness (p0 p1 p2 : brush_plane R) : R :=
  inner (outer (facing p0) (facing p1)) (facing p2) / (norm (facing p0) * norm (facing p1) * norm (facing p2)).
(** How far from the origin the planes' first points and [x] are, together. *)
Definition distances (p0 p1 p2 : brush_plane R) (x : vec3 R) : R := norm (bp_v0 p0) + norm (bp_v0 p1) + norm (bp_v0 p2) + norm x.
