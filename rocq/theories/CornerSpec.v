(** One corner per true corner, and gaps between faces (C92, C93). *)
From Coq Require Import Reals.
From Verif Require Import Prelude F32 Text MapModel GeoModel RealSpec ErrorSpec.
Local Open Scope R_scope.

(** The three planes meet in [x], turning in that order. *)
Definition crossing (p0 p1 p2 : brush_plane f32) (x : vec3 R) : Prop :=
  on_plane (plane_of p0) x /\ on_plane (plane_of p1) x /\ on_plane (plane_of p2) x
  /\ 0 < openness (plane_of p0) (plane_of p1) (plane_of p2).
Definition in_solid (planes : list (brush_plane f32)) (x : vec3 R) : Prop :=
  forall q, In q planes -> within 0 (plane_of q) x.
(** A corner of the side of the true solid on the plane. *)
Definition true_corner (planes : list (brush_plane f32)) (plane : brush_plane f32) (x : vec3 R) : Prop :=
  (exists p1 p2, In p1 planes /\ In p2 planes /\ crossing plane p1 p2 x) /\ in_solid planes x.

(** How far rounding may move the meeting point. *)
Definition blur (p0 p1 p2 : brush_plane f32) (x : vec3 R) : R :=
  / 2 ^ 19 * (distances (plane_of p0) (plane_of p1) (plane_of p2) x / openness (plane_of p0) (plane_of p1) (plane_of p2)).
Definition slack (q : brush_plane f32) : R := / 2 ^ 20 * norm (bp_v0 (plane_of q)).

(** No close calls: every meeting point is a corner of the solid with planes that are not too flat and rounding
    within the tolerance, or clearly outside of one side. *)
Definition clear (planes : list (brush_plane f32)) (plane : brush_plane f32) : Prop :=
  forall p1 p2 x, In p1 planes -> In p2 planes -> crossing plane p1 p2 x ->
    (in_solid planes x /\ 101 / 100000 <= openness (plane_of plane) (plane_of p1) (plane_of p2)
       /\ forall q, In q planes -> blur plane p1 p2 x + slack q <= 999 / 1000000)
    \/ exists q, In q planes /\ ~ within 0 (plane_of q) x
       /\ (openness (plane_of plane) (plane_of p1) (plane_of p2) < 99 / 100000
           \/ ~ within (101 / 100000 + blur plane p1 p2 x + slack q) (plane_of q) x).

(** Every corner belongs to one pair of planes, and corners are farther apart than rounding may move them. *)
Definition simple (planes : list (brush_plane f32)) (plane : brush_plane f32) : Prop :=
  forall p1 p2 x p1' p2' x', In p1 planes -> In p2 planes -> In p1' planes -> In p2' planes ->
    crossing plane p1 p2 x -> crossing plane p1' p2' x' -> in_solid planes x -> in_solid planes x' ->
    (p1 = p1' /\ p2 = p2') \/ blur plane p1 p2 x + blur plane p1' p2' x' + / 10 ^ 30 < norm (minus x x').

(** [v] shows the true corner [x] up to rounding. *)
Definition shows (planes : list (brush_plane f32)) (plane : brush_plane f32) (c : vec3 f32) (v : vertex f32) (x : vec3 R) : Prop :=
  exists p1 p2, In p1 planes /\ In p2 planes /\ crossing plane p1 p2 x
    /\ norm (minus (point_of (vt_pos v)) x) <= blur plane p1 p2 x + / 2 ^ 23 * norm (point_of c) + / 10 ^ 30.
