(** Brushes turned inside out: specification of C138. *)
From Coq Require Import Reals.
From Verif Require Import Prelude F32 Text MapModel GeoModel SceneModel RealSpec SolidSpec ErrorSpec.
Local Open Scope R_scope.

(** The plane with two points exchanged: it faces the other way. *)
Definition reversed {T} (pl : brush_plane T) : brush_plane T :=
  BrushPlane (bp_v0 pl) (bp_v2 pl) (bp_v1 pl) (bp_texture pl) (bp_uv pl) (bp_rotation pl) (bp_scale pl) (bp_extra pl).

(** [o] is at least [d] behind every plane. *)
Definition buried (planes : list (brush_plane R)) (d : R) (o : vec3 R) : Prop :=
  forall q, In q planes -> inner (facing q) (minus o (bp_v0 q)) <= - d * norm (facing q).
(** The solid lies within less than [r] of [o]. *)
Definition inside_ball (planes : list (brush_plane R)) (o : vec3 R) (r : R) : Prop :=
  forall x, solid planes x -> norm (minus x o) < r.

(** A face with nothing on it. *)
Definition blank_face {T} (zero : T) (f : face T) : Prop :=
  f_vertices f = [] /\ f_indices f = [] /\ f_center f = V3 zero zero zero.
(** A brush of as many such faces as planes. *)
Definition blank_brush {T} (zero : T) (planes : list (brush_plane T)) (b : brush_geo T) : Prop :=
  length (bg_faces b) = length planes /\ Forall (blank_face zero) (bg_faces b) /\ bg_center b = V3 zero zero zero.
