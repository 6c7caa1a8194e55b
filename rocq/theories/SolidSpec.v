(** Brushes as solids over the real numbers (C80, C81). *)
From Coq Require Import Reals.
From Verif Require Import Prelude F32 Text MapModel GeoModel RealSpec WindSpec.
Local Open Scope R_scope.

(** The solid: all points not in front of any plane. *)
Definition solid (planes : list (brush_plane R)) (x : vec3 R) : Prop := forall q, In q planes -> within 0 q x.
(** The part of it on one plane, and its whole surface. *)
Definition side (planes : list (brush_plane R)) (plane : brush_plane R) (x : vec3 R) : Prop := on_plane plane x /\ solid planes x.
Definition surface_of (planes : list (brush_plane R)) (x : vec3 R) : Prop := solid planes x /\ exists q, In q planes /\ on_plane q x.

Definition bounded (P : vec3 R -> Prop) : Prop :=
  exists m, forall x, P x -> Rabs (vx x) <= m /\ Rabs (vy x) <= m /\ Rabs (vz x) <= m.

(** No corner of the solid on [plane] is too flat to be found. *)
Definition sharp (planes : list (brush_plane R)) (plane : brush_plane R) : Prop :=
  forall p1 p2 x, In p1 planes -> In p2 planes -> 0 < inner (outer (facing plane) (facing p1)) (facing p2) ->
    on_plane p1 x -> on_plane p2 x -> side planes plane x -> spans plane p1 p2.
