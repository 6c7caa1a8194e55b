(** Rays from inside a brush (C129). *)
From Coq Require Import Reals.
From Verif Require Import Prelude F32 Text MapModel GeoModel RealSpec WindSpec.
Local Open Scope R_scope.

(** From [o] towards [y]: [o] itself for 0, [y] for 1. *)
Definition towards (o y : vec3 R) (s : R) : vec3 R :=
  V3 (vx o + s * (vx y - vx o)) (vy o + s * (vy y - vy o)) (vz o + s * (vz y - vz o)).
(** From [o] in the direction [w]. *)
Definition onwards (o w : vec3 R) (t : R) : vec3 R := V3 (vx o + t * vx w) (vy o + t * vy w) (vz o + t * vz w).
(** On some triangle of a brush. *)
Definition on_mesh (b : brush_geo R) (x : vec3 R) : Prop := exists f i p q r, In f (bg_faces b) /\ triangle f i p q r /\ in_triangle p q r x.
