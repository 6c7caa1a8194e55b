(** Corners in winding order, in single precision (C105). *)
From Coq Require Import Reals.
From Verif Require Import Prelude F32 Text MapModel GeoModel NumberSpec RealSpec ErrorSpec CornerSpec MeanSpec.
Local Open Scope R_scope.

(** What is asked of the platform's [atan2 y x]: the angle of the point (x, y) up to [d]. *)
Definition accurate_angle (d : R) (atan2 : f32 -> f32 -> f32) : Prop :=
  forall y x, finite y -> finite x -> val x <> 0 \/ val y <> 0 -> finite (atan2 y x) /\
    exists r t, 0 < r /\ val x = r * cos t /\ val y = r * sin t /\ - PI <= t <= PI /\ Rabs (val (atan2 y x) - t) <= d.

(** Seen from their mean, the points are at least [r] away, and any two in directions whose angle has at least the sine [s]. *)
Definition spread (s r : R) (xs : list (vec3 R)) : Prop :=
  let g := average xs in
  (forall x, In x xs -> r <= norm (minus x g))
  /\ forall x y, In x xs -> In y xs -> x <> y ->
       inner (minus x g) (minus y g) <= 0 \/ s * (norm (minus x g) * norm (minus y g)) <= norm (outer (minus x g) (minus y g)).

(** [b] bounds how far rounding may move a corner. *)
Definition blurred (b : R) (planes : list (brush_plane f32)) (plane : brush_plane f32) : Prop :=
  forall p1 p2 x, In p1 planes -> In p2 planes -> crossing plane p1 p2 x -> in_solid planes x -> blur plane p1 p2 x <= b.

(** No three points are nearly in line: moving each by half of [h] does not turn their triangle over. *)
Definition thick (h : R) (xs : list (vec3 R)) : Prop :=
  forall x y z, In x xs -> In y xs -> In z xs -> x <> y -> y <> z -> x <> z ->
    h * (norm (minus y x) + norm (minus z x)) + h * h < norm (outer (minus y x) (minus z x)).
