(** Brushes turned inside out (C138). *)
From Coq Require Import Reals ZArith.
From Verif Require Import Prelude F32 Text MapModel GeoModel SceneModel RealSpec SolidSpec ErrorSpec InverseSpec InverseProofs
  Witness GeoWitness RealProofs TriangleWitness CoverWitness SeamWitness InverseWitness.
Local Open Scope R_scope.

(** C138: the planes of a brush face outwards by the order of their three points. If every line of a brush with room inside has two points exchanged,
    what is built has a face for each plane, none of them with a corner, and its center is the origin, wherever it is. *)
Theorem C138_exact : forall parse cosine radians atan2 quat mat2 tx e planes o d, bounded (solid planes) -> buried planes d o -> / 1000 < d ->
  exists b, build_brush (real_num parse cosine radians atan2 quat mat2) tx e (map reversed planes) = Ok b /\ blank_brush 0 (map reversed planes) b.
Proof. exact inverse_exact. Qed.
Print Assumptions C138_exact.

(** The same in the arithmetic of the program, for whole points, if there is somewhat more room. *)
Theorem C138_floats : forall p tx e planes o d r, (forall q, In q planes -> grid_plane q) -> (Z.of_nat (length planes) <= 4000)%Z ->
  buried (map plane_of planes) d o -> inside_ball (map plane_of planes) o r -> r <= 2 ^ 20 * d ->
  (forall q, In q planes -> 10001 / 10000000 + / 2 ^ 20 * (norm o + norm (point_of (bp_v0 q))) < d) ->
  exists b, build_brush (f32_num p) tx e (map reversed planes) = Ok b /\ blank_brush f32_zero (map reversed planes) b.
Proof. exact inverse_floats. Qed.
Print Assumptions C138_floats.

(** Its entity still gets a convex collision shape for it, without points, at the origin. *)
Theorem C138_shape : forall T (O : num T) (zero : T) planes b g, blank_brush zero planes b -> In b (eg_brushes g) ->
  exists shapes, convex_collision O g = ColConvex shapes /\ In (Convex (V3 zero zero zero) []) shapes.
Proof. exact blank_shape. Qed.
Print Assumptions C138_shape.

Example C138_example : bounded (solid (map plane_of box6)) /\ / 1000 < 16
  /\ (forall q, In q box6 -> grid_plane q) /\ (Z.of_nat (length box6) <= 4000)%Z /\ buried (map plane_of box6) 16 heart /\ inside_ball (map plane_of box6) heart 29
  /\ 29 <= 2 ^ 20 * 16 /\ (forall q, In q box6 -> 10001 / 10000000 + / 2 ^ 20 * (norm heart + norm (point_of (bp_v0 q))) < 16) /\ length box6 = 6%nat.
Proof. exact box_inverse. Qed.
