(** Triangles in single precision against the sides they stand for (C107). *)
From Coq Require Import Reals.
From Verif Require Import Prelude F32 Text MapModel GeoModel SceneModel RealSpec WindSpec ErrorSpec CornerSpec SolidSpec WoundSpec TriangleSpec SharedSpec.
Local Open Scope R_scope.

(** Corners clear of the other planes and, however often one is repeated, spread far enough for the platform's angles; the side is of finite size and has three
    corners or more. [b] bounds how far rounding may move a corner. *)
Definition good_side (p : platform) (planes : list (brush_plane f32)) (pl : brush_plane f32) (b : R) : Prop :=
  clear planes pl /\ bounded (side (map plane_of planes) (plane_of pl)) /\ three (true_corner planes pl)
  /\ exists d s r, accurate_angle d (p_atan2 p) /\ always_spread s r b planes pl /\ blurred b planes pl /\ / 1000 <= s <= 1 /\ d <= s / 3.

(** Twice the bound, and what underflow may add. *)
Definition allowance (b : R) : R := 2 * (b + / 10 ^ 20).

(** Some triangle of the array is within [h] of the point. *)
Definition shown (h : R) (points : list (vec3 f32)) (ix : list nat) (x : vec3 R) : Prop :=
  exists k a b c y, kth_triangle points ix k a b c /\ in_triangle (point_of a) (point_of b) (point_of c) y /\ norm (minus y x) <= h.
(** No point of the triangle is further than [h] from the set. *)
Definition stays_near (h : R) (P : vec3 R -> Prop) (a b c : vec3 f32) : Prop :=
  forall y, in_triangle (point_of a) (point_of b) (point_of c) y -> exists x, P x /\ norm (minus y x) <= h.
