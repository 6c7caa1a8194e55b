(** Orientation of triangles over the real numbers (C71, C72). *)
From Coq Require Import Reals.
From Verif Require Import Prelude F32 Text MapModel GeoModel RealSpec.
Local Open Scope R_scope.

(** What is asked of [atan2 y x]: the angle of the point (x, y), in a half-open turn. *)
Definition polar_angle (atan2 : R -> R -> R) : Prop :=
  forall x y, (x <> 0 \/ y <> 0) ->
    - PI < atan2 y x <= PI /\ exists r, 0 < r /\ x = r * cos (atan2 y x) /\ y = r * sin (atan2 y x).

(** Seen from where [n] points to, [a], [b], [c] turn clockwise. *)
Definition clockwise (n a b c : vec3 R) : Prop := inner n (outer (minus b a) (minus c a)) < 0.

(** A point of a triangle, and one of its inside. *)
Definition blend (a b c : vec3 R) (r s t : R) : vec3 R :=
  V3 (r * vx a + s * vx b + t * vx c) (r * vy a + s * vy b + t * vy c) (r * vz a + s * vz b + t * vz c).
Definition in_triangle (a b c x : vec3 R) : Prop :=
  exists r s t, 0 <= r /\ 0 <= s /\ 0 <= t /\ r + s + t = 1 /\ x = blend a b c r s t.
Definition inside_triangle (a b c x : vec3 R) : Prop :=
  exists r s t, 0 < r /\ 0 < s /\ 0 < t /\ r + s + t = 1 /\ x = blend a b c r s t.

(** Sums of points of a list with weights that are not negative; the second argument is the sum of the weights. *)
Inductive weighted : list (vec3 R) -> R -> vec3 R -> Prop :=
| WeightedNil : weighted [] 0 (V3 0 0 0)
| WeightedCons x l w s y : 0 <= w -> weighted l s y ->
    weighted (x :: l) (w + s) (V3 (w * vx x + vx y) (w * vy x + vy y) (w * vz x + vz y)).
(** The convex hull. *)
Definition in_hull (l : list (vec3 R)) (x : vec3 R) : Prop := weighted l 1 x.

(** [i]-th triangle of a face, as points. *)
Definition triangle (f : face R) (i : nat) (a b c : vec3 R) : Prop :=
  exists u v w ia ib ic, nth_error (f_indices f) (3 * i) = Some ia /\ nth_error (f_indices f) (3 * i + 1) = Some ib
    /\ nth_error (f_indices f) (3 * i + 2) = Some ic
    /\ nth_error (f_vertices f) ia = Some u /\ nth_error (f_vertices f) ib = Some v /\ nth_error (f_vertices f) ic = Some w
    /\ a = vt_pos u /\ b = vt_pos v /\ c = vt_pos w.

(** No corner is cut off by another plane, not even by less than the tolerance. *)
Definition crisp (planes : list (brush_plane R)) (f : face R) : Prop :=
  forall v q, In v (f_vertices f) -> In q planes -> within 0 q (vt_pos v).

(** ** Moving a brush by [t] *)
Definition along (t x : vec3 R) : vec3 R := V3 (vx x + vx t) (vy x + vy t) (vz x + vz t).
Definition moved_plane (t : vec3 R) (pl : brush_plane R) : brush_plane R :=
  BrushPlane (along t (bp_v0 pl)) (along t (bp_v1 pl)) (along t (bp_v2 pl)) (bp_texture pl) (bp_uv pl) (bp_rotation pl) (bp_scale pl) (bp_extra pl).
Definition moved_vertex (t : vec3 R) (v w : vertex R) : Prop :=
  vt_pos w = along t (vt_pos v) /\ vt_normal w = vt_normal v /\ vt_tangent w = vt_tangent v /\ vt_color w = vt_color v.
