(** Corners in winding order, in single precision (C105). *)
From Coq Require Import Reals Permutation.
From Verif Require Import Prelude F32 Text MapModel GeoModel GeoSpec RealSpec WindSpec ErrorSpec CornerSpec MeanSpec WoundSpec Witness GeoWitness ErrorWitness TriangleSpec WoundProofs WoundWitness DentWitness.
Local Open Scope R_scope.

(** C105: the vertices of a face are, in order, its corners clockwise around it, provided the platform's angles are
    accurate enough for the spread of the corners. *)
Theorem C105_clockwise : forall p tx e planes plane f d s r b xs, build_face (f32_num p) tx e planes plane = Ok f ->
  (forall q, In q (plane :: planes) -> grid_plane q) -> (Z.of_nat (length planes) <= 4000)%Z -> clear planes plane -> simple planes plane ->
  accurate_angle d (p_atan2 p) -> NoDup xs -> (forall x, In x xs <-> true_corner planes plane x) -> spread s r xs -> blurred b planes plane ->
  / 1000 <= s <= 1 -> d <= s / 3 -> (64 + 4 * INR (length xs)) * (b + / 10 ^ 20) <= s * r ->
  exists ys, Permutation xs ys /\ Forall2 (shows planes plane (f_center f)) (f_vertices f) ys
    /\ forall i j k x y z, (i < j)%nat -> (j < k)%nat -> nth_error ys i = Some x -> nth_error ys j = Some y -> nth_error ys k = Some z ->
         clockwise (facing (plane_of plane)) x y z.
Proof. exact wound. Qed.
Print Assumptions C105_clockwise.

(** Where no three corners are nearly in line, this holds of the vertices themselves, rounding included. *)
Theorem C105_vertices : forall p tx e planes plane f d s r b xs, build_face (f32_num p) tx e planes plane = Ok f ->
  (forall q, In q (plane :: planes) -> grid_plane q) -> (Z.of_nat (length planes) <= 4000)%Z -> clear planes plane -> simple planes plane ->
  accurate_angle d (p_atan2 p) -> NoDup xs -> (forall x, In x xs <-> true_corner planes plane x) -> spread s r xs -> blurred b planes plane ->
  / 1000 <= s <= 1 -> d <= s / 3 -> (64 + 4 * INR (length xs)) * (b + / 10 ^ 20) <= s * r -> thick (4 * (b + / 10 ^ 20)) xs ->
  forall i j k v v' v'', (i < j)%nat -> (j < k)%nat ->
    nth_error (f_vertices f) i = Some v -> nth_error (f_vertices f) j = Some v' -> nth_error (f_vertices f) k = Some v'' ->
    clockwise (facing (plane_of plane)) (point_of (vt_pos v)) (point_of (vt_pos v')) (point_of (vt_pos v'')).
Proof. exact wound_floats. Qed.
Print Assumptions C105_vertices.

(** The slope of a small pyramid, with the best angle function there is. *)
Example C105_example : forall simd, exists f, build_face (f32_num (measured simd)) textures (world []) pyramid slope = Ok f
  /\ (forall q, In q (slope :: pyramid) -> grid_plane q) /\ clear pyramid slope /\ simple pyramid slope /\ accurate_angle (/ 1000000) (p_atan2 (measured simd))
  /\ NoDup slope_corners /\ (forall x, In x slope_corners <-> true_corner pyramid slope x) /\ spread 1 3 slope_corners /\ blurred (/ 10000) pyramid slope
  /\ (64 + 4 * INR (length slope_corners)) * (/ 10000 + / 10 ^ 20) <= 1 * 3 /\ thick (4 * (/ 10000 + / 10 ^ 20)) slope_corners.
Proof. exact slope_example. Qed.

(** Conditions are needed: where two planes cut off the same end at slightly different angles, a triangle is turned over. *)
Theorem C105_dent : forall simd, exists p tx e planes plane f k u v w, p_simd p = simd
  /\ build_face (f32_num p) tx e planes plane = Ok f /\ In plane planes
  /\ (forall q, In q planes -> grid_plane q /\ extent 1201 (bp_v0 (plane_of q)) /\ extent 1201 (bp_v1 (plane_of q)) /\ extent 1201 (bp_v2 (plane_of q)))
  /\ kth_triangle (map vt_pos (f_vertices f)) (f_indices f) k u v w /\ clockwise (facing (plane_of plane)) (point_of u) (point_of w) (point_of v).
Proof. exact turned_over. Qed.
Print Assumptions C105_dent.
