(** Corners shared by more than three planes (C110). *)
From Coq Require Import Reals.
From Verif Require Import Prelude F32 Text MapModel GeoModel GeoSpec RealSpec WindSpec ErrorSpec CornerSpec MeanSpec SolidSpec WoundSpec TriangleSpec SharedSpec CoverSpec
  Witness GeoWitness ErrorProofs ErrorWitness CornerWitness WoundWitness SharedProofs SharedWitness CoverProofs.
Local Open Scope R_scope.

(** C110: even where rounding repeats a corner that several pairs of planes share, the vertices show the corners of the side and no others,
    and any three vertices of different corners are in clockwise order. *)
Theorem C110_clockwise : forall p tx e planes plane f d s r b, build_face (f32_num p) tx e planes plane = Ok f -> (forall q, In q (plane :: planes) -> grid_plane q) ->
  (Z.of_nat (length planes) <= 4000)%Z -> clear planes plane -> accurate_angle d (p_atan2 p) ->
  always_spread s r b planes plane -> blurred b planes plane -> / 1000 <= s <= 1 -> d <= s / 3 ->
  exists ys, (forall x, In x ys <-> true_corner planes plane x) /\ Forall2 (shows planes plane (f_center f)) (f_vertices f) ys
    /\ forall i j k x y z, (i < j)%nat -> (j < k)%nat -> nth_error ys i = Some x -> nth_error ys j = Some y -> nth_error ys k = Some z ->
         x <> y -> y <> z -> x <> z -> clockwise (facing (plane_of plane)) x y z.
Proof. exact wound_shared. Qed.
Print Assumptions C110_clockwise.

(** The triangles still are the side up to rounding: none is missing and none sticks out. *)
Theorem C110_side : forall p tx e planes plane f b, build_face (f32_num p) tx e planes plane = Ok f -> (forall q, In q (plane :: planes) -> grid_plane q) ->
  (Z.of_nat (length planes) <= 4000)%Z -> good_side p planes plane b ->
  (forall x, SolidSpec.side (map plane_of planes) (plane_of plane) x -> shown (allowance b) (map vt_pos (f_vertices f)) (f_indices f) x)
  /\ (forall k u v w, kth_triangle (map vt_pos (f_vertices f)) (f_indices f) k u v w -> stays_near (allowance b) (SolidSpec.side (map plane_of planes) (plane_of plane)) u v w).
Proof. exact side_covered. Qed.
Print Assumptions C110_side.

(** What C105 asks is a special case. *)
Theorem C110_simple : forall planes plane xs s r b, (forall q, In q (plane :: planes) -> grid_plane q) -> simple planes plane -> NoDup xs -> (forall x, In x xs <-> true_corner planes plane x) ->
  spread s r xs -> (64 + 4 * INR (length xs)) * (b + / 10 ^ 20) <= s * r -> always_spread s r b planes plane.
Proof. exact simple_spread. Qed.
Print Assumptions C110_simple.

(** The side of a pyramid 4 wide and 3 high, whose top is there twice (see C92). *)
Example C110_example : forall simd, exists f, build_face (f32_num (measured simd)) textures (world []) roof side = Ok f /\ length (f_vertices f) = 4%nat
  /\ (forall q, In q (side :: roof) -> grid_plane q) /\ clear roof side /\ accurate_angle (/ 1000000) (p_atan2 (measured simd))
  /\ always_spread (9 / 10) 1 (/ 10000) roof side /\ blurred (/ 10000) roof side /\ good_side (measured simd) roof side (/ 10000)
  /\ (forall x, true_corner roof side x <-> In x (map reals [r0; r1; top])) /\ ~ simple roof side.
Proof. exact roof_example. Qed.
