(** Accuracy of corners in single precision (C89 to C91). *)
From Coq Require Import Reals.
From Verif Require Import Prelude F32 Text MapModel GeoModel GeoSpec RealSpec ErrorSpec GeoWitness ErrorProofs ErrorFinal ErrorWitness.
Local Open Scope R_scope.

(** C89: on planes through whole points the centre and all corners of a face are finite, and no corner
    is in front of the true plane of any side by more than 0.0010001 plus 2^-20 times the distances from
    the origin. *)
Theorem C89_inside : forall p tx e planes plane f, build_face (f32_num p) tx e planes plane = Ok f ->
  (forall q, In q (plane :: planes) -> grid_plane q) -> (Z.of_nat (length planes) <= 4000)%Z ->
  finite_point (f_center f) /\ forall v, In v (f_vertices f) -> finite_point (vt_pos v) /\ forall q, In q planes ->
    within (10001 / 10000000 + / 2 ^ 20 * (norm (point_of (vt_pos v)) + norm (point_of (f_center f)) + norm (point_of (bp_v0 q)))) (plane_of q) (point_of (vt_pos v)).
Proof. exact corners_inside. Qed.
Print Assumptions C89_inside.

(** C90: every corner of a face is near the true meeting point of the face's plane and two other planes,
    whose unit normals have a determinant of at least 0.00099. *)
Theorem C90_accurate : forall p tx e planes plane f v, build_face (f32_num p) tx e planes plane = Ok f ->
  (forall q, In q (plane :: planes) -> grid_plane q) -> (Z.of_nat (length planes) <= 4000)%Z -> In v (f_vertices f) ->
  exists p1 p2 x, In p1 planes /\ In p2 planes /\ on_plane (plane_of plane) x /\ on_plane (plane_of p1) x /\ on_plane (plane_of p2) x
    /\ 99 / 100000 <= openness (plane_of plane) (plane_of p1) (plane_of p2)
    /\ norm (minus (point_of (vt_pos v)) x) <= / 2 ^ 19 * (distances (plane_of plane) (plane_of p1) (plane_of p2) x / openness (plane_of plane) (plane_of p1) (plane_of p2))
         + / 2 ^ 23 * norm (point_of (f_center f)) + / 10 ^ 30.
Proof. exact corners_accurate. Qed.
Print Assumptions C90_accurate.

Example C90_example : (forall q, In q (slope :: pyramid) -> grid_plane q)
  /\ (forall simd, build_face (f32_num (polar simd)) textures (world []) pyramid slope = Ok (slope_face simd))
  /\ map vt_pos (f_vertices (slope_face true)) = [fv 0 4 0; fv 4 0 0; fv 0 0 4].
Proof. exact (conj pyramid_grid (conj pyramid_built eq_refl)). Qed.

(** C91: a true corner of a brush with whole points is a corner of the face.  In full (for corners of
    all shapes, anywhere on the map) this is false: a tetrahedron with whole corners within 4096 of the
    origin and normals of determinant 0.49 has a face that loses a corner and with it all triangles. *)
Theorem C91_corners_refuted : forall simd, exists p tx e planes plane p1 p2 x f, p_simd p = simd
  /\ build_face (f32_num p) tx e planes plane = Ok f /\ In plane planes /\ In p1 planes /\ In p2 planes
  /\ (forall q, In q planes -> grid_plane q /\ extent 4096 (bp_v0 (plane_of q)) /\ extent 4096 (bp_v1 (plane_of q)) /\ extent 4096 (bp_v2 (plane_of q)))
  /\ on_plane (plane_of plane) x /\ on_plane (plane_of p1) x /\ on_plane (plane_of p2) x
  /\ 49 / 100 <= openness (plane_of plane) (plane_of p1) (plane_of p2) /\ (forall q, In q planes -> within 0 (plane_of q) x)
  /\ f_indices f = [] /\ forall v, In v (f_vertices f) -> 100 <= norm (minus (point_of (vt_pos v)) x).
Proof. exact corners_lost. Qed.
Print Assumptions C91_corners_refuted.

(** It holds where 2^-19 times the distances from the origin over the determinant is below the tolerance. *)
Theorem C91_corners_partial : forall p tx e planes plane f p1 p2 x, build_face (f32_num p) tx e planes plane = Ok f ->
  (forall q, In q (plane :: planes) -> grid_plane q) -> (Z.of_nat (length planes) <= 4000)%Z -> In p1 planes -> In p2 planes ->
  on_plane (plane_of plane) x -> on_plane (plane_of p1) x -> on_plane (plane_of p2) x ->
  101 / 100000 <= openness (plane_of plane) (plane_of p1) (plane_of p2) -> (forall q, In q planes -> within 0 (plane_of q) x) ->
  let g := distances (plane_of plane) (plane_of p1) (plane_of p2) x / openness (plane_of plane) (plane_of p1) (plane_of p2) in
  (forall q, In q planes -> / 2 ^ 19 * g + / 2 ^ 20 * norm (bp_v0 (plane_of q)) <= 999 / 1000000) ->
  exists v, In v (f_vertices f) /\ norm (minus (point_of (vt_pos v)) x) <= / 2 ^ 19 * g + / 2 ^ 23 * norm (point_of (f_center f)) + / 10 ^ 30.
Proof. exact corners_found. Qed.
Print Assumptions C91_corners_partial.

Example C91_example : let p1 := tri s0 s3 s1 in let p2 := tri s0 s1 s2 in let x := reals s1 in
  In p1 pyramid /\ In p2 pyramid /\ on_plane (plane_of slope) x /\ on_plane (plane_of p1) x /\ on_plane (plane_of p2) x
  /\ 57 / 100 <= openness (plane_of slope) (plane_of p1) (plane_of p2) /\ (forall q, In q pyramid -> within 0 (plane_of q) x)
  /\ forall q, In q pyramid -> / 2 ^ 19 * (distances (plane_of slope) (plane_of p1) (plane_of p2) x / openness (plane_of slope) (plane_of p1) (plane_of p2))
       + / 2 ^ 20 * norm (bp_v0 (plane_of q)) <= 999 / 1000000.
Proof. exact pyramid_corner. Qed.
