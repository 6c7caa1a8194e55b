(** C130: integer boxes are closed in single precision. *)
From Coq Require Import Reals Lra Lia Permutation.
From Verif Require Import Prelude F32 Text MapModel GeoModel BoxSpec ErrorSpec WoundSpec BoxEdgeSpec BoxEdgeProofs GeoWitness WoundWitness BoxEdgeWitness.
Local Open Scope R_scope.

(** C130: the corners of a face are those of its side, exactly, and any three of them turn clockwise in their order ... *)
Theorem C130_wound : forall p lo hi b s area plane r d tx e f, box lo hi -> box_brush p lo hi b -> box_plane lo hi s area plane -> exact_length p area ->
  slender r lo hi -> (1 <= r <= 40000)%Z -> d <= / (3 * IZR r) -> accurate_angle d (p_atan2 p) -> grid_plane plane ->
  build_face (f32_num p) tx e b plane = Ok f ->
  exists ys, Permutation ys (side_corners lo hi s) /\ Forall2 (fun v X => at_ints (vt_pos v) X) (f_vertices f) ys
    /\ forall i j k X Y Z, (i < j)%nat -> (j < k)%nat -> nth_error ys i = Some X -> nth_error ys j = Some Y -> nth_error ys k = Some Z -> turns s X Y Z.
Proof. exact box_wound. Qed.
Print Assumptions C130_wound.

(** ... so each edge of a face is, run the other way, an edge of another face, and of no further face. *)
Theorem C130_closed : forall p lo hi b sides r d tx e, box lo hi ->
  Forall2 (fun pl s => exists area, box_plane lo hi s area pl /\ exact_length p area) b sides -> Permutation sides all_sides ->
  (forall pl, In pl b -> grid_plane pl) -> slender r lo hi -> (1 <= r <= 40000)%Z -> d <= / (3 * IZR r) -> accurate_angle d (p_atan2 p) ->
  exists g, build_brush (f32_num p) tx e b = Ok g /\ length (bg_faces g) = 6%nat
    /\ (forall f, In f (bg_faces g) -> length (f_vertices f) = 4%nat)
    /\ (forall f x y, In f (bg_faces g) -> runs f x y -> exists f', In f' (bg_faces g) /\ runs f' y x)
    /\ (forall i j f f' x y, nth_error (bg_faces g) i = Some f -> nth_error (bg_faces g) j = Some f' -> runs f x y -> runs f' x y -> i = j).
Proof. exact box_closed. Qed.
Print Assumptions C130_closed.

(** A crate meets all of this, with the best angle function. *)
Example C130_example : forall simd, let p := measured simd in box (V3 (-16) (-8) 0)%Z (V3 16 24 32)%Z
  /\ Forall2 (fun pl s => exists area, box_plane (V3 (-16) (-8) 0)%Z (V3 16 24 32)%Z s area pl /\ exact_length p area) (crate standard_uv) all_sides
  /\ (forall pl, In pl (crate standard_uv) -> grid_plane pl) /\ slender 1 (V3 (-16) (-8) 0)%Z (V3 16 24 32)%Z /\ / 1000000 <= / (3 * IZR 1)
  /\ accurate_angle (/ 1000000) (p_atan2 p).
Proof. exact crate_closed. Qed.
