(** Faces in exact arithmetic (C71 to C74).
    Statements use the vocabulary of [RealSpec] and [WindSpec]. *)
From Coq Require Import Reals Permutation.
From Verif Require Import Prelude F32 Text MapModel GeoModel RealSpec WindSpec WindProofs WindWitness OrderProofs ShiftProofs.
Local Close Scope R_scope.
Local Open Scope nat_scope.

(** C71: all triangles of a face turn clockwise seen from outside the brush, if no corner is cut off within the tolerance. *)
Theorem C71_clockwise : forall parse cosine radians atan2 quat mat2 tx e planes plane f,
  build_face (real_num parse cosine radians atan2 quat mat2) tx e planes plane = Ok f -> crisp planes f -> polar_angle atan2 ->
  forall i a b c, triangle f i a b c -> clockwise (facing plane) a b c.
Proof. exact triangles_clockwise. Qed.
Print Assumptions C71_clockwise.

(** C72: these triangles do not overlap ... *)
Theorem C72_disjoint : forall parse cosine radians atan2 quat mat2 tx e planes plane f,
  build_face (real_num parse cosine radians atan2 quat mat2) tx e planes plane = Ok f -> crisp planes f -> polar_angle atan2 ->
  forall i j a b c a' b' c' x, triangle f i a b c -> triangle f j a' b' c' ->
  inside_triangle a b c x -> in_triangle a' b' c' x -> i = j.
Proof. exact triangles_disjoint. Qed.
Print Assumptions C72_disjoint.

(** ... and together they are the convex hull of the corners. *)
Theorem C72_cover : forall parse cosine radians atan2 quat mat2 tx e planes plane f,
  build_face (real_num parse cosine radians atan2 quat mat2) tx e planes plane = Ok f -> crisp planes f -> polar_angle atan2 ->
  3 <= length (map vt_pos (f_vertices f)) ->
  forall x, in_hull (map vt_pos (f_vertices f)) x <-> exists i a b c, triangle f i a b c /\ in_triangle a b c x.
Proof. exact triangles_cover. Qed.
Print Assumptions C72_cover.

Example C71_C72_example : polar_angle real_atan2 /\ forall parse cosine radians quat mat2 tx e, exists f,
  build_face (real_num parse cosine radians real_atan2 quat mat2) tx e cube lid = Ok f /\ crisp cube f /\ 3 <= length (f_vertices f).
Proof. exact (conj real_polar lid_face). Qed.

(** C73: moving all planes of a brush moves its faces: same normals, tangents, colours, triangles and texture, and all corners moved. *)
Theorem C73_moved : forall parse cosine radians atan2 quat mat2 t tx e planes plane f f',
  build_face (real_num parse cosine radians atan2 quat mat2) tx e planes plane = Ok f ->
  build_face (real_num parse cosine radians atan2 quat mat2) tx e (map (moved_plane t) planes) (moved_plane t plane) = Ok f' ->
  (f_vertices f <> [] -> f_center f' = along t (f_center f)) /\
  Forall2 (moved_vertex t) (f_vertices f) (f_vertices f') /\ f_indices f' = f_indices f /\ f_texture f' = f_texture f.
Proof. exact face_shift. Qed.
Print Assumptions C73_moved.

(** C74: the order of the planes of a brush and repeated planes are irrelevant to the corners of a face ... *)
Theorem C74_corners : forall parse cosine radians atan2 quat mat2 tx e tx' e' planes planes' plane f f',
  (forall q, In q planes <-> In q planes') ->
  build_face (real_num parse cosine radians atan2 quat mat2) tx e planes plane = Ok f ->
  build_face (real_num parse cosine radians atan2 quat mat2) tx' e' planes' plane = Ok f' ->
  f_center f = f_center f' /\ Permutation (map vt_pos (f_vertices f)) (map vt_pos (f_vertices f')).
Proof. exact same_set. Qed.
Print Assumptions C74_corners.

(** ... and to their winding order, if no corner is cut off within the tolerance. *)
Theorem C74_order : forall parse cosine radians atan2 quat mat2 tx e tx' e' planes planes' plane f f',
  (forall q, In q planes <-> In q planes') ->
  build_face (real_num parse cosine radians atan2 quat mat2) tx e planes plane = Ok f ->
  build_face (real_num parse cosine radians atan2 quat mat2) tx' e' planes' plane = Ok f' ->
  crisp planes f -> polar_angle atan2 ->
  map vt_pos (f_vertices f) = map vt_pos (f_vertices f').
Proof. exact same_positions_only. Qed.
Print Assumptions C74_order.

Example C73_C74_example : polar_angle real_atan2 /\ forall parse cosine radians quat mat2 tx e tx' e', exists f f' f'',
  build_face (real_num parse cosine radians real_atan2 quat mat2) tx e cube lid = Ok f /\ crisp cube f /\ f_vertices f <> [] /\
  build_face (real_num parse cosine radians real_atan2 quat mat2) tx' e' (rev cube ++ cube) lid = Ok f' /\
  (forall q, In q cube <-> In q (rev cube ++ cube)) /\
  build_face (real_num parse cosine radians real_atan2 quat mat2) tx e (map (moved_plane e1) cube) (moved_plane e1 lid) = Ok f''.
Proof. exact (conj real_polar lid_variants). Qed.
