(** C124: the surface of a brush is closed. *)
From Coq Require Import Reals.
From Verif Require Import Prelude F32 Text MapModel GeoModel GeoSpec RealSpec WindSpec SolidSpec EdgeSpec
  RealProofs EdgeProofs ClosedProofs WindWitness EdgeWitness.
Local Open Scope R_scope.

(** C124: the area vectors of a brush's triangles, as its indices list them, add up to nothing ... *)
Theorem C124_closed : forall parse cosine radians atan2 quat mat2 tx e planes b o,
  build_brush (real_num parse cosine radians atan2 quat mat2) tx e planes = Ok b -> polar_angle atan2 ->
  (forall plane f, In plane planes -> In f (bg_faces b) -> build_face (real_num parse cosine radians atan2 quat mat2) tx e planes plane = Ok f ->
     proper plane /\ crisp planes f /\ sharp planes plane) ->
  bounded (solid planes) -> deep planes o -> no_repeats planes ->
  sum_vectors area_vector (all_triangles (bg_faces b)) = V3 0 0 0.
Proof. exact areas_cancel. Qed.
Print Assumptions C124_closed.

(** ... and the volume between them and any point, with signs, is the same for all points, and positive. *)
Theorem C124_volume : forall parse cosine radians atan2 quat mat2 tx e planes b o,
  build_brush (real_num parse cosine radians atan2 quat mat2) tx e planes = Ok b -> polar_angle atan2 ->
  (forall plane f, In plane planes -> In f (bg_faces b) -> build_face (real_num parse cosine radians atan2 quat mat2) tx e planes plane = Ok f ->
     proper plane /\ crisp planes f /\ sharp planes plane) ->
  bounded (solid planes) -> deep planes o -> no_repeats planes ->
  exists v, 0 < v /\ forall c, sum_numbers (six_volumes c) (all_triangles (bg_faces b)) = 6 * v.
Proof. exact volume_positive. Qed.
Print Assumptions C124_volume.

(** A unit cube meets all of this. *)
Example C124_example : forall parse cosine radians quat mat2 tx e, let O := real_num parse cosine radians real_atan2 quat mat2 in exists b f p q,
  build_brush O tx e cube = Ok b /\ polar_angle real_atan2
  /\ (forall plane f, In plane cube -> In f (bg_faces b) -> build_face O tx e cube plane = Ok f -> proper plane /\ crisp cube f /\ sharp cube plane)
  /\ bounded (solid cube) /\ deep cube middle /\ no_repeats cube
  /\ length (bg_faces b) = 6%nat /\ In f (bg_faces b) /\ (3 <= length (f_vertices f))%nat /\ edge f p q.
Proof. exact cube_closed. Qed.
