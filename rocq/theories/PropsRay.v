(** C129: rays from inside a brush. *)
From Coq Require Import Reals.
From Verif Require Import Prelude F32 Text MapModel GeoModel GeoSpec RealSpec WindSpec SolidSpec EdgeSpec RaySpec
  RealProofs RayProofs WindWitness EdgeWitness.
Local Open Scope R_scope.

(** C129: a ray from inside a brush passes its triangles at exactly one point ... *)
Theorem C129_ray : forall parse cosine radians atan2 quat mat2 tx e planes b o,
  build_brush (real_num parse cosine radians atan2 quat mat2) tx e planes = Ok b -> polar_angle atan2 ->
  (forall plane f, In plane planes -> In f (bg_faces b) -> build_face (real_num parse cosine radians atan2 quat mat2) tx e planes plane = Ok f ->
     proper plane /\ crisp planes f /\ sharp planes plane) ->
  bounded (solid planes) -> deep planes o ->
  forall w, w <> V3 0 0 0 -> exists t, 0 < t /\ on_mesh b (onwards o w t) /\ forall u, 0 < u -> on_mesh b (onwards o w u) -> u = t.
Proof. exact ray_leaves. Qed.
Print Assumptions C129_ray.

(** ... the pyramids from the point to the triangles together are the solid ... *)
Theorem C129_cover : forall parse cosine radians atan2 quat mat2 tx e planes b o,
  build_brush (real_num parse cosine radians atan2 quat mat2) tx e planes = Ok b -> polar_angle atan2 ->
  (forall plane f, In plane planes -> In f (bg_faces b) -> build_face (real_num parse cosine radians atan2 quat mat2) tx e planes plane = Ok f ->
     proper plane /\ crisp planes f /\ sharp planes plane) ->
  bounded (solid planes) -> deep planes o ->
  forall x, solid planes x <-> exists f i p q r y s, In f (bg_faces b) /\ triangle f i p q r /\ in_triangle p q r y /\ 0 <= s <= 1 /\ x = towards o y s.
Proof. exact solid_tiled. Qed.
Print Assumptions C129_cover.

(** ... and they do not overlap, so that the volume of C124 is that of the solid. *)
Theorem C129_disjoint : forall parse cosine radians atan2 quat mat2 tx e planes b o,
  build_brush (real_num parse cosine radians atan2 quat mat2) tx e planes = Ok b -> polar_angle atan2 ->
  (forall plane f, In plane planes -> In f (bg_faces b) -> build_face (real_num parse cosine radians atan2 quat mat2) tx e planes plane = Ok f ->
     proper plane /\ crisp planes f /\ sharp planes plane) ->
  bounded (solid planes) -> deep planes o -> no_repeats planes ->
  forall i j f g k l p q r p' q' r' y y' s s', nth_error (bg_faces b) i = Some f -> nth_error (bg_faces b) j = Some g ->
  triangle f k p q r -> triangle g l p' q' r' -> inside_triangle p q r y -> in_triangle p' q' r' y' -> 0 < s -> 0 <= s' -> towards o y s = towards o y' s' -> i = j /\ k = l.
Proof. exact tiles_disjoint. Qed.
Print Assumptions C129_disjoint.

(** A unit cube meets all of this. *)
Example C129_example : forall parse cosine radians quat mat2 tx e, let O := real_num parse cosine radians real_atan2 quat mat2 in exists b f p q,
  build_brush O tx e cube = Ok b /\ polar_angle real_atan2
  /\ (forall plane f, In plane cube -> In f (bg_faces b) -> build_face O tx e cube plane = Ok f -> proper plane /\ crisp cube f /\ sharp cube plane)
  /\ bounded (solid cube) /\ deep cube middle /\ no_repeats cube
  /\ length (bg_faces b) = 6%nat /\ In f (bg_faces b) /\ (3 <= length (f_vertices f))%nat /\ edge f p q.
Proof. exact cube_closed. Qed.
