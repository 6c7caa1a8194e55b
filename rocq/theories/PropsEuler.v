(** C128: Euler's formula for brushes. *)
From Coq Require Import Reals.
From Verif Require Import Prelude F32 Text MapModel GeoModel GeoSpec RealSpec WindSpec SolidSpec EdgeSpec NeighbourSpec EulerSpec
  RealProofs EulerFinal WindWitness EdgeWitness EulerWitness.
Local Open Scope R_scope.

(** C128: corners and faces together are two more than edges: the surface has no handles, and is in one piece ... *)
Theorem C128_euler : forall parse cosine radians atan2 quat mat2 tx e planes b o,
  build_brush (real_num parse cosine radians atan2 quat mat2) tx e planes = Ok b -> polar_angle atan2 ->
  (forall plane f, In plane planes -> In f (bg_faces b) -> build_face (real_num parse cosine radians atan2 quat mat2) tx e planes plane = Ok f ->
     proper plane /\ crisp planes f /\ sharp planes plane) ->
  bounded (solid planes) -> deep planes o -> no_repeats planes ->
  forall V E, all_corners b V -> all_edges b E -> (length V + length (shown b) = length E + 2)%nat.
Proof. exact euler_brush. Qed.
Print Assumptions C128_euler.

(** ... so that n faces have at most 2n-4 corners and 3n-6 edges ... *)
Theorem C128_bounds : forall parse cosine radians atan2 quat mat2 tx e planes b o,
  build_brush (real_num parse cosine radians atan2 quat mat2) tx e planes = Ok b -> polar_angle atan2 ->
  (forall plane f, In plane planes -> In f (bg_faces b) -> build_face (real_num parse cosine radians atan2 quat mat2) tx e planes plane = Ok f ->
     proper plane /\ crisp planes f /\ sharp planes plane) ->
  bounded (solid planes) -> deep planes o -> no_repeats planes ->
  forall V E, all_corners b V -> all_edges b E ->
  (4 <= length V)%nat /\ (length V + 4 <= 2 * length (shown b))%nat /\ (length E + 6 <= 3 * length (shown b))%nat /\ (length (shown b) + 4 <= 2 * length V)%nat.
Proof. exact euler_bounds. Qed.
Print Assumptions C128_bounds.

(** ... and the indices of all faces make 2n-4 triangles for n corners. *)
Theorem C128_triangles : forall parse cosine radians atan2 quat mat2 tx e planes b o,
  build_brush (real_num parse cosine radians atan2 quat mat2) tx e planes = Ok b -> polar_angle atan2 ->
  (forall plane f, In plane planes -> In f (bg_faces b) -> build_face (real_num parse cosine radians atan2 quat mat2) tx e planes plane = Ok f ->
     proper plane /\ crisp planes f /\ sharp planes plane) ->
  bounded (solid planes) -> deep planes o -> no_repeats planes ->
  forall V, all_corners b V -> (index_count b + 12 = 6 * length V)%nat.
Proof. exact indices_euler. Qed.
Print Assumptions C128_triangles.

(** There are such lists. *)
Theorem C128_lists : forall parse cosine radians atan2 quat mat2 tx e planes b o,
  build_brush (real_num parse cosine radians atan2 quat mat2) tx e planes = Ok b -> polar_angle atan2 ->
  (forall plane f, In plane planes -> In f (bg_faces b) -> build_face (real_num parse cosine radians atan2 quat mat2) tx e planes plane = Ok f ->
     proper plane /\ crisp planes f /\ sharp planes plane) ->
  bounded (solid planes) -> deep planes o -> no_repeats planes ->
  exists V E, all_corners b V /\ all_edges b E.
Proof. exact lists_exist. Qed.
Print Assumptions C128_lists.

(** A unit cube meets all of this. *)
Example C128_example : forall parse cosine radians quat mat2 tx e, let O := real_num parse cosine radians real_atan2 quat mat2 in exists b V E,
  build_brush O tx e cube = Ok b /\ polar_angle real_atan2
  /\ (forall plane f, In plane cube -> In f (bg_faces b) -> build_face O tx e cube plane = Ok f -> proper plane /\ crisp cube f /\ sharp cube plane)
  /\ bounded (solid cube) /\ deep cube middle /\ no_repeats cube
  /\ length (bg_faces b) = 6%nat /\ all_corners b V /\ all_edges b E.
Proof. exact cube_euler. Qed.
