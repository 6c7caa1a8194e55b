(** C127: how many sides and corners a brush has. *)
From Coq Require Import Reals.
From Verif Require Import Prelude F32 Text MapModel GeoModel GeoSpec RealSpec WindSpec SolidSpec EdgeSpec NeighbourSpec
  RealProofs NeighbourProofs WindWitness EdgeWitness.
Local Open Scope R_scope.

(** C127: two faces meet along one edge at most ... *)
Theorem C127_meet : forall parse cosine radians atan2 quat mat2 tx e planes b o,
  build_brush (real_num parse cosine radians atan2 quat mat2) tx e planes = Ok b -> polar_angle atan2 ->
  (forall plane f, In plane planes -> In f (bg_faces b) -> build_face (real_num parse cosine radians atan2 quat mat2) tx e planes plane = Ok f ->
     proper plane /\ crisp planes f /\ sharp planes plane) ->
  deep planes o -> no_repeats planes ->
  forall i j f g, nth_error (bg_faces b) i = Some f -> nth_error (bg_faces b) j = Some g ->
  (3 <= length (f_vertices f))%nat -> (3 <= length (f_vertices g))%nat ->
  forall p q p' q', edge f p q -> edge g q p -> edge f p' q' -> edge g q' p' -> p = p' /\ q = q'.
Proof. exact sides_meet. Qed.
Print Assumptions C127_meet.

(** ... so that a face has fewer corners than there are faces ... *)
Theorem C127_corners : forall parse cosine radians atan2 quat mat2 tx e planes b o,
  build_brush (real_num parse cosine radians atan2 quat mat2) tx e planes = Ok b -> polar_angle atan2 ->
  (forall plane f, In plane planes -> In f (bg_faces b) -> build_face (real_num parse cosine radians atan2 quat mat2) tx e planes plane = Ok f ->
     proper plane /\ crisp planes f /\ sharp planes plane) ->
  bounded (solid planes) -> deep planes o -> no_repeats planes ->
  forall f, In f (bg_faces b) -> (3 <= length (f_vertices f))%nat -> (length (f_vertices f) < length (shown b))%nat.
Proof. exact corners_few. Qed.
Print Assumptions C127_corners.

(** ... and there are at least four faces. *)
Theorem C127_four : forall parse cosine radians atan2 quat mat2 tx e planes b o,
  build_brush (real_num parse cosine radians atan2 quat mat2) tx e planes = Ok b -> polar_angle atan2 ->
  (forall plane f, In plane planes -> In f (bg_faces b) -> build_face (real_num parse cosine radians atan2 quat mat2) tx e planes plane = Ok f ->
     proper plane /\ crisp planes f /\ sharp planes plane) ->
  bounded (solid planes) -> deep planes o -> no_repeats planes ->
  (4 <= length (shown b) <= length planes)%nat.
Proof. exact shown_four. Qed.
Print Assumptions C127_four.

(** A unit cube meets all of this. *)
Example C127_example : forall parse cosine radians quat mat2 tx e, let O := real_num parse cosine radians real_atan2 quat mat2 in exists b f p q,
  build_brush O tx e cube = Ok b /\ polar_angle real_atan2
  /\ (forall plane f, In plane cube -> In f (bg_faces b) -> build_face O tx e cube plane = Ok f -> proper plane /\ crisp cube f /\ sharp cube plane)
  /\ bounded (solid cube) /\ deep cube middle /\ no_repeats cube
  /\ length (bg_faces b) = 6%nat /\ In f (bg_faces b) /\ (3 <= length (f_vertices f))%nat /\ edge f p q.
Proof. exact cube_closed. Qed.
