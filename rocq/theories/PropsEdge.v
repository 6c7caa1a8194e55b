(** C123: the faces of a brush meet edge to edge. *)
From Coq Require Import Reals.
From Verif Require Import Prelude F32 Text MapModel GeoModel GeoSpec RealSpec WindSpec SolidSpec EdgeSpec
  RealProofs EdgeProofs WindWitness EdgeWitness.
Local Open Scope R_scope.

(** C123: every edge of a face with three corners or more is, run the other way, an edge of another such face: no gaps, and no corner of one face
    inside an edge of another ... *)
Theorem C123_shared : forall parse cosine radians atan2 quat mat2 tx e planes b o,
  build_brush (real_num parse cosine radians atan2 quat mat2) tx e planes = Ok b -> polar_angle atan2 ->
  (forall plane f, In plane planes -> In f (bg_faces b) -> build_face (real_num parse cosine radians atan2 quat mat2) tx e planes plane = Ok f ->
     proper plane /\ crisp planes f /\ sharp planes plane) ->
  bounded (solid planes) -> deep planes o ->
  forall f p q, In f (bg_faces b) -> (3 <= length (f_vertices f))%nat -> edge f p q ->
  exists g, In g (bg_faces b) /\ (3 <= length (f_vertices g))%nat /\ edge g q p.
Proof. exact edges_shared. Qed.
Print Assumptions C123_shared.

(** ... and only of one, run that way, unless a side is given twice. *)
Theorem C123_once : forall parse cosine radians atan2 quat mat2 tx e planes b o,
  build_brush (real_num parse cosine radians atan2 quat mat2) tx e planes = Ok b -> polar_angle atan2 ->
  (forall plane f, In plane planes -> In f (bg_faces b) -> build_face (real_num parse cosine radians atan2 quat mat2) tx e planes plane = Ok f ->
     proper plane /\ crisp planes f /\ sharp planes plane) ->
  bounded (solid planes) -> deep planes o -> no_repeats planes ->
  forall i j f g p q, nth_error (bg_faces b) i = Some f -> nth_error (bg_faces b) j = Some g ->
  (3 <= length (f_vertices f))%nat -> (3 <= length (f_vertices g))%nat -> edge f p q -> edge g p q -> i = j.
Proof. exact edges_once. Qed.
Print Assumptions C123_once.

(** A unit cube meets all of this. *)
Example C123_example : forall parse cosine radians quat mat2 tx e, let O := real_num parse cosine radians real_atan2 quat mat2 in exists b f p q,
  build_brush O tx e cube = Ok b /\ polar_angle real_atan2
  /\ (forall plane f, In plane cube -> In f (bg_faces b) -> build_face O tx e cube plane = Ok f -> proper plane /\ crisp cube f /\ sharp cube plane)
  /\ bounded (solid cube) /\ deep cube middle /\ no_repeats cube
  /\ length (bg_faces b) = 6%nat /\ In f (bg_faces b) /\ (3 <= length (f_vertices f))%nat /\ edge f p q.
Proof. exact cube_closed. Qed.

(** With a side given twice, both are built: their edges belong to two faces. *)
Theorem C123_repeated_refuted : forall parse cosine radians quat mat2, let O := real_num parse cosine radians real_atan2 quat mat2 in forall tx e, exists b,
  build_brush O tx e doubled = Ok b /\ polar_angle real_atan2
  /\ (forall plane f, In plane doubled -> In f (bg_faces b) -> build_face O tx e doubled plane = Ok f -> proper plane /\ crisp doubled f /\ sharp doubled plane)
  /\ bounded (solid doubled) /\ deep doubled middle
  /\ exists f p q, nth_error (bg_faces b) 0 = Some f /\ nth_error (bg_faces b) 1 = Some f /\ (3 <= length (f_vertices f))%nat /\ edge f p q.
Proof. exact doubled_twice. Qed.
Print Assumptions C123_repeated_refuted.
