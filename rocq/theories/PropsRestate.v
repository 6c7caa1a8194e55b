(** C120: the points that state a plane. *)
From Coq Require Import Reals Permutation.
From Verif Require Import Prelude F32 Text MapModel GeoModel SceneModel RealSpec WindSpec RestateSpec RestateProofs WindWitness RestateWitness.

(** C120: stating the planes of a brush by other points of them, with the same sense, does not change a face, save that its corners may
    begin with another one ... *)
Theorem C120_face : forall parse cosine radians atan2 quat mat2 tx e planes planes' plane plane' f,
  Forall2 restated planes planes' -> restated plane plane' ->
  build_face (real_num parse cosine radians atan2 quat mat2) tx e planes plane = Ok f ->
  exists f', build_face (real_num parse cosine radians atan2 quat mat2) tx e planes' plane' = Ok f' /\ restated_face f f'
    /\ (crisp planes f -> polar_angle atan2 -> begun_elsewhere (f_vertices f) (f_vertices f')).
Proof. exact face_stated. Qed.
Print Assumptions C120_face.

(** ... and neither brushes, entities nor the points of their convex shapes. *)
Theorem C120_entity : forall parse cosine radians atan2 quat mat2 tx e e' g, restated_entity e e' ->
  build_entity_geo (real_num parse cosine radians atan2 quat mat2) tx e = Ok g ->
  exists g', build_entity_geo (real_num parse cosine radians atan2 quat mat2) tx e' = Ok g' /\ eg_center g' = eg_center g /\
    Forall2 restated_brush (eg_brushes g) (eg_brushes g') /\
    exists shapes shapes', convex_collision (real_num parse cosine radians atan2 quat mat2) g = ColConvex shapes /\
      convex_collision (real_num parse cosine radians atan2 quat mat2) g' = ColConvex shapes' /\ Forall2 restated_convex shapes shapes'.
Proof. exact entity_restated. Qed.
Print Assumptions C120_entity.

Example C120_example : Forall2 restated cube (far_lid :: tl cube) /\ restated lid far_lid /\ polar_angle real_atan2 /\
  forall parse cosine radians quat mat2 tx e, exists f,
    build_face (real_num parse cosine radians real_atan2 quat mat2) tx e cube lid = Ok f /\ crisp cube f /\ (3 <= length (f_vertices f))%nat.
Proof. exact (conj cube_restated (conj lid_restated (conj real_polar lid_face))). Qed.
