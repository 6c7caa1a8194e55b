(** C144: mirror images. *)
From Coq Require Import Reals Permutation.
From Verif Require Import Prelude F32 Text MapModel GeoModel SceneModel GeoSpec RealSpec WindSpec RigidSpec RestateSpec MirrorSpec WindWitness MirrorProofs MirrorWitness.

(** C144: the mirror image of a brush has the mirror images of its faces: the same corners mirrored, the centre too, as many triangles and the same texture; flat normals are
    mirrored; and the corners come in the opposite order, beginning anywhere, so that triangles still turn clockwise ... *)
Theorem C144_face : forall parse cosine radians atan2 quat mat2 M t tx e planes planes' plane plane' f, reflection M ->
  Forall2 (mirrored M t) planes planes' -> mirrored M t plane plane' ->
  build_face (real_num parse cosine radians atan2 quat mat2) tx e planes plane = Ok f ->
  exists f', build_face (real_num parse cosine radians atan2 quat mat2) tx e planes' plane' = Ok f' /\ mirrored_face M t f f'
    /\ (~ phong e -> forall v v', In v (f_vertices f) -> In v' (f_vertices f') -> vt_normal v' = M (vt_normal v))
    /\ (crisp planes f -> polar_angle atan2 -> begun_elsewhere (rev (map (carry M t) (map vt_pos (f_vertices f)))) (map vt_pos (f_vertices f'))).
Proof. exact face_seen. Qed.
Print Assumptions C144_face.

(** ... and so for entities, their centres and their convex shapes. *)
Theorem C144_entity : forall parse cosine radians atan2 quat mat2 M t, reflection M -> forall tx e e' g, mirrored_entity M t e e' ->
  build_entity_geo (real_num parse cosine radians atan2 quat mat2) tx e = Ok g ->
  exists g', build_entity_geo (real_num parse cosine radians atan2 quat mat2) tx e' = Ok g' /\ Forall2 (mirrored_brush M t) (eg_brushes g) (eg_brushes g') /\
    (hget (e_props e) (lit "origin") = None -> e_brushes e <> [] -> (forall b, In b (eg_brushes g) -> full b) -> eg_center g' = carry M t (eg_center g)) /\
    exists shapes shapes', convex_collision (real_num parse cosine radians atan2 quat mat2) g = ColConvex shapes /\
      convex_collision (real_num parse cosine radians atan2 quat mat2) g' = ColConvex shapes' /\ Forall2 (mirrored_convex M t) shapes shapes'.
Proof. exact entity_mirrored. Qed.
Print Assumptions C144_entity.

Example C144_example : reflection glass /\ Forall2 (mirrored glass beyond) cube (map seen cube) /\ mirrored glass beyond lid (seen lid) /\ polar_angle real_atan2 /\
  forall parse cosine radians quat mat2 tx e, exists f,
    build_face (real_num parse cosine radians real_atan2 quat mat2) tx e cube lid = Ok f /\ crisp cube f /\ (3 <= length (f_vertices f))%nat.
Proof. exact (conj glass_reflection (conj cube_seen (conj (seen_mirrored lid) (conj real_polar lid_face)))). Qed.
