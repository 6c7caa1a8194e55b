(** C121: the order of the sides of a brush. *)
From Coq Require Import Reals Permutation.
From Verif Require Import Prelude F32 Text MapModel GeoModel SceneModel GeoSpec NumberSpec RealSpec WindSpec ErrorSpec RestateSpec SidesSpec WindWitness SidesProofs SidesWitness.
Local Open Scope R_scope.

(** C121: another order of the sides gives the same brush with its faces in another order, provided normals are not smoothed or at most three sides
    meet in a corner ... *)
Theorem C121_brush : forall parse cosine radians atan2 quat mat2 tx e e' b b' g,
  e_props e' = e_props e -> Permutation b b' -> settled e b -> build_brush (real_num parse cosine radians atan2 quat mat2) tx e b = Ok g ->
  exists g', build_brush (real_num parse cosine radians atan2 quat mat2) tx e' b' = Ok g' /\ resided_brush g g' /\
    ((forall f, In f (bg_faces g) -> crisp b f) -> polar_angle atan2 -> Permutation (bg_faces g) (bg_faces g')).
Proof. exact brush_resided. Qed.
Print Assumptions C121_brush.

(** ... so that entities and their convex shapes are the same. *)
Theorem C121_entity : forall parse cosine radians atan2 quat mat2 tx e e' g, resided_entity e e' ->
  build_entity_geo (real_num parse cosine radians atan2 quat mat2) tx e = Ok g ->
  exists g', build_entity_geo (real_num parse cosine radians atan2 quat mat2) tx e' = Ok g' /\ eg_center g' = eg_center g /\
    Forall2 resided_brush (eg_brushes g) (eg_brushes g') /\
    exists shapes shapes', convex_collision (real_num parse cosine radians atan2 quat mat2) g = ColConvex shapes /\
      convex_collision (real_num parse cosine radians atan2 quat mat2) g' = ColConvex shapes' /\ Forall2 restated_convex shapes shapes'.
Proof. exact entity_resided. Qed.
Print Assumptions C121_entity.

(** Where four sides meet, the order decides the smoothed normal: at the tip of a pyramid it leans to one side or to the other. *)
Theorem C121_smoothed_refuted : forall simd, exists p tx e planes planes' plane f f' v v', p_simd p = simd /\ phong e /\ (forall q, In q planes -> grid_plane q)
  /\ Permutation planes planes' /\ In plane planes /\ build_face (f32_num p) tx e planes plane = Ok f /\ build_face (f32_num p) tx e planes' plane = Ok f'
  /\ map vt_pos (f_vertices f) = map vt_pos (f_vertices f') /\ In v (f_vertices f) /\ In v' (f_vertices f') /\ vt_pos v = vt_pos v'
  /\ val (vx (vt_normal v)) <= - (3 / 10) /\ 3 / 10 <= val (vx (vt_normal v')).
Proof. exact two_ways. Qed.
Print Assumptions C121_smoothed_refuted.

Example C121_example : Permutation cube (rev cube) /\ trihedral cube /\ polar_angle real_atan2 /\
  forall parse cosine radians quat mat2 tx e, exists f,
    build_face (real_num parse cosine radians real_atan2 quat mat2) tx e cube lid = Ok f /\ crisp cube f /\ (3 <= length (f_vertices f))%nat.
Proof. exact (conj (Permutation_rev cube) (conj cube_trihedral (conj real_polar lid_face))). Qed.
