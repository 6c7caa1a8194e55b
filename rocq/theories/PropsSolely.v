(** C151: in exact arithmetic, the faces and the convex shape of a brush depend only on the solid. *)
From Coq Require Import Reals Permutation.
From Verif Require Import Prelude F32 Text MapModel GeoModel LayerModel GameDataModel SceneModel RealSpec WindSpec SolidSpec RestateSpec CastSpec SolelySpec
  WindWitness CutWitness SolelyProofs SolelyWitness.
Local Open Scope R_scope.

(** C151: planes of two brushes with the same points on their sides have faces with the same corners, centre and indices, in the same order around when they face the same way. *)
Theorem C151_face : forall parse cosine radians atan2 quat mat2 tx e planes pl f tx' e' planes' pl' f',
  build_face (real_num parse cosine radians atan2 quat mat2) tx e planes pl = Ok f -> build_face (real_num parse cosine radians atan2 quat mat2) tx' e' planes' pl' = Ok f' ->
  In pl planes -> In pl' planes' ->
  proper pl -> crisp planes f -> sharp planes pl -> bounded (side planes pl) -> proper pl' -> crisp planes' f' -> sharp planes' pl' -> bounded (side planes' pl') ->
  same_side planes pl planes' pl' ->
  same_face f f' /\ (same_way pl pl' -> polar_angle atan2 -> begun_elsewhere (map vt_pos (f_vertices f)) (map vt_pos (f_vertices f'))).
Proof. exact face_same. Qed.
Print Assumptions C151_face.

(** Two brushes with the same solid have convex shapes with the same points, up to their order. *)
Theorem C151_shape : forall parse cosine radians atan2 quat mat2 tx e planes g tx' e' planes' g' o bs i k o' bs' i' k',
  build_brush (real_num parse cosine radians atan2 quat mat2) tx e planes = Ok g -> build_brush (real_num parse cosine radians atan2 quat mat2) tx' e' planes' = Ok g' ->
  fair_brush (real_num parse cosine radians atan2 quat mat2) tx e planes -> fair_brush (real_num parse cosine radians atan2 quat mat2) tx' e' planes' ->
  same_solid planes planes' ->
  nth_error bs i = Some g -> collision_of (real_num parse cosine radians atan2 quat mat2) CConvex (EntityGeo o bs) = Ok k ->
  nth_error bs' i' = Some g' -> collision_of (real_num parse cosine radians atan2 quat mat2) CConvex (EntityGeo o' bs') = Ok k' ->
  exists shapes shape shapes' shape', k = ColConvex shapes /\ nth_error shapes i = Some shape /\ k' = ColConvex shapes' /\ nth_error shapes' i' = Some shape'
    /\ Permutation (cx_points shape) (cx_points shape').
Proof. exact brush_same. Qed.
Print Assumptions C151_shape.

(** Half a cube, stated with seven planes and with six of them in another order. *)
Example C151_face_example : forall parse cosine radians quat mat2 tx e, let O := real_num parse cosine radians real_atan2 quat mat2 in
  exists f f', build_face O tx e (cut :: cube) lid = Ok f /\ build_face O tx e slim lid = Ok f' /\ In lid (cut :: cube) /\ In lid slim
    /\ proper lid /\ crisp (cut :: cube) f /\ sharp (cut :: cube) lid /\ bounded (side (cut :: cube) lid) /\ crisp slim f' /\ sharp slim lid /\ bounded (side slim lid)
    /\ same_side (cut :: cube) lid slim lid /\ same_way lid lid /\ polar_angle real_atan2.
Proof. exact slim_lid. Qed.
Example C151_shape_example : forall parse cosine radians atan2 quat mat2 tx e, let O := real_num parse cosine radians atan2 quat mat2 in
  fair_brush O tx e (cut :: cube) /\ fair_brush O tx e slim /\ same_solid (cut :: cube) slim
  /\ exists g g' k k', build_brush O tx e (cut :: cube) = Ok g /\ build_brush O tx e slim = Ok g' /\ collision_of O CConvex (EntityGeo o0 [g]) = Ok k /\ collision_of O CConvex (EntityGeo e1 [g']) = Ok k'.
Proof. exact slim_brush. Qed.
