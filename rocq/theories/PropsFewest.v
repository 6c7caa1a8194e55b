(** C150: in exact arithmetic, convex collision shapes have no superfluous points. *)
From Coq Require Import Reals.
From Verif Require Import Prelude F32 Text MapModel GeoModel LayerModel GameDataModel SceneModel InvarianceSpec RealSpec WindSpec SolidSpec RigidSpec CastSpec FewestSpec
  WindWitness CutWitness CastWitness FewestProofs.
Local Open Scope R_scope.

(** C150: the points of the convex shape of a brush span its solid, and every other list of points that spans it contains them all. *)
Theorem C150_brush : forall parse cosine radians atan2 quat mat2 tx e planes g o bs k i,
  build_brush (real_num parse cosine radians atan2 quat mat2) tx e planes = Ok g -> fair_brush (real_num parse cosine radians atan2 quat mat2) tx e planes ->
  nth_error bs i = Some g -> collision_of (real_num parse cosine radians atan2 quat mat2) CConvex (EntityGeo o bs) = Ok k ->
  exists shapes shape, k = ColConvex shapes /\ nth_error shapes i = Some shape /\ fewest planes (cx_points shape).
Proof. exact brush_fewest. Qed.
Print Assumptions C150_brush.

(** The same for all convex shapes of a scene. *)
Theorem C150_scene : forall parse cosine radians atan2 quat mat2 fuel gd fd bl tx es nodes,
  exact_scene (real_num parse cosine radians atan2 quat mat2) fuel gd fd bl tx es = Ok nodes ->
  (forall e planes, In e es -> In planes (e_brushes e) -> fair_brush (real_num parse cosine radians atan2 quat mat2) tx e planes) ->
  forall n0 c shapes shape, In n0 nodes -> InvarianceSpec.within (NCollision c (ColConvex shapes)) n0 -> In shape shapes ->
  exists e planes, In e es /\ In planes (e_brushes e) /\ fewest planes (cx_points shape).
Proof. exact scene_fewest. Qed.
Print Assumptions C150_scene.

(** Three brushes, and a map made of two of them. *)
Example C150_brush_example : forall parse cosine radians atan2 quat mat2 tx e, let O := real_num parse cosine radians atan2 quat mat2 in
  (fair_brush O tx e cube /\ fair_brush O tx e (cut :: cube) /\ fair_brush O tx e (other :: cube))
  /\ exists g g1 g2 k, build_brush O tx e cube = Ok g /\ build_brush O tx e (cut :: cube) = Ok g1 /\ build_brush O tx e (other :: cube) = Ok g2
    /\ collision_of O CConvex (EntityGeo o0 [g; g1; g2]) = Ok k.
Proof. exact (fun parse cosine radians atan2 quat mat2 tx e => conj (parts_fair parse cosine radians atan2 quat mat2 tx e) (parts_cast parse cosine radians atan2 quat mat2 tx e)). Qed.
Example C150_scene_example : forall parse cosine radians atan2 quat mat2, let O := real_num parse cosine radians atan2 quat mat2 in
  forall tx, (forall e planes, In e cellar -> In planes (e_brushes e) -> fair_brush O tx e planes)
  /\ exists nodes n0 c shapes shape, exact_scene O 1 cellar_game (ForgeData [] [] []) (Blacklist [] []) tx cellar = Ok nodes
    /\ In n0 nodes /\ InvarianceSpec.within (NCollision c (ColConvex shapes)) n0 /\ In shape shapes /\ length shapes = 2%nat.
Proof. exact cellar_built. Qed.
