(** C149: in exact arithmetic, convex collision shapes are exactly the solids of their brushes. *)
From Coq Require Import Reals.
From Verif Require Import Prelude F32 Text MapModel GeoModel LayerModel GameDataModel SceneModel InvarianceSpec RealSpec WindSpec SolidSpec RigidSpec CutSpec CastSpec
  WindWitness CutWitness CastProofs CastWitness.
Local Open Scope R_scope.

(** C149: the convex hull of the points of the shape is the set of points inside all planes.  Nothing is assumed of [atan2]. *)
Theorem C149_brush : forall parse cosine radians atan2 quat mat2 tx e planes g o bs k i,
  build_brush (real_num parse cosine radians atan2 quat mat2) tx e planes = Ok g -> fair_brush (real_num parse cosine radians atan2 quat mat2) tx e planes ->
  nth_error bs i = Some g -> collision_of (real_num parse cosine radians atan2 quat mat2) CConvex (EntityGeo o bs) = Ok k ->
  exists shapes shape, k = ColConvex shapes /\ nth_error shapes i = Some shape /\ casts planes (cx_points shape).
Proof. exact brush_cast. Qed.
Print Assumptions C149_brush.

(** Every convex shape anywhere in the tree, of entities and layers, is the solid of a brush of the map. *)
Theorem C149_scene : forall parse cosine radians atan2 quat mat2 fuel gd fd bl tx es nodes,
  exact_scene (real_num parse cosine radians atan2 quat mat2) fuel gd fd bl tx es = Ok nodes ->
  (forall e planes, In e es -> In planes (e_brushes e) -> fair_brush (real_num parse cosine radians atan2 quat mat2) tx e planes) ->
  forall n0 c shapes shape, In n0 nodes -> InvarianceSpec.within (NCollision c (ColConvex shapes)) n0 -> In shape shapes ->
  exists e planes, In e es /\ In planes (e_brushes e) /\ casts planes (cx_points shape).
Proof. exact scene_cast. Qed.
Print Assumptions C149_scene.

(** The shapes of the two parts of a brush that is cut make up its shape, and meet only along the cut. *)
Theorem C149_cut : forall planes one two c c' l l1 l2, backs c c' -> adds c planes one -> adds c' planes two -> casts planes l -> casts one l1 -> casts two l2 ->
  (forall x, in_hull l x <-> in_hull l1 x \/ in_hull l2 x) /\ (forall x, in_hull l1 x -> in_hull l2 x -> on_plane c x).
Proof. exact cut_cast. Qed.
Print Assumptions C149_cut.

(** A cube and its halves. *)
Example C149_brush_example : backs cut other /\ adds cut cube (cut :: cube) /\ adds other cube (other :: cube) /\
  forall parse cosine radians atan2 quat mat2 tx e, let O := real_num parse cosine radians atan2 quat mat2 in
    (fair_brush O tx e cube /\ fair_brush O tx e (cut :: cube) /\ fair_brush O tx e (other :: cube))
    /\ exists g g1 g2 k, build_brush O tx e cube = Ok g /\ build_brush O tx e (cut :: cube) = Ok g1 /\ build_brush O tx e (other :: cube) = Ok g2
      /\ collision_of O CConvex (EntityGeo o0 [g; g1; g2]) = Ok k.
Proof.
  exact (conj (proj1 cube_cut) (conj (proj1 (proj2 cube_cut)) (conj (proj1 (proj2 (proj2 cube_cut)))
    (fun parse cosine radians atan2 quat mat2 tx e => conj (parts_fair parse cosine radians atan2 quat mat2 tx e) (parts_cast parse cosine radians atan2 quat mat2 tx e))))).
Qed.

(** A map made of the two halves. *)
Example C149_scene_example : forall parse cosine radians atan2 quat mat2, let O := real_num parse cosine radians atan2 quat mat2 in
  forall tx, (forall e planes, In e cellar -> In planes (e_brushes e) -> fair_brush O tx e planes)
  /\ exists nodes n0 c shapes shape, exact_scene O 1 cellar_game (ForgeData [] [] []) (Blacklist [] []) tx cellar = Ok nodes
    /\ In n0 nodes /\ InvarianceSpec.within (NCollision c (ColConvex shapes)) n0 /\ In shape shapes /\ length shapes = 2%nat.
Proof. exact cellar_built. Qed.
