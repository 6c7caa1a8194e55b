(** C155: meshes and concave shapes are exactly the surfaces of brushes, and nothing passes through. *)
From Coq Require Import Reals.
From Verif Require Import Prelude F32 Text MapModel GeoModel LayerModel GameDataModel SceneModel InvarianceSpec GeoSpec RealSpec WindSpec SolidSpec RigidSpec EdgeSpec ShellSpec CladSpec WrapSpec
  RealProofs WrapProofs WindWitness SolidWitness RigidWitness EdgeWitness ShellWitness PierceWitness.
Local Open Scope R_scope.

(** C155: the points of the triangles of a concave collision shape anywhere in the tree are exactly the points on the surfaces of all brushes of an entity, or of some of those of the worldspawn ... *)
Theorem C155_shapes : forall parse cosine radians atan2 quat mat2, polar_angle atan2 -> forall fuel gd fd bl tx es nodes,
  exact_scene (real_num parse cosine radians atan2 quat mat2) fuel gd fd bl tx es = Ok nodes ->
  (forall e planes, In e es -> In planes (e_brushes e) -> good_brush (real_num parse cosine radians atan2 quat mat2) tx e planes) ->
  forall n0 c k T, In n0 nodes -> InvarianceSpec.within (NCollision c k) n0 -> In T (shells (NCollision c k)) -> wraps_whole es T.
Proof. exact shapes_wrap. Qed.
Print Assumptions C155_shapes.

(** ... so that every straight way from inside one of these brushes to outside it meets the shape, and every point of it is on the surface of one of them ... *)
Theorem C155_walls : forall parse cosine radians atan2 quat mat2, polar_angle atan2 -> forall fuel gd fd bl tx es nodes,
  exact_scene (real_num parse cosine radians atan2 quat mat2) fuel gd fd bl tx es = Ok nodes ->
  (forall e planes, In e es -> In planes (e_brushes e) -> good_brush (real_num parse cosine radians atan2 quat mat2) tx e planes) ->
  forall n0 c k T, In n0 nodes -> InvarianceSpec.within (NCollision c k) n0 -> In T (shells (NCollision c k)) -> holds_in es T.
Proof. exact shapes_hold. Qed.
Print Assumptions C155_walls.

(** ... and the triangles of all surfaces of a mesh together are the surfaces of some brushes of an entity, unless textures used are blacklisted. *)
Theorem C155_meshes : forall parse cosine radians atan2 quat mat2, polar_angle atan2 -> forall fuel gd fd bl tx es nodes,
  exact_scene (real_num parse cosine radians atan2 quat mat2) fuel gd fd bl tx es = Ok nodes ->
  (forall e planes, In e es -> In planes (e_brushes e) -> good_brush (real_num parse cosine radians atan2 quat mat2) tx e planes) ->
  (forall e planes pl, In e es -> In planes (e_brushes e) -> In pl planes -> ~ In (bp_texture pl) (bl_plane bl)) ->
  forall n0 c v T, In n0 nodes -> InvarianceSpec.within (NVisual c v) n0 -> In T (shells (NVisual c v)) -> wraps es T.
Proof. exact meshes_wrap. Qed.
Print Assumptions C155_meshes.

(** A hall with a cube in it has such a mesh and such a shape; the cube has an inside and an outside. *)
Example C155_example : polar_angle real_atan2 /\ deep cube middle /\ ~ solid cube away /\ forall parse cosine radians quat mat2, let O := real_num parse cosine radians real_atan2 quat mat2 in forall tx,
  (forall e planes, In e cube_hall -> In planes (e_brushes e) -> good_brush O tx e planes) /\
  exists nodes n0 c k T n1 c' v T', exact_scene O 1 hall_game (ForgeData [] [] []) (Blacklist [] []) tx cube_hall = Ok nodes
  /\ In n0 nodes /\ InvarianceSpec.within (NCollision c k) n0 /\ In T (shells (NCollision c k))
  /\ In n1 nodes /\ InvarianceSpec.within (NVisual c' v) n1 /\ In T' (shells (NVisual c' v)).
Proof. exact (conj real_polar (conj cube_deep (conj away_outside (fun parse cosine radians quat mat2 tx => conj (hall_good parse cosine radians quat mat2 tx) (hall_shells parse cosine radians quat mat2 tx))))). Qed.
