(** C125: the meshes and concave shapes of a map are closed. *)
From Coq Require Import Reals.
From Verif Require Import Prelude F32 Text MapModel GeoModel LayerModel GameDataModel SceneModel InvarianceSpec GeoSpec RealSpec WindSpec SolidSpec RigidSpec EdgeSpec ShellSpec
  RealProofs ShellFinal WindWitness RigidWitness ShellWitness.
Local Open Scope R_scope.

(** C125: every concave collision shape anywhere in the tree, of entities and layers, is watertight and encloses a positive volume ... *)
Theorem C125_shapes : forall parse cosine radians atan2 quat mat2, polar_angle atan2 -> forall fuel gd fd bl tx es nodes,
  exact_scene (real_num parse cosine radians atan2 quat mat2) fuel gd fd bl tx es = Ok nodes ->
  (forall e planes, In e es -> In planes (e_brushes e) -> good_brush (real_num parse cosine radians atan2 quat mat2) tx e planes) ->
  forall n0 c k T, In n0 nodes -> InvarianceSpec.within (NCollision c k) n0 -> In T (shells (NCollision c k)) -> watertight T /\ encloses T.
Proof. exact concave_scene. Qed.
Print Assumptions C125_shapes.

(** ... and so are all surfaces of a mesh together, unless textures used are blacklisted. *)
Theorem C125_meshes : forall parse cosine radians atan2 quat mat2, polar_angle atan2 -> forall fuel gd fd bl tx es nodes,
  exact_scene (real_num parse cosine radians atan2 quat mat2) fuel gd fd bl tx es = Ok nodes ->
  (forall e planes, In e es -> In planes (e_brushes e) -> good_brush (real_num parse cosine radians atan2 quat mat2) tx e planes) ->
  (forall e planes pl, In e es -> In planes (e_brushes e) -> In pl planes -> ~ In (bp_texture pl) (bl_plane bl)) ->
  forall n0 c v T, In n0 nodes -> InvarianceSpec.within (NVisual c v) n0 -> In T (shells (NVisual c v)) -> watertight T /\ encloses T.
Proof. exact mesh_scene. Qed.
Print Assumptions C125_meshes.

(** A hall with a cube in it has such a mesh and such a shape. *)
Example C125_example : polar_angle real_atan2 /\ forall parse cosine radians quat mat2, let O := real_num parse cosine radians real_atan2 quat mat2 in forall tx,
  (forall e planes, In e cube_hall -> In planes (e_brushes e) -> good_brush O tx e planes) /\
  exists nodes n0 c k T n1 c' v T', exact_scene O 1 hall_game (ForgeData [] [] []) (Blacklist [] []) tx cube_hall = Ok nodes
  /\ In n0 nodes /\ InvarianceSpec.within (NCollision c k) n0 /\ In T (shells (NCollision c k))
  /\ In n1 nodes /\ InvarianceSpec.within (NVisual c' v) n1 /\ In T' (shells (NVisual c' v)).
Proof. exact (conj real_polar (fun parse cosine radians quat mat2 tx => conj (hall_good parse cosine radians quat mat2 tx) (hall_shells parse cosine radians quat mat2 tx))). Qed.
