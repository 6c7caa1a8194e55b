(** C119: turning and moving a map. *)
From Coq Require Import Reals.
From Verif Require Import Prelude F32 Text MapModel GeoModel LayerModel GameDataModel SceneModel GeoSpec RealSpec WindSpec RigidSpec
  RigidProofs RigidFinal WindWitness RigidWitness.

(** C119: turning and moving all planes of a brush with texture lock turns and moves its faces: corners in the same order, normals
    turned, the same colours, triangles and texture and, if the texture's axes are given, tangents turned and the same texture
    coordinates ... *)
Theorem C119_face : forall parse cosine radians atan2 quat mat2 M t tx e planes plane f, rotation M ->
  build_face (real_num parse cosine radians atan2 quat mat2) tx e planes plane = Ok f ->
  exists f', build_face (real_num parse cosine radians atan2 quat mat2) tx e (map (carried_plane M t) planes) (carried_plane M t plane) = Ok f' /\
    carried_face M t (locked plane) f f'.
Proof. exact face_carried. Qed.
Print Assumptions C119_face.

(** ... the centre of the brush too, if all its faces have corners ... *)
Theorem C119_brush : forall parse cosine radians atan2 quat mat2 M t tx e b g, rotation M ->
  build_brush (real_num parse cosine radians atan2 quat mat2) tx e b = Ok g ->
  exists g', build_brush (real_num parse cosine radians atan2 quat mat2) tx e (map (carried_plane M t) b) = Ok g' /\
    carried_brush M t (forall pl, In pl b -> locked pl) g g'.
Proof. exact brush_carried. Qed.
Print Assumptions C119_brush.

(** ... and the whole map: the same actors, those at the top moved along and those within others turned, and all meshes and shapes
    carried along with the same triangles. *)
Theorem C119_map : forall parse cosine radians atan2 quat mat2 M t, rotation M -> forall fuel gd fd bl tx es es' nodes,
  Forall2 (carried_entity parse M t) es es' ->
  (forall e b pl, In e es -> In b (e_brushes e) -> In pl b -> locked pl) ->
  (forall e b g, In e es -> In b (e_brushes e) -> build_brush (real_num parse cosine radians atan2 quat mat2) tx e b = Ok g -> full g) ->
  exact_scene (real_num parse cosine radians atan2 quat mat2) fuel gd fd bl tx es = Ok nodes ->
  exists nodes', exact_scene (real_num parse cosine radians atan2 quat mat2) fuel gd fd bl tx es' = Ok nodes' /\ carried_scene M t nodes nodes'.
Proof. exact map_go. Qed.
Print Assumptions C119_map.

(** A cube and a light, turned about the z axis by the angle with cosine 3/5 and moved by (1, 2, 3). *)
Example C119_example : rotation spin /\ Forall2 (carried_entity digit spin far) hall spun_hall /\
  (forall e b pl, In e hall -> In b (e_brushes e) -> In pl b -> locked pl) /\
  forall cosine radians atan2 quat mat2 tx,
    (forall e b g, In e hall -> In b (e_brushes e) -> build_brush (real_num digit cosine radians atan2 quat mat2) tx e b = Ok g -> full g) /\
    exists nodes, exact_scene (real_num digit cosine radians atan2 quat mat2) 1 hall_game (ForgeData [] [] []) (Blacklist [] []) tx hall = Ok nodes.
Proof.
  exact (conj spin_rotation (conj hall_spun (conj hall_locked (fun cosine radians atan2 quat mat2 tx =>
    conj (hall_full digit cosine radians atan2 quat mat2 tx) (hall_built digit cosine radians atan2 quat mat2 tx))))).
Qed.
