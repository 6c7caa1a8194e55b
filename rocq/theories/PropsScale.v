(** C122: enlarging or shrinking a map. *)
From Coq Require Import Reals.
From Verif Require Import Prelude F32 Text MapModel GeoModel LayerModel GameDataModel SceneModel GeoSpec RealSpec WindSpec RigidSpec ScaleSpec
  RealProofs RigidProofs ScaleProofs ScaleFinal WindWitness RigidWitness ScaleWitness.
Local Open Scope R_scope.

(** C122: a face of a brush enlarged with its texture is the face enlarged: corners in the same order, the same normals, tangents, colours,
    texture coordinates, triangles and texture, as long as the tolerance for points in front of a plane matters neither before nor after ... *)
Theorem C122_face : forall parse cosine radians atan2 quat mat2 k, 0 < k -> polar_angle atan2 -> homogeneous mat2 ->
  forall tx e planes plane f, roomy k planes -> In plane planes ->
  build_face (real_num parse cosine radians atan2 quat mat2) tx e planes plane = Ok f ->
  exists f', build_face (real_num parse cosine radians atan2 quat mat2) tx e (map (grown_plane k) planes) (grown_plane k plane) = Ok f' /\ grown_face k f f'.
Proof. exact face_grown. Qed.
Print Assumptions C122_face.

(** ... so is a brush, its centre included ... *)
Theorem C122_brush : forall parse cosine radians atan2 quat mat2 k, 0 < k -> polar_angle atan2 -> homogeneous mat2 ->
  forall tx e b g, roomy k b -> build_brush (real_num parse cosine radians atan2 quat mat2) tx e b = Ok g ->
  exists g', build_brush (real_num parse cosine radians atan2 quat mat2) tx e (map (grown_plane k) b) = Ok g' /\ grown_brush k g g'.
Proof. exact brush_grown. Qed.
Print Assumptions C122_brush.

(** ... and the whole scene: the same nodes with the same actors, all origins, meshes and shapes enlarged. *)
Theorem C122_map : forall parse cosine radians atan2 quat mat2 k, 0 < k -> polar_angle atan2 -> homogeneous mat2 ->
  forall fuel gd fd bl tx es es' nodes,
  Forall2 (grown_entity parse k) es es' ->
  (forall e b, In e es -> In b (e_brushes e) -> roomy k b) ->
  exact_scene (real_num parse cosine radians atan2 quat mat2) fuel gd fd bl tx es = Ok nodes ->
  exists nodes', exact_scene (real_num parse cosine radians atan2 quat mat2) fuel gd fd bl tx es' = Ok nodes' /\ Forall2 (grown_node k) nodes nodes'.
Proof. exact map_grow. Qed.
Print Assumptions C122_map.

(** Without the condition on the tolerance it is false: a face cut away comes back once the brush is a thousandth of its size. *)
Theorem C122_tolerance_refuted : exists k planes plane, 0 < k /\ In plane planes /\ forall parse cosine radians atan2 quat mat2 tx e f f',
  build_face (real_num parse cosine radians atan2 quat mat2) tx e planes plane = Ok f ->
  build_face (real_num parse cosine radians atan2 quat mat2) tx e (map (grown_plane k) planes) (grown_plane k plane) = Ok f' ->
  f_vertices f = [] /\ f_vertices f' <> [].
Proof. exact (ex_intro _ (/ 1000) (ex_intro _ cut_cube (ex_intro _ lid (conj thousandth (conj (or_intror (or_introl eq_refl)) lid_shrunk))))). Qed.
Print Assumptions C122_tolerance_refuted.

(** A cube of side 1 and a light, at twice the size. *)
Example C122_example : 0 < 2 /\ polar_angle real_atan2 /\ homogeneous planar_turn /\
  Forall2 (grown_entity digit 2) (lit_hall (lit "1 0 1") crate) (lit_hall (lit "2 0 2") (map (grown_plane 2) crate)) /\
  (forall e b, In e (lit_hall (lit "1 0 1") crate) -> In b (e_brushes e) -> roomy 2 b) /\
  forall cosine radians quat tx, exists nodes,
    exact_scene (real_num digit cosine radians real_atan2 quat planar_turn) 1 hall_game (ForgeData [] [] []) (Blacklist [] []) tx (lit_hall (lit "1 0 1") crate) = Ok nodes.
Proof.
  exact (conj Rlt_0_2 (conj real_polar (conj planar_homogeneous (conj hall_doubled (conj (fun e b => hall_roomy 2 (lit "1 0 1") e b Rlt_0_2)
    (fun cosine radians quat tx => lit_hall_built digit cosine radians real_atan2 quat planar_turn (lit "1 0 1") tx)))))).
Qed.
