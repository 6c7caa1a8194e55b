(** C132: in single precision, the meshes and concave shapes of maps made of integer boxes are closed and enclose the volume of the boxes. *)
From Coq Require Import Reals Permutation.
From Verif Require Import Prelude F32 Text MapModel GeoModel LayerModel GameDataModel SceneModel RunModel MapSpec Utf8Spec RunSpec InvarianceSpec RealSpec ErrorSpec PointsSpec WoundSpec ShellSpec BrickSpec
  RunWitness KeptWitness TriangleWitness CoverWitness BrickFinal BrickWitness.
Local Open Scope R_scope.

(** C132: every concave collision shape of a run, of entities and layers, wraps boxes of the map: its triangles, where the
    floats put them, leave no gap and enclose exactly the volume of the boxes ... *)
Theorem C132_shapes : forall p r a, (1 <= r <= 40000)%Z -> a <= / (3 * IZR r) -> accurate_angle a (p_atan2 p) ->
  forall order, (forall m, Permutation (order m) m) -> forall fuel c text d nodes,
  file_text (cf_map c) text -> text_document p text d -> block_document p r d -> run p order fuel c = Ok nodes ->
  forall n0 o k T, In n0 nodes -> InvarianceSpec.within (NCollision o k) n0 -> In T (shells32 (NCollision o k)) -> wraps_boxes p r d T.
Proof. exact brick_shapes. Qed.
Print Assumptions C132_shapes.

(** ... and so does every mesh, all its surfaces together, unless textures used are blacklisted. *)
Theorem C132_meshes : forall p r a, (1 <= r <= 40000)%Z -> a <= / (3 * IZR r) -> accurate_angle a (p_atan2 p) ->
  forall order, (forall m, Permutation (order m) m) -> forall fuel c text d nodes,
  file_text (cf_map c) text -> text_document p text d -> block_document p r d -> run p order fuel c = Ok nodes ->
  (forall e lines ln pl, In e d -> In lines (doc_brushes e) -> In ln lines -> reads_as p ln pl -> ~ In (bp_texture pl) (bl_plane (cf_blacklist c))) ->
  forall n0 o v T, In n0 nodes -> InvarianceSpec.within (NVisual o v) n0 -> In T (shells32 (NVisual o v)) -> wraps_boxes p r d T.
Proof. exact brick_meshes. Qed.
Print Assumptions C132_meshes.

(** A map with three crates, one of them water, has such shapes and meshes. *)
Example C132_example : exists nodes, file_text (cf_map moat_config) moat_text /\ text_document squared moat_text moat_doc /\ block_document squared 1 moat_doc
  /\ accurate_angle (/ 3) (p_atan2 squared) /\ / 3 <= / (3 * IZR 1) /\ run squared given 4 moat_config = Ok nodes
  /\ (forall e lines ln pl, In e moat_doc -> In lines (doc_brushes e) -> In ln lines -> reads_as squared ln pl -> ~ In (bp_texture pl) (bl_plane (cf_blacklist moat_config)))
  /\ (exists n0 o k T, In n0 nodes /\ InvarianceSpec.within (NCollision o k) n0 /\ In T (shells32 (NCollision o k)))
  /\ exists n0 o v T, In n0 nodes /\ InvarianceSpec.within (NVisual o v) n0 /\ In T (shells32 (NVisual o v)).
Proof. exact moat_wrapped. Qed.
