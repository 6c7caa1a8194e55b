(** C153: in single precision, the triangles of integer boxes are exactly the surfaces of the boxes. *)
From Coq Require Import Reals Permutation ZArith.
From Verif Require Import Prelude F32 Text MapModel GeoModel LayerModel GameDataModel SceneModel RunModel MapSpec Utf8Spec RunSpec InvarianceSpec RealSpec WindSpec ErrorSpec PointsSpec BoxSpec WoundSpec ShellSpec BrickSpec CladSpec
  RunWitness GeoWitness KeptWitness WoundWitness TriangleWitness CoverWitness CladProofs BrickWitness CladWitness.
Local Open Scope R_scope.

(** C153: a point is on a triangle of a box, where the floats put it, exactly if it is on the surface of the box ... *)
Theorem C153_brush : forall p r a, (1 <= r <= 40000)%Z -> a <= / (3 * IZR r) -> accurate_angle a (p_atan2 p) ->
  forall tx e planes b lo hi, block p r (lo, hi) planes -> build_brush (f32_num p) tx e planes = Ok b ->
  forall x, (exists f, In f (bg_faces b) /\ covered (drawn_triangles (map point_of (map vt_pos (f_vertices f))) (f_indices f)) x) <-> on_box lo hi x.
Proof. exact box_clad. Qed.
Print Assumptions C153_brush.

(** ... the triangles of every concave collision shape of a run on a map of boxes are exactly the surfaces of some of the boxes of one entity ... *)
Theorem C153_shapes : forall p r a, (1 <= r <= 40000)%Z -> a <= / (3 * IZR r) -> accurate_angle a (p_atan2 p) ->
  forall order, (forall m, Permutation (order m) m) -> forall fuel c text d nodes,
  file_text (cf_map c) text -> text_document p text d -> block_document p r d -> run p order fuel c = Ok nodes ->
  forall n0 o k T, In n0 nodes -> InvarianceSpec.within (NCollision o k) n0 -> In T (shells32 (NCollision o k)) -> clads_boxes p r d T.
Proof. exact clad_shapes. Qed.
Print Assumptions C153_shapes.

(** ... and so are those of every mesh, unless textures used are blacklisted. *)
Theorem C153_meshes : forall p r a, (1 <= r <= 40000)%Z -> a <= / (3 * IZR r) -> accurate_angle a (p_atan2 p) ->
  forall order, (forall m, Permutation (order m) m) -> forall fuel c text d nodes,
  file_text (cf_map c) text -> text_document p text d -> block_document p r d -> run p order fuel c = Ok nodes ->
  (forall e lines ln pl, In e d -> In lines (doc_brushes e) -> In ln lines -> reads_as p ln pl -> ~ In (bp_texture pl) (bl_plane (cf_blacklist c))) ->
  forall n0 o v T, In n0 nodes -> InvarianceSpec.within (NVisual o v) n0 -> In T (shells32 (NVisual o v)) -> clads_boxes p r d T.
Proof. exact clad_meshes. Qed.
Print Assumptions C153_meshes.

(** A crate, and a map with three crates, one of them water. *)
Example C153_brush_example : forall simd tx e, let p := measured simd in exists g, block p 1 (V3 (-16) (-8) 0, V3 16 24 32)%Z (crate standard_uv)
  /\ (1 <= 1 <= 40000)%Z /\ / 1000000 <= / (3 * IZR 1) /\ accurate_angle (/ 1000000) (p_atan2 p) /\ build_brush (f32_num p) tx e (crate standard_uv) = Ok g
  /\ on_box (V3 (-16) (-8) 0)%Z (V3 16 24 32)%Z (V3 16 3 (/ 7)) /\ ~ on_box (V3 (-16) (-8) 0)%Z (V3 16 24 32)%Z (V3 15 3 (/ 7)).
Proof. exact crate_clad. Qed.
Example C153_example : exists nodes, file_text (cf_map moat_config) moat_text /\ text_document squared moat_text moat_doc /\ block_document squared 1 moat_doc
  /\ accurate_angle (/ 3) (p_atan2 squared) /\ / 3 <= / (3 * IZR 1) /\ run squared given 4 moat_config = Ok nodes
  /\ (forall e lines ln pl, In e moat_doc -> In lines (doc_brushes e) -> In ln lines -> reads_as squared ln pl -> ~ In (bp_texture pl) (bl_plane (cf_blacklist moat_config)))
  /\ (exists n0 o k T, In n0 nodes /\ InvarianceSpec.within (NCollision o k) n0 /\ In T (shells32 (NCollision o k)))
  /\ exists n0 o v T, In n0 nodes /\ InvarianceSpec.within (NVisual o v) n0 /\ In T (shells32 (NVisual o v)).
Proof. exact moat_wrapped. Qed.
