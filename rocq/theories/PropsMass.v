(** C135: in single precision, the meshes and concave shapes of a map enclose the volume of its brushes, up to rounding. *)
From Coq Require Import Reals Permutation.
From Verif Require Import Prelude F32 Text MapModel GeoModel LayerModel GameDataModel SceneModel RunModel MapSpec Utf8Spec RunSpec InvarianceSpec RealSpec ErrorSpec PointsSpec WoundSpec CoverSpec ShellSpec BrickSpec BulkSpec MassSpec
  RunWitness KeptWitness TriangleWitness CoverWitness SeamWitness MassFinal MassWitness.
Local Open Scope R_scope.

(** C135: every concave collision shape of a run, of entities and layers, is the surface of brushes of one entity of the map: up to
    rounding its triangles leave no gap and enclose the volume of the brushes ... *)
Theorem C135_shapes : forall p h order, (forall m, Permutation (order m) m) -> forall fuel c text d nodes,
  file_text (cf_map c) text -> text_document p text d -> grid_document p d -> firm_document p h d -> run p order fuel c = Ok nodes ->
  forall n0 o k T, In n0 nodes -> InvarianceSpec.within (NCollision o k) n0 -> In T (shells32 (NCollision o k)) -> wraps_solids p h d T.
Proof. exact mass_shapes. Qed.
Print Assumptions C135_shapes.

(** ... and so is every mesh, all its surfaces together, unless textures used are blacklisted. *)
Theorem C135_meshes : forall p h order, (forall m, Permutation (order m) m) -> forall fuel c text d nodes,
  file_text (cf_map c) text -> text_document p text d -> grid_document p d -> firm_document p h d -> run p order fuel c = Ok nodes ->
  (forall e lines ln pl, In e d -> In lines (doc_brushes e) -> In ln lines -> reads_as p ln pl -> ~ In (bp_texture pl) (bl_plane (cf_blacklist c))) ->
  forall n0 o v T, In n0 nodes -> InvarianceSpec.within (NVisual o v) n0 -> In T (shells32 (NVisual o v)) -> wraps_solids p h d T.
Proof. exact mass_meshes. Qed.
Print Assumptions C135_meshes.

(** A map with three crates, one of them water, has a shape and a mesh of twelve triangles each. Their corners are at most 28 from the middle
    and the bound of rounding is at most a thousandth. *)
Example C135_example : exists nodes, file_text (cf_map moat_config) moat_text /\ text_document squared moat_text moat_doc /\ grid_document squared moat_doc /\ firm_document squared haze moat_doc
  /\ run squared given 4 moat_config = Ok nodes
  /\ (forall e lines ln pl, In e moat_doc -> In lines (doc_brushes e) -> In ln lines -> reads_as squared ln pl -> ~ In (bp_texture pl) (bl_plane (cf_blacklist moat_config)))
  /\ (forall e lines planes, In e moat_doc -> In lines (doc_brushes e) -> Forall2 (reads_as squared) lines planes -> farthest planes heart 28 /\ across planes 56) /\ allowance haze <= / 1000
  /\ (exists n0 o k T, In n0 nodes /\ InvarianceSpec.within (NCollision o k) n0 /\ In T (shells32 (NCollision o k)) /\ length T = 12%nat)
  /\ exists n0 o v T, In n0 nodes /\ InvarianceSpec.within (NVisual o v) n0 /\ In T (shells32 (NVisual o v)) /\ length T = 12%nat.
Proof. exact moat_massive. Qed.
