(** Points of whole runs against the solids of the map file (C97). *)
From Coq Require Import Reals Permutation.
From Verif Require Import Prelude F32 Text MapModel GeoModel LayerModel GameDataModel SceneModel RunModel
  MapSpec Utf8Spec RunSpec InvarianceSpec RealSpec ErrorSpec PointsSpec RunWitness PointsFinal PointsWitness GeoWitness.
Local Open Scope R_scope.

(** C97: every point of a mesh or collision shape in the tree of a run belongs to a brush written in the map file: it is finite,
    no farther in front of the plane of any of the brush's lines than 0.0010001 plus 2^-20 times distances from the origin,
    and near the point where the planes of three lines meet.  [m] bounds the distance of the shape's points from the origin. *)
Theorem C97_points : forall p order, (forall m, Permutation (order m) m) -> forall fuel c text d nodes,
  file_text (cf_map c) text -> text_document p text d -> grid_document p d -> run p order fuel c = Ok nodes ->
  forall n0 n l m, In n0 nodes -> InvarianceSpec.within n n0 -> In l (point_lists n) -> (forall v, In v l -> norm (point_of v) <= m) ->
  forall v, In v l -> finite_point v /\ exists e b planes, In e d /\ In b (doc_brushes e) /\ Forall2 (reads_as p) b planes
    /\ near_solid m (map plane_of planes) (point_of v) /\ near_corner m (map plane_of planes) (point_of v).
Proof. exact points_near. Qed.
Print Assumptions C97_points.

Example C97_example : exists text, file_text (cf_map castle_config) text /\ text_document (polar true) text (source_doc (polar true) castle)
  /\ grid_document (polar true) (source_doc (polar true) castle) /\ exists nodes m n l, run (polar true) given 4 castle_config = Ok nodes
     /\ In m nodes /\ InvarianceSpec.within n m /\ In l (point_lists n) /\ length l = 24%nat.
Proof. exact castle_points. Qed.
