(** Triangles of whole runs against the sides written in the map file (C106). *)
From Coq Require Import Reals Permutation.
From Verif Require Import Prelude F32 Text MapModel GeoModel LayerModel GameDataModel SceneModel RunModel
  MapSpec Utf8Spec RunSpec InvarianceSpec RealSpec WindSpec ErrorSpec PointsSpec MeshSpec TriangleSpec RunWitness GeoWitness TriangleFinal TriangleWitness.
Local Open Scope R_scope.

(** C106: the indices of the surfaces and concave collision shapes of a run come in threes, and each three of them is a
    triangle of corners of one side written in the map file, drawn with the surface's texture and seen clockwise from
    outside if the side is well shaped. [m] bounds the distance of the points from the origin. *)
Theorem C106_triangles : forall p order, (forall m, Permutation (order m) m) -> forall fuel c text d nodes,
  file_text (cf_map c) text -> text_document p text d -> grid_document p d -> run p order fuel c = Ok nodes ->
  forall n0 n points ix t, In n0 nodes -> InvarianceSpec.within n n0 -> In (points, ix, t) (drawings n) ->
  exists count, length ix = (3 * count)%nat /\ forall k, (k < count)%nat ->
  exists v v' v'' e planes pl, kth_triangle points ix k v v' v'' /\ finite_point v /\ finite_point v' /\ finite_point v''
    /\ side_of p d e planes pl /\ (forall u, t = Some u -> drawn_as (cf_textures c) pl u)
    /\ (forall m w, (forall q, In q points -> norm (point_of q) <= m) -> In w [v; v'; v''] ->
         near_solid m (map plane_of planes) (point_of w) /\ near_side_corner m (plane_of pl) (map plane_of planes) (point_of w))
    /\ (well_shaped p planes pl -> clockwise (facing (plane_of pl)) (point_of v) (point_of v') (point_of v'')).
Proof. exact TriangleFinal.triangles. Qed.
Print Assumptions C106_triangles.

(** The top of a box in a map of four entities. *)
Example C106_example : exists text, file_text (cf_map castle_config) text /\ text_document squared text castle_doc /\ grid_document squared castle_doc
  /\ (exists e, side_of squared castle_doc e box6 lid) /\ well_shaped squared box6 lid
  /\ exists nodes n0 n points ix, run squared given 4 castle_config = Ok nodes /\ In n0 nodes /\ InvarianceSpec.within n n0
     /\ In (points, ix, Some (Some (lit "brick"))) (drawings n) /\ length ix = 36%nat /\ kth_triangle points ix 8 (fv (-16) (-8) 32) (fv (-16) 24 32) (fv 16 24 32).
Proof. exact castle_triangles. Qed.
