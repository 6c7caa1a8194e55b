(** Vertices of the meshes of whole runs against the sides written in the map file (C102). *)
From Coq Require Import Reals Permutation.
From Verif Require Import Prelude F32 Text MapModel GeoModel LayerModel GameDataModel SceneModel RunModel
  MapSpec Utf8Spec RunSpec InvarianceSpec RealSpec ErrorSpec PointsSpec UvSpec MeshSpec RunWitness MeshFinal MeshWitness GeoWitness.
Local Open Scope R_scope.

(** C102: every vertex of a mesh in the tree of a run is a corner of one side written in the map file, drawn with the
    surface's texture; at the same index there are a normal (of length one, the side's unless the entity is smoothed), a
    tangent, the side's colour if it has one, and texture coordinates near those the side's line asks for at that place.
    [m] bounds the distance of the surface's vertices from the origin. *)
Theorem C102_vertices : forall p order, (forall m, Permutation (order m) m) -> forall fuel c text d nodes,
  file_text (cf_map c) text -> text_document p text d -> grid_document p d -> run p order fuel c = Ok nodes ->
  forall n0 o ss s m, In n0 nodes -> InvarianceSpec.within (NVisual o (VisMesh ss)) n0 -> In s ss ->
  (forall v, In v (s_vertices s) -> norm (point_of v) <= m) ->
  length (s_normals s) = length (s_vertices s) /\ length (s_tangents s) = length (s_vertices s) /\
  forall i v, nth_error (s_vertices s) i = Some v ->
  exists e planes pl n t, side_of p d e planes pl /\ drawn_as (cf_textures c) pl (s_texture s)
    /\ finite_point v /\ near_solid m (map plane_of planes) (point_of v) /\ near_side_corner m (plane_of pl) (map plane_of planes) (point_of v)
    /\ nth_error (s_normals s) i = Some n /\ near_normal e (plane_of pl) n
    /\ nth_error (s_tangents s) i = Some t /\ (forall ua uo va vo, bp_uv pl = UVValve ua uo va vo -> fst t = ua)
    /\ (forall cs, s_colors s = Some cs -> exists numbers color, bp_extra pl = ExDaikatana numbers color /\ nth_error cs i = Some color)
    /\ forall size, hget (cf_textures c) (bp_texture pl) = Some size ->
         exists uvs uv, s_uvs s = Some uvs /\ nth_error uvs i = Some uv /\ near_uv p m pl size (point_of v) uv.
Proof. exact MeshFinal.mesh_vertices. Qed.
Print Assumptions C102_vertices.

Example C102_example : exists text, file_text (cf_map castle_config) text /\ text_document (polar true) text (source_doc (polar true) castle)
  /\ grid_document (polar true) (source_doc (polar true) castle) /\ exists nodes n0 o s ss uvs, run (polar true) given 4 castle_config = Ok nodes
     /\ In n0 nodes /\ InvarianceSpec.within (NVisual o (VisMesh (s :: ss))) n0 /\ length (s_vertices s) = 24%nat /\ s_texture s = Some (lit "brick")
     /\ s_uvs s = Some uvs /\ nth_error (s_vertices s) 0 = Some (fv 16 24 32) /\ nth_error uvs 0 = Some (V2 (f32_div (fz 24) (fz 64)) (f32_div (fz (-32)) (fz 64))).
Proof. exact castle_mesh. Qed.
