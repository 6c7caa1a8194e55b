(** Triangles in single precision against the sides they stand for (C107). *)
From Coq Require Import Reals Permutation ZArith.
From Verif Require Import Prelude F32 Text MapModel GeoModel LayerModel GameDataModel SceneModel RunModel
  MapSpec Utf8Spec RunSpec LayerSpec TreeSpec InvarianceSpec RealSpec WindSpec ErrorSpec PointsSpec MeshSpec SolidSpec TriangleSpec KeptSpec CoverSpec
  RunWitness GeoWitness KeptWitness TriangleWitness CoverProofs CoverFinal CoverWitness.
Local Open Scope R_scope.

(** C107: the triangles of a good side are that side up to rounding. *)
Theorem C107_side : forall p tx e planes plane f b, build_face (f32_num p) tx e planes plane = Ok f -> (forall q, In q (plane :: planes) -> grid_plane q) ->
  (Z.of_nat (length planes) <= 4000)%Z -> good_side p planes plane b ->
  (forall x, side (map plane_of planes) (plane_of plane) x -> shown (allowance b) (map vt_pos (f_vertices f)) (f_indices f) x)
  /\ (forall k u v w, kth_triangle (map vt_pos (f_vertices f)) (f_indices f) k u v w -> stays_near (allowance b) (side (map plane_of planes) (plane_of plane)) u v w).
Proof. exact side_covered. Qed.
Print Assumptions C107_side.

(** The triangles of a brush are its surface up to rounding. *)
Theorem C107_brush : forall p tx e planes g b, build_brush (f32_num p) tx e planes = Ok g -> (forall q, In q planes -> grid_plane q) -> (Z.of_nat (length planes) <= 4000)%Z ->
  (forall pl, In pl planes -> good_side p planes pl b) ->
  (forall x, surface_of (map plane_of planes) x -> exists f, In f (bg_faces g) /\ shown (allowance b) (map vt_pos (f_vertices f)) (f_indices f) x)
  /\ (forall f k u v w, In f (bg_faces g) -> kth_triangle (map vt_pos (f_vertices f)) (f_indices f) k u v w -> stays_near (allowance b) (surface_of (map plane_of planes)) u v w).
Proof. exact surface_covered. Qed.
Print Assumptions C107_brush.

Example C107_brush_example : exists g f, build_brush (f32_num squared) textures (world []) box6 = Ok g /\ (forall q, In q box6 -> grid_plane q) /\ (Z.of_nat (length box6) <= 4000)%Z
  /\ (forall pl, In pl box6 -> good_side squared box6 pl haze) /\ build_face (f32_num squared) textures (world []) box6 lid = Ok f /\ surface_of (map plane_of box6) (V3 3 5 32).
Proof. exact box_surface. Qed.

(** Every good side of a brush that is drawn is shown by a surface with its texture. *)
Theorem C107_drawn : forall p order, (forall m, Permutation (order m) m) -> forall fuel c text d nodes,
  file_text (cf_map c) text -> text_document p text d -> grid_document p d -> run p order fuel c = Ok nodes ->
  forall e b planes pl bd h, in_tree d e -> In b (doc_brushes e) -> Forall2 (reads_as p) b planes -> In pl planes ->
  brush_class (cf_game c) e bd -> bd_visual bd = VMesh -> stays (cf_textures c) e planes -> visible (cf_textures c) (cf_blacklist c) planes pl -> good_side p planes pl h ->
  exists n0 n points ix, In n0 nodes /\ InvarianceSpec.within n n0 /\ In (points, ix, Some (side_texture (cf_textures c) pl)) (drawings n)
    /\ forall x, side (map plane_of planes) (plane_of pl) x -> shown (allowance h) points ix x.
Proof. exact sides_drawn. Qed.
Print Assumptions C107_drawn.

(** Likewise by the concave collision shapes, *)
Theorem C107_solid : forall p order, (forall m, Permutation (order m) m) -> forall fuel c text d nodes,
  file_text (cf_map c) text -> text_document p text d -> grid_document p d -> run p order fuel c = Ok nodes ->
  forall e b planes pl bd h, in_tree d e -> In b (doc_brushes e) -> Forall2 (reads_as p) b planes -> In pl planes ->
  brush_class (cf_game c) e bd -> bd_collision bd = CConcave -> stays (cf_textures c) e planes -> good_side p planes pl h ->
  exists n0 n points ix, In n0 nodes /\ InvarianceSpec.within n n0 /\ In (points, ix, None) (drawings n)
    /\ forall x, side (map plane_of planes) (plane_of pl) x -> shown (allowance h) points ix x.
Proof. exact sides_solid. Qed.
Print Assumptions C107_solid.

(** and in layers. *)
Theorem C107_layers : forall p order, (forall m, Permutation (order m) m) -> forall fuel c text d nodes,
  file_text (cf_map c) text -> text_document p text d -> grid_document p d -> run p order fuel c = Ok nodes ->
  forall e b planes pl lay h, In e d -> In b (doc_brushes e) -> Forall2 (reads_as p) b planes -> In pl planes ->
  moved (cf_textures c) e planes (wl_texture lay) -> only_one (fun l => wl_texture l = wl_texture lay) (gd_layers (cf_game c)) lay -> good_side p planes pl h ->
  (wl_visual lay = VMesh -> exists n0 n points ix, In n0 nodes /\ InvarianceSpec.within n n0 /\ In (points, ix, Some (Some (wl_texture lay))) (drawings n)
    /\ forall x, side (map plane_of planes) (plane_of pl) x -> shown (allowance h) points ix x)
  /\ (wl_collision lay = CConcave -> exists n0 n points ix, In n0 nodes /\ InvarianceSpec.within n n0 /\ In (points, ix, None) (drawings n)
    /\ forall x, side (map plane_of planes) (plane_of pl) x -> shown (allowance h) points ix x).
Proof. exact sides_layered. Qed.
Print Assumptions C107_layers.

(** No triangle of a run from a good side sticks out of it. *)
Theorem C107_near : forall p order, (forall m, Permutation (order m) m) -> forall fuel c text d nodes,
  file_text (cf_map c) text -> text_document p text d -> grid_document p d -> run p order fuel c = Ok nodes ->
  forall n0 n points ix t, In n0 nodes -> InvarianceSpec.within n n0 -> In (points, ix, t) (drawings n) ->
  exists count, length ix = (3 * count)%nat /\ forall k, (k < count)%nat ->
  exists v v' v'' e planes pl, kth_triangle points ix k v v' v'' /\ side_of p d e planes pl /\ (forall u, t = Some u -> drawn_as (cf_textures c) pl u)
    /\ forall h, good_side p planes pl h -> stays_near (allowance h) (side (map plane_of planes) (plane_of pl)) v v' v''.
Proof. exact triangles_near. Qed.
Print Assumptions C107_near.

(** A map with a box in a group and a box of water. *)
Example C107_example : exists e w b nodes, file_text (cf_map moat_config) moat_text /\ text_document squared moat_text moat_doc /\ grid_document squared moat_doc
  /\ run squared given 4 moat_config = Ok nodes
  /\ in_tree moat_doc e /\ In b (doc_brushes e) /\ Forall2 (reads_as squared) b box6 /\ brush_class (cf_game moat_config) e (BrushData VMesh CConcave) /\ stays (cf_textures moat_config) e box6
  /\ (forall pl, In pl box6 -> visible (cf_textures moat_config) (cf_blacklist moat_config) box6 pl /\ good_side squared box6 pl haze)
  /\ In w moat_doc /\ In (map (plane_line squared) flood) (doc_brushes w) /\ Forall2 (reads_as squared) (map (plane_line squared) flood) flood
  /\ moved (cf_textures moat_config) w flood (wl_texture moat_layer)
  /\ only_one (fun l => wl_texture l = wl_texture moat_layer) (gd_layers (cf_game moat_config)) moat_layer /\ (forall pl, In pl flood -> good_side squared flood pl haze)
  /\ allowance haze <= / 1000.
Proof. exact moat_covered. Qed.
