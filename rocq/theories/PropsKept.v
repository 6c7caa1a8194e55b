(** True corners of the map file against the points of whole runs (C98, C99). *)
From Coq Require Import Reals Permutation.
From Verif Require Import Prelude F32 Text MapModel GeoModel LayerModel GameDataModel SceneModel RunModel
  MapSpec Utf8Spec RunSpec LayerSpec TreeSpec InvarianceSpec BoxSpec RealSpec ErrorSpec PointsSpec KeptSpec RunWitness KeptFinal KeptWitness ErrorProofs ErrorWitness GeoWitness.
Local Open Scope R_scope.

(** C98: no clear corner of a drawn brush is missing from the tree of a run.  Whenever three sides of a brush in the map file meet in a
    corner of its solid, none nearly parallel to another, and the brush is near enough to the origin, the surface with the side's texture
    has a vertex near that corner. *)
Theorem C98_drawn : forall p order, (forall m, Permutation (order m) m) -> forall fuel c text d nodes,
  file_text (cf_map c) text -> text_document p text d -> grid_document p d -> run p order fuel c = Ok nodes ->
  forall e b planes pl x g bd, in_tree d e -> In b (doc_brushes e) -> Forall2 (reads_as p) b planes -> In pl planes ->
  brush_class (cf_game c) e bd -> bd_visual bd = VMesh -> stays (cf_textures c) e planes -> visible (cf_textures c) (cf_blacklist c) planes pl ->
  clear_corner (map plane_of planes) (plane_of pl) x g ->
  exists n0 o ss s, In n0 nodes /\ InvarianceSpec.within (NVisual o (VisMesh ss)) n0 /\ In s ss /\ s_texture s = side_texture (cf_textures c) pl
    /\ has_near (s_vertices s) x g.
Proof. exact corners_drawn. Qed.
Print Assumptions C98_drawn.

Example C98_example : let d := source_doc (polar true) moat in exists e b nodes g, (exists h, In h d /\ doc_value h (lit "_tb_id") = doc_value e (lit "_tb_group")
     /\ doc_value e (lit "_tb_group") <> None)
  /\ file_text (cf_map moat_config) moat_text /\ text_document (polar true) moat_text d /\ grid_document (polar true) d /\ run (polar true) given 4 moat_config = Ok nodes
  /\ in_tree d e /\ In b (doc_brushes e) /\ Forall2 (reads_as (polar true)) b stone /\ In east stone
  /\ brush_class (cf_game moat_config) e (BrushData VMesh CConcave) /\ stays (cf_textures moat_config) e stone
  /\ visible (cf_textures moat_config) (cf_blacklist moat_config) stone east /\ clear_corner (map plane_of stone) (plane_of east) (reals tip) g /\ g <= 170.
Proof. exact moat_handle. Qed.

(** C99: nor is it missing from the collision shapes, or from the water and slime layers. *)
Theorem C99_solid : forall p order, (forall m, Permutation (order m) m) -> forall fuel c text d nodes,
  file_text (cf_map c) text -> text_document p text d -> grid_document p d -> run p order fuel c = Ok nodes ->
  forall e b planes pl x g bd, in_tree d e -> In b (doc_brushes e) -> Forall2 (reads_as p) b planes -> In pl planes ->
  brush_class (cf_game c) e bd -> bd_collision bd <> CNone -> stays (cf_textures c) e planes -> clear_corner (map plane_of planes) (plane_of pl) x g ->
  exists n0 o shape l, In n0 nodes /\ InvarianceSpec.within (NCollision o shape) n0 /\ In l (point_lists (NCollision o shape)) /\ has_near l x g.
Proof. exact corners_solid. Qed.
Print Assumptions C99_solid.

Theorem C99_layers : forall p order, (forall m, Permutation (order m) m) -> forall fuel c text d nodes,
  file_text (cf_map c) text -> text_document p text d -> grid_document p d -> run p order fuel c = Ok nodes ->
  forall e b planes pl x g lay, In e d -> In b (doc_brushes e) -> Forall2 (reads_as p) b planes -> In pl planes ->
  moved (cf_textures c) e planes (wl_texture lay) -> only_one (fun l => wl_texture l = wl_texture lay) (gd_layers (cf_game c)) lay ->
  clear_corner (map plane_of planes) (plane_of pl) x g ->
  (wl_visual lay = VMesh -> exists n0 o s, In n0 nodes /\ InvarianceSpec.within (NVisual o (VisMesh [s])) n0 /\ s_texture s = Some (wl_texture lay) /\ has_near (s_vertices s) x g)
  /\ (wl_collision lay <> CNone -> exists n0 o shape l, In n0 nodes /\ InvarianceSpec.within (NCollision o shape) n0 /\ In l (point_lists (NCollision o shape)) /\ has_near l x g).
Proof. exact corners_layered. Qed.
Print Assumptions C99_layers.

Example C99_example : let d := source_doc (polar true) moat in exists e nodes g,
  file_text (cf_map moat_config) moat_text /\ text_document (polar true) moat_text d /\ grid_document (polar true) d /\ run (polar true) given 4 moat_config = Ok nodes
  /\ in_tree d e /\ doc_brushes e = [map (plane_line (polar true)) stone; map (plane_line (polar true)) flood]
  /\ Forall2 (reads_as (polar true)) (map (plane_line (polar true)) stone) stone /\ Forall2 (reads_as (polar true)) (map (plane_line (polar true)) flood) flood
  /\ brush_class (cf_game moat_config) e (BrushData VMesh CConvex) /\ stays (cf_textures moat_config) e stone
  /\ moved (cf_textures moat_config) e flood (wl_texture moat_layer)
  /\ only_one (fun l => wl_texture l = wl_texture moat_layer) (gd_layers (cf_game moat_config)) moat_layer
  /\ In east stone /\ In (paint water east) flood
  /\ clear_corner (map plane_of stone) (plane_of east) (reals tip) g /\ clear_corner (map plane_of flood) (plane_of (paint water east)) (reals tip) g /\ g <= 170.
Proof. exact moat_world. Qed.
