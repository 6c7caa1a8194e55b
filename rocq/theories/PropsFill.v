(** Convex collision shapes in single precision against the solids they stand for (C108). *)
From Coq Require Import Reals Permutation ZArith.
From Verif Require Import Prelude F32 Text MapModel GeoModel LayerModel GameDataModel SceneModel RunModel
  MapSpec Utf8Spec RunSpec LayerSpec TreeSpec InvarianceSpec RealSpec WindSpec ErrorSpec PointsSpec SolidSpec KeptSpec CoverSpec FillSpec
  RunWitness GeoWitness KeptWitness TriangleWitness CoverWitness FillFinal FillWitness.
Local Open Scope R_scope.

(** C108: the convex shape of a brush without close calls is its solid up to rounding. *)
Theorem C108_brush : forall p tx e planes g b o bs k i, build_brush (f32_num p) tx e planes = Ok g -> (forall q, In q planes -> grid_plane q) ->
  (Z.of_nat (length planes) <= 4000)%Z -> plain_brush planes b -> nth_error bs i = Some g -> collision_of (f32_num p) CConvex (EntityGeo o bs) = Ok k ->
  exists shapes shape, k = ColConvex shapes /\ nth_error shapes i = Some shape /\ fills (allowance b) (cx_points shape) (solid (map plane_of planes)).
Proof. exact convex_filled. Qed.
Print Assumptions C108_brush.

Example C108_brush_example : exists g k, build_brush (f32_num (polar true)) textures (world []) box6 = Ok g /\ (forall q, In q box6 -> grid_plane q)
  /\ (Z.of_nat (length box6) <= 4000)%Z /\ plain_brush box6 haze /\ nth_error [g; g] 1 = Some g
  /\ collision_of (f32_num (polar true)) CConvex (EntityGeo (bg_center g) [g; g]) = Ok k /\ solid (map plane_of box6) (V3 3 5 7).
Proof. exact box_filled. Qed.

(** In the tree of a run every such brush of a class with convex collision is filled by a shape, *)
Theorem C108_filled : forall p order, (forall m, Permutation (order m) m) -> forall fuel c text d nodes,
  file_text (cf_map c) text -> text_document p text d -> grid_document p d -> run p order fuel c = Ok nodes ->
  forall e b planes bd h, in_tree d e -> In b (doc_brushes e) -> Forall2 (reads_as p) b planes ->
  brush_class (cf_game c) e bd -> bd_collision bd = CConvex -> stays (cf_textures c) e planes -> plain_brush planes h ->
  exists n0 o shapes shape, In n0 nodes /\ InvarianceSpec.within (NCollision o (ColConvex shapes)) n0 /\ In shape shapes
    /\ fills (allowance h) (cx_points shape) (solid (map plane_of planes)).
Proof. exact (fun p order _ => shapes_filled p order). Qed.
Print Assumptions C108_filled.

(** likewise in layers, *)
Theorem C108_layers : forall p order, (forall m, Permutation (order m) m) -> forall fuel c text d nodes,
  file_text (cf_map c) text -> text_document p text d -> grid_document p d -> run p order fuel c = Ok nodes ->
  forall e b planes lay h, In e d -> In b (doc_brushes e) -> Forall2 (reads_as p) b planes -> planes <> [] ->
  moved (cf_textures c) e planes (wl_texture lay) -> only_one (fun l => wl_texture l = wl_texture lay) (gd_layers (cf_game c)) lay ->
  wl_collision lay = CConvex -> plain_brush planes h ->
  exists n0 o shapes shape, In n0 nodes /\ InvarianceSpec.within (NCollision o (ColConvex shapes)) n0 /\ In shape shapes
    /\ fills (allowance h) (cx_points shape) (solid (map plane_of planes)).
Proof. exact shapes_layered. Qed.
Print Assumptions C108_layers.

(** and there are no other convex shapes. *)
Theorem C108_shapes : forall p order, (forall m, Permutation (order m) m) -> forall fuel c text d nodes,
  file_text (cf_map c) text -> text_document p text d -> grid_document p d -> run p order fuel c = Ok nodes ->
  forall n0 o shapes shape, In n0 nodes -> InvarianceSpec.within (NCollision o (ColConvex shapes)) n0 -> In shape shapes ->
  exists e planes, brush_of p d e planes /\ forall h, plain_brush planes h -> fills (allowance h) (cx_points shape) (solid (map plane_of planes)).
Proof. exact shapes_solid. Qed.
Print Assumptions C108_shapes.

(** A map with a box and a box of water. *)
Example C108_example : let d := source_doc (polar true) moat in exists e nodes,
  file_text (cf_map moat_config) moat_text /\ text_document (polar true) moat_text d /\ grid_document (polar true) d /\ run (polar true) given 4 moat_config = Ok nodes
  /\ in_tree d e /\ In e d /\ doc_brushes e = [map (plane_line (polar true)) box6; map (plane_line (polar true)) flood]
  /\ Forall2 (reads_as (polar true)) (map (plane_line (polar true)) box6) box6 /\ Forall2 (reads_as (polar true)) (map (plane_line (polar true)) flood) flood
  /\ brush_class (cf_game moat_config) e (BrushData VMesh CConvex) /\ stays (cf_textures moat_config) e box6 /\ plain_brush box6 haze
  /\ flood <> [] /\ moved (cf_textures moat_config) e flood (wl_texture moat_layer)
  /\ only_one (fun l => wl_texture l = wl_texture moat_layer) (gd_layers (cf_game moat_config)) moat_layer /\ wl_collision moat_layer = CConvex /\ plain_brush flood haze
  /\ allowance haze <= / 1000.
Proof. exact moat_filled. Qed.
