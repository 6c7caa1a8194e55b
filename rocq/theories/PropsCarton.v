(** C148: in single precision, the convex collision shapes of integer boxes are exactly the boxes. *)
From Coq Require Import Reals Permutation ZArith.
From Verif Require Import Prelude F32 Text MapModel GeoModel LayerModel GameDataModel SceneModel RunModel
  MapSpec Utf8Spec RunSpec LayerSpec TreeSpec InvarianceSpec RealSpec ErrorSpec PointsSpec KeptSpec FillSpec BoxSpec CartonSpec
  RunWitness GeoWitness KeptWitness TriangleWitness CoverWitness CartonProofs CartonWitness.
Local Open Scope R_scope.

(** C148: the convex shape of a box has eight points, exactly at the corners, and their hull is the box.  Nothing is assumed
    of the platform's functions: the shape does not depend on the order of the corners. *)
Theorem C148_brush : forall p tx e lo hi planes g o bs k i, box lo hi -> box_brush p lo hi planes -> build_brush (f32_num p) tx e planes = Ok g -> nth_error bs i = Some g ->
  collision_of (f32_num p) CConvex (EntityGeo o bs) = Ok k ->
  exists shapes shape, k = ColConvex shapes /\ nth_error shapes i = Some shape /\ packs lo hi (cx_points shape) /\ length (cx_points shape) = 8%nat.
Proof. exact convex_packed. Qed.
Print Assumptions C148_brush.

Example C148_brush_example : exists g k, box (V3 (-16) (-8) 0)%Z (V3 16 24 32)%Z /\ box_brush squared (V3 (-16) (-8) 0)%Z (V3 16 24 32)%Z stone
  /\ build_brush (f32_num squared) textures (world []) stone = Ok g /\ nth_error [g; g] 1 = Some g /\ collision_of (f32_num squared) CConvex (EntityGeo (bg_center g) [g; g]) = Ok k
  /\ in_box (V3 (-16) (-8) 0)%Z (V3 16 24 32)%Z (V3 3 5 7).
Proof. exact stone_packed. Qed.

(** In the tree of a run every box of a class with convex collision has its shape, *)
Theorem C148_filled : forall p order, (forall m, Permutation (order m) m) -> forall fuel c text d nodes,
  file_text (cf_map c) text -> text_document p text d -> run p order fuel c = Ok nodes ->
  forall e b planes bd lo hi, in_tree d e -> In b (doc_brushes e) -> Forall2 (reads_as p) b planes ->
  brush_class (cf_game c) e bd -> bd_collision bd = CConvex -> stays (cf_textures c) e planes -> box lo hi -> box_brush p lo hi planes ->
  exists n0 o shapes shape, In n0 nodes /\ InvarianceSpec.within (NCollision o (ColConvex shapes)) n0 /\ In shape shapes /\ packs lo hi (cx_points shape).
Proof. exact (fun p order _ => tree_packed p order). Qed.
Print Assumptions C148_filled.

(** and if all brushes of the map are boxes, all convex shapes, of entities and layers, are boxes of the map. *)
Theorem C148_shapes : forall p order, (forall m, Permutation (order m) m) -> forall fuel c text d nodes,
  file_text (cf_map c) text -> text_document p text d -> run p order fuel c = Ok nodes -> boxes_document p d ->
  forall n0 o shapes shape, In n0 nodes -> InvarianceSpec.within (NCollision o (ColConvex shapes)) n0 -> In shape shapes ->
  exists e planes lo hi, brush_of p d e planes /\ box lo hi /\ box_brush p lo hi planes /\ packs lo hi (cx_points shape).
Proof. exact shapes_packed. Qed.
Print Assumptions C148_shapes.

Example C148_example : exists e b nodes, file_text (cf_map moat_config) moat_text /\ text_document squared moat_text moat_doc /\ boxes_document squared moat_doc
  /\ run squared given 4 moat_config = Ok nodes
  /\ (exists n0 o shape shapes, In n0 nodes /\ InvarianceSpec.within (NCollision o (ColConvex (shape :: shapes))) n0)
  /\ in_tree moat_doc e /\ In b (doc_brushes e) /\ Forall2 (reads_as squared) b stone /\ brush_class (cf_game moat_config) e (BrushData VMesh CConvex)
  /\ stays (cf_textures moat_config) e stone /\ box (V3 (-16) (-8) 0)%Z (V3 16 24 32)%Z /\ box_brush squared (V3 (-16) (-8) 0)%Z (V3 16 24 32)%Z stone.
Proof. exact moat_packed. Qed.
