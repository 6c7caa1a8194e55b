(** Brushes with a plane through fewer than three places (C137). *)
From Coq Require Import SpecFloat Permutation.
From Verif Require Import Prelude F32 Text MapModel GeoModel LayerModel GameDataModel SceneModel RunModel
  GatherSpec GeoSpec MapSpec Utf8Spec TreeSpec InvarianceSpec RunSpec PointsSpec PlaceSpec ActorSpec LostSpec LostProofs
  Witness SceneWitness GeoWitness RunWitness LostWitness.

(** C137: a plane two of whose points coincide, or one of whose points is not finite, is not left out of its brush (unlike C19 it does not
    stop the run if it has Valve texture coordinates): no coordinate of any corner of any face of the brush is a number then. *)
Theorem C137_brush : forall p tx e b bg pl, build_brush (f32_num p) tx e b = Ok bg -> In pl b -> unfit p pl ->
  lost (bg_center bg) /\ Forall lost_face (bg_faces bg).
Proof. exact brush_lost. Qed.
Print Assumptions C137_brush.

(** The face of such a plane has a corner for every pair of planes; every other face has at least those of the pairs with such a plane. *)
Theorem C137_corners : forall p tx e b bg pl, build_brush (f32_num p) tx e b = Ok bg -> In pl b -> unfit p pl ->
  Forall2 (fun q f => 2 * length b - 1 <= length (f_vertices f) /\ (unfit p q -> length (f_vertices f) = length b * length b)) b (bg_faces bg).
Proof. exact brush_corners. Qed.
Print Assumptions C137_corners.

(** An actor whose entity has such a plane and no "origin" is nowhere, with its geometry and the actors directly below it, whatever their origin. *)
Theorem C137_actor : forall p gd fd tx others up e n, entity_tree p gd fd tx others up e n -> marred p e -> nowhere n.
Proof. exact tree_nowhere. Qed.
Print Assumptions C137_actor.

(** One such line in the worldspawn suffices for that of the whole world. *)
Theorem C137_world : forall p order, (forall m, Permutation (order m) m) -> forall fuel c text d nodes w others,
  file_text (cf_map c) text -> text_document p text d -> run p order fuel c = Ok nodes -> doc_world d others w -> marred p w ->
  exists n rest, nodes = n :: rest /\ nowhere n.
Proof. exact world_nowhere. Qed.
Print Assumptions C137_world.

(** So it is not true that the points of the meshes and shapes of a successful run are finite. *)
Theorem C137_finite_refuted : exists p order fuel c nodes, (forall m, Permutation (order m) m) /\ run p order fuel c = Ok nodes
  /\ exists n0 n l x, In n0 nodes /\ InvarianceSpec.within n n0 /\ In l (point_lists n) /\ In x l /\ ~ finite_vec x.
Proof. exact ruin_not_finite. Qed.
Print Assumptions C137_finite_refuted.

Example C137_example : let d := source_doc (polar true) ruin in exists text o a ov v ok k ol lamp, file_text (cf_map ruin_config) text /\ text_document (polar true) text d
  /\ run (polar true) given 4 ruin_config = Ok [NActor o a [NVisual ov v; NCollision ok k; NActor ol lamp []]]
  /\ doc_world d [ruin_lamp] ruin_world /\ marred (polar true) ruin_world
  /\ a_name lamp = lit "lamp" /\ doc_value ruin_lamp (lit "origin") = Some (lit "1 2 3") /\ lost ol
  /\ (exists l x, In l (point_lists (NVisual ov v)) /\ In x l /\ lost x) /\ (exists l x, In l (point_lists (NCollision ok k)) /\ In x l /\ lost x).
Proof. exact ruin_run. Qed.
