(** The order of brushes in an entity decides the order of triangles only (C117). *)
From Coq Require Import Reals Permutation SpecFloat.
From Verif Require Import Prelude F32 Text MapModel GeoModel LayerModel GameDataModel SceneModel RunModel
  GatherSpec MapSpec Utf8Spec RunSpec InvarianceSpec RealSpec PointsSpec ErrorSpec ReworkSpec IdleSpec ShuffleSpec ReworkProofs RealProofs ShuffleProofs ShuffleFinal
  Witness SceneWitness GeoWitness RunWitness ErrorWitness TriangleWitness IdleWitness ShuffleWitness.

(** C117: files with the brushes of entities in other orders give the same actors with the same triangles and collision shapes. *)
Theorem C117_run : forall p order, (forall m, Permutation (order m) m) -> forall fuel c c' text text' d d',
  same_but_map c c' -> file_text (cf_map c) text -> file_text (cf_map c') text' -> text_document p text d -> text_document p text' d' -> Forall2 reshuffled d d' ->
  let same := reworked_run (Forall2 anchored d d') shuffled_visual (shuffled_shape (Forall2 anchored d d')) in
  (forall nodes, run p order fuel c = Ok nodes -> exists nodes', run p order fuel c' = Ok nodes' /\ same nodes nodes')
  /\ (forall nodes', run p order fuel c' = Ok nodes' -> exists nodes, run p order fuel c = Ok nodes /\ same nodes nodes').
Proof. exact run_reshuffled. Qed.
Print Assumptions C117_run.

(** In exact arithmetic the centre of the entity stays where it is. *)
Theorem C117_centre : forall parse cosine radians atan2 quat mat2, let O := real_num parse cosine radians atan2 quat mat2 in
  forall tx props b b' g, Permutation b b' -> build_entity_geo O tx (Entity props b) = Ok g ->
  exists g', build_entity_geo O tx (Entity props b') = Ok g' /\ eg_center g = eg_center g' /\ Permutation (eg_brushes g) (eg_brushes g').
Proof. exact exact_centre. Qed.
Print Assumptions C117_centre.

(** With and without an origin; without one the actor is moved by a rounding error, so that positions need their hypothesis. *)
Theorem C117_position_refuted : forall o, let P := polar true in let m := piled o upwards in let m' := piled o downwards in let c := piled_config m in let c' := piled_config m' in
  exists text text' d d' nodes nodes', same_but_map c c' /\ file_text (cf_map c) text /\ file_text (cf_map c') text'
  /\ text_document P text d /\ text_document P text' d' /\ Forall2 reshuffled d d' /\ (o = true -> Forall2 anchored d d') /\ d <> d'
  /\ run P given 4 c = Ok nodes /\ run P given 4 c' = Ok nodes'
  /\ places nodes = [if o then S754_zero false else S754_finite false 11184811 (-2)] /\ places nodes' = [if o then S754_zero false else S754_finite false 11184812 (-2)].
Proof. exact piles. Qed.
Print Assumptions C117_position_refuted.

Example C117_centre_example : forall parse cosine radians atan2 quat mat2, let O := real_num parse cosine radians atan2 quat mat2 in
  let b := [map plane_of box6; map plane_of box7] in let b' := [map plane_of box7; map plane_of box6] in
  Permutation b b' /\ b <> b' /\ exists g, build_entity_geo O textures (Entity [] b) = Ok g.
Proof. exact exact_pile. Qed.
