(** C154: lines through integer boxes, in single precision. *)
From Coq Require Import Reals Permutation ZArith.
From Verif Require Import Prelude F32 Text MapModel GeoModel LayerModel GameDataModel SceneModel RunModel MapSpec Utf8Spec RunSpec InvarianceSpec RealSpec WindSpec RaySpec ErrorSpec PointsSpec BoxSpec WoundSpec ShellSpec BrickSpec CartonSpec CladSpec TunnelSpec
  RunWitness GeoWitness KeptWitness WoundWitness TriangleWitness CoverWitness TunnelProofs BrickWitness TunnelWitness.
Local Open Scope R_scope.

(** C154: a line through the inside of a box meets the triangles computed for it at exactly two points and is in the box exactly between them. *)
Theorem C154_line : forall p r a, (1 <= r <= 40000)%Z -> a <= / (3 * IZR r) -> accurate_angle a (p_atan2 p) ->
  forall tx e planes b lo hi, block p r (lo, hi) planes -> build_brush (f32_num p) tx e planes = Ok b ->
  forall o w t, w <> V3 0 0 0 -> deep_in lo hi (onwards o w t) ->
  exists t1 t2, t1 < t < t2 /\ (forall u, on_faces b (onwards o w u) <-> u = t1 \/ u = t2) /\ forall u, in_box lo hi (onwards o w u) <-> t1 <= u <= t2.
Proof. exact line_box. Qed.
Print Assumptions C154_line.

(** So counting where such a ray passes the triangles tells inside from outside. *)
Theorem C154_even_odd : forall p r a, (1 <= r <= 40000)%Z -> a <= / (3 * IZR r) -> accurate_angle a (p_atan2 p) ->
  forall tx e planes b lo hi, block p r (lo, hi) planes -> build_brush (f32_num p) tx e planes = Ok b ->
  forall o w t, w <> V3 0 0 0 -> deep_in lo hi (onwards o w t) -> ~ on_faces b o ->
  (in_box lo hi o <-> passes32 b o w 1) /\ (~ in_box lo hi o <-> passes32 b o w 0 \/ passes32 b o w 2).
Proof. exact parity_box. Qed.
Print Assumptions C154_even_odd.

(** In a run on a map of boxes, the straight way out of a box meets a triangle of the concave shape that stands for the box. *)
Theorem C154_shapes : forall p r a, (1 <= r <= 40000)%Z -> a <= / (3 * IZR r) -> accurate_angle a (p_atan2 p) ->
  forall order, (forall m, Permutation (order m) m) -> forall fuel c text d nodes,
  file_text (cf_map c) text -> text_document p text d -> block_document p r d -> run p order fuel c = Ok nodes ->
  forall n0 o k T, In n0 nodes -> InvarianceSpec.within (NCollision o k) n0 -> In T (shells32 (NCollision o k)) -> holds_boxes p r d T.
Proof. exact held_shapes. Qed.
Print Assumptions C154_shapes.

(** A crate and a line through it, and a map with three crates. *)
Example C154_line_example : forall simd tx e, let p := measured simd in exists g, block p 1 (V3 (-16) (-8) 0, V3 16 24 32)%Z (crate standard_uv)
  /\ (1 <= 1 <= 40000)%Z /\ / 1000000 <= / (3 * IZR 1) /\ accurate_angle (/ 1000000) (p_atan2 p) /\ build_brush (f32_num p) tx e (crate standard_uv) = Ok g
  /\ V3 (-2) (-1) (/ 3) <> V3 0 0 0 /\ deep_in (V3 (-16) (-8) 0)%Z (V3 16 24 32)%Z (onwards (V3 40 20 0) (V3 (-2) (-1) (/ 3)) 20)
  /\ ~ on_faces g (V3 40 20 0) /\ ~ in_box (V3 (-16) (-8) 0)%Z (V3 16 24 32)%Z (V3 40 20 0).
Proof. exact crate_pierced. Qed.
Example C154_example : exists nodes, file_text (cf_map moat_config) moat_text /\ text_document squared moat_text moat_doc /\ block_document squared 1 moat_doc
  /\ accurate_angle (/ 3) (p_atan2 squared) /\ / 3 <= / (3 * IZR 1) /\ run squared given 4 moat_config = Ok nodes
  /\ (forall e lines ln pl, In e moat_doc -> In lines (doc_brushes e) -> In ln lines -> reads_as squared ln pl -> ~ In (bp_texture pl) (bl_plane (cf_blacklist moat_config)))
  /\ (exists n0 o k T, In n0 nodes /\ InvarianceSpec.within (NCollision o k) n0 /\ In T (shells32 (NCollision o k)))
  /\ exists n0 o v T, In n0 nodes /\ InvarianceSpec.within (NVisual o v) n0 /\ In T (shells32 (NVisual o v)).
Proof. exact moat_wrapped. Qed.
