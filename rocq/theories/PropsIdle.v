(** Planes that cut nothing off their brush (C115). *)
From Coq Require Import Permutation Reals.
From Verif Require Import Prelude F32 Text MapModel GeoModel LayerModel GameDataModel SceneModel RunModel
  MapSpec Utf8Spec RunSpec InvarianceSpec GeoSpec RealSpec ErrorSpec CornerSpec GrowSpec ReworkSpec IdleSpec
  ReworkProofs IdleProofs IdleFinal Witness SceneWitness GeoWitness RunWitness ErrorWitness TriangleWitness IdleWitness.

(** C115: in any arithmetic, the faces of a brush with idle planes are those of the brush without, and faces without corners. *)
Theorem C115_brush : forall T (O : num T) tx e b b', padded O b b' ->
  (forall g, build_brush O tx e b = Ok g -> exists g', build_brush O tx e b' = Ok g' /\ merged eq (empty_face (bg_faces g)) (bg_faces g) (bg_faces g'))
  /\ (forall g', build_brush O tx e b' = Ok g' -> exists g, build_brush O tx e b = Ok g /\ merged eq (empty_face (bg_faces g)) (bg_faces g) (bg_faces g')).
Proof. exact @brush_padded. Qed.
Print Assumptions C115_brush.

(** Runs: the same actors with the same surfaces, points and triangles, moved at most where an entity has no origin. *)
Theorem C115_run : forall p order, (forall m, Permutation (order m) m) -> forall fuel c c' text text' d d', same_but_map c c' ->
  file_text (cf_map c) text -> file_text (cf_map c') text' -> text_document p text d -> text_document p text' d' -> Forall2 (padded_entity p) d d' ->
  let same := reworked_run (Forall2 anchored d d') same_picture (same_shape (Forall2 anchored d d')) in
  (forall nodes, run p order fuel c = Ok nodes -> exists nodes', run p order fuel c' = Ok nodes' /\ same nodes nodes')
  /\ (forall nodes', run p order fuel c' = Ok nodes' -> exists nodes, run p order fuel c = Ok nodes /\ same nodes nodes').
Proof. exact run_paired. Qed.
Print Assumptions C115_run.

Example C115_example : exists text text' d d' nodes nodes' h, same_but_map (house_config house) (house_config roofed)
  /\ file_text (cf_map (house_config house)) text /\ file_text (cf_map (house_config roofed)) text'
  /\ text_document (polar true) text d /\ text_document (polar true) text' d' /\ Forall2 (padded_entity (polar true)) d d'
  /\ run (polar true) given 4 (house_config house) = Ok nodes /\ heights nodes = [fz 16]
  /\ run (polar true) given 4 (house_config roofed) = Ok nodes' /\ heights nodes' = [h] /\ f32_cmp h (fz 14) = Some Lt.
Proof. exact house_roofed. Qed.

(** A plane in front of all points within the tolerance of the brush is idle. *)
Theorem C115_beyond : forall parse cosine radians atan2 quat mat2 b q,
  (forall x, (forall r, In r b -> within (/ 1000) r x) -> inner (facing q) (minus x (bp_v0 q)) < 0)%R ->
  idle (real_num parse cosine radians atan2 quat mat2) b q.
Proof. exact real_idle. Qed.
Print Assumptions C115_beyond.

Example C115_front_example : forall x, (forall r, In r (map plane_of box6) -> within (/ 1000) r x) -> (inner (facing (plane_of sky)) (minus x (bp_v0 (plane_of sky))) < 0)%R.
Proof. exact sky_front. Qed.

(** In floats, one in front of the true solid is, if there are no close calls. *)
Theorem C115_beyond_f32 : forall p b q, (forall r, In r (q :: b) -> grid_plane r) -> (forall r, In r b -> clear b r) -> (forall r, In r (q :: b) -> clear (q :: b) r) ->
  (forall x, in_solid b x -> inner (facing (plane_of q)) (minus x (bp_v0 (plane_of q))) < 0)%R -> idle (f32_num p) b q.
Proof. exact float_idle. Qed.
Print Assumptions C115_beyond_f32.

Example C115_beyond_example : (forall r, In r (sky :: box6) -> grid_plane r) /\ (forall r, In r box6 -> clear box6 r) /\ (forall r, In r (sky :: box6) -> clear (sky :: box6) r)
  /\ forall x, in_solid box6 x -> (inner (facing (plane_of sky)) (minus x (bp_v0 (plane_of sky))) < 0)%R.
Proof. exact (conj box7_grid (conj box6_clear (conj sky_clear sky_beyond))). Qed.

(** Idle planes draw the centre of the brush to the origin of the map. *)
Theorem C115_centre : forall parse cosine radians atan2 quat mat2 tx e b b' g g', let O := real_num parse cosine radians atan2 quat mat2 in
  padded O b b' -> build_brush O tx e b = Ok g -> build_brush O tx e b' = Ok g' ->
  (INR (length b') * vx (bg_center g') = INR (length b) * vx (bg_center g))%R
  /\ (INR (length b') * vy (bg_center g') = INR (length b) * vy (bg_center g))%R
  /\ (INR (length b') * vz (bg_center g') = INR (length b) * vz (bg_center g))%R.
Proof. exact real_centres. Qed.
Print Assumptions C115_centre.

Example C115_centre_example : forall parse cosine radians atan2 quat mat2 e, let O := real_num parse cosine radians atan2 quat mat2 in
  padded O (map plane_of box6) (map plane_of box7) /\ exists g g', build_brush O textures e (map plane_of box6) = Ok g /\ build_brush O textures e (map plane_of box7) = Ok g'.
Proof. exact exact_padded. Qed.
