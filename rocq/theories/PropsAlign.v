(** Texture alignment only touches texture coordinates and tangents (C116). *)
From Coq Require Import Permutation.
From Verif Require Import Prelude F32 Text MapModel GeoModel LayerModel GameDataModel SceneModel RunModel
  GatherSpec MapSpec Utf8Spec RunSpec InvarianceSpec PointsSpec ReworkSpec AlignSpec ReworkProofs AlignProofs
  Witness SceneWitness GeoWitness RunWitness ErrorWitness TriangleWitness IdleWitness AlignWitness.

(** C116: in any arithmetic, brushes with realigned sides and resized textures have the same centre and faces up to texture coordinates and tangents. *)
Theorem C116_brush : forall T (O : num T) tx tx' (e e' : entity T) b b', resized tx tx' -> (forall k, get_property e k = get_property e' k) -> Forall2 realigned b b' ->
  let same g g' := bg_center g = bg_center g' /\ Forall2 redrawn (bg_faces g) (bg_faces g') in
  (forall g, build_brush O tx e b = Ok g -> exists g', build_brush O tx' e' b' = Ok g' /\ same g g')
  /\ (forall g', build_brush O tx' e' b' = Ok g' -> exists g, build_brush O tx e b = Ok g /\ same g g').
Proof. exact @brush_realigned. Qed.
Print Assumptions C116_brush.

(** Runs: the same actors and collision shapes at the same places, and the same triangles in the same surfaces. *)
Theorem C116_run : forall p order, (forall m, Permutation (order m) m) -> forall fuel c c' text text' d d',
  cf_blacklist c = cf_blacklist c' -> cf_forge c = cf_forge c' -> cf_game c = cf_game c' -> resized (cf_textures c) (cf_textures c') ->
  file_text (cf_map c) text -> file_text (cf_map c') text' -> text_document p text d -> text_document p text' d' -> Forall2 (realigned_entity p) d d' ->
  let same := reworked_run True (same_mesh p) eq in
  (forall nodes, run p order fuel c = Ok nodes -> exists nodes', run p order fuel c' = Ok nodes' /\ same nodes nodes')
  /\ (forall nodes', run p order fuel c' = Ok nodes' -> exists nodes, run p order fuel c = Ok nodes /\ same nodes nodes').
Proof. exact run_realigned. Qed.
Print Assumptions C116_run.

Example C116_brush_example : resized textures large /\ Forall2 realigned box6 (map papered box6).
Proof. exact (conj large_resized (papered_realigned box6 box6_standard)). Qed.

(** The texture coordinates do change. *)
Example C116_example : exists text text' d d' nodes nodes' u u', cf_blacklist (house_config house) = cf_blacklist papered_config /\ cf_forge (house_config house) = cf_forge papered_config
  /\ cf_game (house_config house) = cf_game papered_config /\ resized (cf_textures (house_config house)) (cf_textures papered_config)
  /\ file_text (cf_map (house_config house)) text /\ file_text (cf_map papered_config) text'
  /\ text_document (polar true) text d /\ text_document (polar true) text' d' /\ Forall2 (realigned_entity (polar true)) d d'
  /\ run (polar true) given 4 (house_config house) = Ok nodes /\ first_uv nodes = Some u
  /\ run (polar true) given 4 papered_config = Ok nodes' /\ first_uv nodes' = Some u' /\ v2_eqb (f32_num (polar true)) u u' = false.
Proof. exact house_papered. Qed.

(** Normals of surfaces are not covered: a repeated side is drawn with the normals of another side, unless its texture is shifted. *)
Theorem C116_normals_refuted : let O := f32_num (polar true) in exists tx e b b' g g' t s s' k i i' n n', Forall2 realigned b b'
  /\ build_brush O tx e b = Ok g /\ build_brush O tx e b' = Ok g'
  /\ texture_surface O (EntityGeo (v3_zero O) [g]) blacklist_default t = Ok (Some s) /\ texture_surface O (EntityGeo (v3_zero O) [g']) blacklist_default t = Ok (Some s')
  /\ nth_error (s_indices s) k = Some i /\ nth_error (s_indices s') k = Some i' /\ nth_error (s_normals s) i = Some n /\ nth_error (s_normals s') i' = Some n' /\ ~ pos_eq O n n'.
Proof. exact normals_differ. Qed.
Print Assumptions C116_normals_refuted.
