(** What a run depends on, and the meshes it delivers (C76 to C79).
    Statements use the vocabulary of [InvarianceSpec]. *)
From Coq Require Import Permutation.
From Verif Require Import Prelude F32 Text MapModel GeoModel LayerModel GameDataModel SceneModel RunModel
  Witness GatherSpec SurfaceSpec LayerSpec TreeSpec PropertySpec MapSpec Utf8Spec RunSpec InvarianceSpec
  GeoWitness RunWitness TokenProofs InvarianceProofs SoundProofs InvarianceWitness.

(** C76: comments, unrecognised lines and the style of line ends do not matter to a run. *)
Theorem C76_lines : forall p order fuel c c' text text' ls ls', same_but_map c c' ->
  file_text (cf_map c) text -> file_text (cf_map c') text' ->
  lines_spec (p_keep_bare_cr p) text ls -> lines_spec (p_keep_bare_cr p) text' ls' ->
  filter (fun l => negb (inert_line l)) ls = filter (fun l => negb (inert_line l)) ls' ->
  run p order fuel c = run p order fuel c'.
Proof. exact run_lines. Qed.
Print Assumptions C76_lines.

Example C76_example : exists text text' ls ls', same_but_map castle_config noted_config
  /\ file_text (cf_map castle_config) text /\ file_text (cf_map noted_config) text'
  /\ lines_spec (p_keep_bare_cr (polar true)) text ls /\ lines_spec (p_keep_bare_cr (polar true)) text' ls' /\ length ls = 22 /\ length ls' = 24
  /\ filter (fun l => negb (inert_line l)) ls = filter (fun l => negb (inert_line l)) ls'.
Proof. exact noted_lines. Qed.

(** C77: nor do textures, definitions and layers the map does not use. *)
Theorem C77_unused : forall p order, (forall m, Permutation (order m) m) -> forall fuel c c', cf_map c = cf_map c' ->
  (forall text ps es, file_text (cf_map c) text -> load p text = Ok (ps, es) -> agree_on es c c') ->
  run p order fuel c = run p order fuel c'.
Proof. exact run_agree. Qed.
Print Assumptions C77_unused.

Example C77_example : cf_map castle_config = cf_map larger_config
  /\ (forall text ps es, file_text (cf_map castle_config) text -> load (polar true) text = Ok (ps, es) -> agree_on es castle_config larger_config)
  /\ length (cf_textures castle_config) < length (cf_textures larger_config)
  /\ length (gd_entities (cf_game castle_config)) < length (gd_entities (cf_game larger_config))
  /\ bl_brush (cf_blacklist larger_config) = [lit "unused"].
Proof. exact larger_agrees. Qed.

(** C78: nor does the order of lines within an entity, as long as its brushes and the value of every key stay the same. *)
Theorem C78_layout : forall p order, (forall m, Permutation (order m) m) -> forall fuel c c' text text' d d', same_but_map c c' ->
  file_text (cf_map c) text -> file_text (cf_map c') text' -> text_document p text d -> text_document p text' d' ->
  (forall e l, In e d -> In l (doc_planes e) -> plane_readable p l) -> Forall2 doc_alike d d' ->
  run p order fuel c = run p order fuel c'.
Proof. exact run_docs. Qed.
Print Assumptions C78_layout.

Example C78_example : exists text text' d d', same_but_map castle_config shuffled_config
  /\ file_text (cf_map castle_config) text /\ file_text (cf_map shuffled_config) text'
  /\ text_document (polar true) text d /\ text_document (polar true) text' d'
  /\ (forall e l, In e d -> In l (doc_planes e) -> plane_readable (polar true) l) /\ Forall2 doc_alike d d' /\ d <> d'.
Proof. exact shuffled_alike. Qed.

(** C79: every mesh and collision shape of a run's tree is well formed. *)
Theorem C79_sound : forall p order, (forall m, Permutation (order m) m) -> forall fuel c nodes, run p order fuel c = Ok nodes ->
  forall m n, In m nodes -> within n m -> sound_node p n.
Proof. exact run_sound. Qed.
Print Assumptions C79_sound.

Example C79_example : exists o a ov v oc k nodes, run (polar true) given 4 castle_config
    = Ok (NActor o a [NVisual ov v; NCollision oc k] :: nodes).
Proof. do 7 eexists. vm_compute. reflexivity. Qed.
