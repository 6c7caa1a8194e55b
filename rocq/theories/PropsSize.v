(** C126: how large the result is. *)
From Coq Require Import Permutation.
From Verif Require Import Prelude F32 Text MapModel GeoModel GameDataModel SceneModel RunModel MapSpec RunSpec SizeSpec
  SizeProofs SizeFinal GeoWitness RunWitness ActorWitness SizeWitness.

(** A face of a brush of n sides has at most n * n corners, and three indices per corner after the second. *)
Theorem C126_face : forall p tx e planes plane f, build_face (f32_num p) tx e planes plane = Ok f ->
  length (f_vertices f) <= length planes * length planes /\ length (f_indices f) = 3 * (length (f_vertices f) - 2).
Proof. intros p. exact (face_size (f32_num p)). Qed.
Print Assumptions C126_face.

(** That many corners do occur, in a brush whose planes have no extent. *)
Example C126_face_example : exists g f, build_brush (f32_num (polar true)) [] (Entity [] []) specks = Ok g /\ In f (bg_faces g) /\ length specks = 5
  /\ length (f_vertices f) = 25 /\ length (f_indices f) = 69.
Proof. exact specks_built. Qed.

(** If no two entities have the same id, the tree has at most three nodes per entity and layer, and holds at most
    eight corners and indices per cubed number of sides of a brush. *)
Theorem C126_bound : forall p order, (forall m, Permutation (order m) m) -> forall fuel c text d nodes,
  file_text (cf_map c) text -> text_document p text d -> run p order fuel c = Ok nodes -> NoDup (ids d) ->
  totals any_node nodes <= 3 * (length d + 2) /\ totals node_size nodes <= 8 * cubed d.
Proof. exact run_bounds. Qed.
Print Assumptions C126_bound.

Example C126_bound_example : let d := source_doc (polar true) porch in exists text nodes, file_text (cf_map porch_config) text
  /\ text_document (polar true) text d /\ run (polar true) given 4 porch_config = Ok nodes /\ NoDup (ids d) /\ ids d = [lit "7"]
  /\ length d = 3 /\ cubed d = 216 /\ totals any_node nodes = 5 /\ totals node_size nodes = 68.
Proof. exact porch_sized. Qed.

(** Otherwise it may be exponentially large: 2n+1 entities without brushes can give 2^n actors or more, whatever the other files but the FGD say. *)
Theorem C126_exponential : forall p order, (forall m, Permutation (order m) m) -> forall gd tx bl n,
  exists c text d fuel nodes, cf_game c = gd /\ cf_textures c = tx /\ cf_blacklist c = bl /\ file_text (cf_map c) text
    /\ text_document p text d /\ length d = 2 * n + 1 /\ cubed d = 0 /\ run p order fuel c = Ok nodes /\ 2 ^ n <= totals actor_node nodes.
Proof. exact tower_large. Qed.
Print Assumptions C126_exponential.
