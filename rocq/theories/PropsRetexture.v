(** The names of textures are only names (C142). *)
From Coq Require Import Permutation.
From Verif Require Import Prelude F32 Text MapModel GeoModel LayerModel GameDataModel SceneModel RunModel
  MapSpec Utf8Spec RunSpec RetextureSpec ReworkProofs RetextureProofs Witness SceneWitness GeoWitness RunWitness RetextureWitness.

(** C142: renaming the textures of a map, of the table of sizes and of the blacklist by a function that keeps them apart and the names of
    the two layers as they are renames the textures of the surfaces and changes nothing else. *)
Theorem C142_run : forall p order, (forall m, Permutation (order m) m) -> forall fuel f c c' text text' d d',
  file_text (cf_map c) text -> file_text (cf_map c') text' -> text_document p text d -> text_document p text' d' ->
  Forall2 (renamed_entity p f) d d' -> carries f (texture_name p d) c c' ->
  (forall nodes, run p order fuel c = Ok nodes -> exists nodes', run p order fuel c' = Ok nodes' /\ renamed_run f nodes nodes')
  /\ (forall nodes', run p order fuel c' = Ok nodes' -> exists nodes, run p order fuel c = Ok nodes /\ renamed_run f nodes nodes').
Proof. exact run_renamed. Qed.
Print Assumptions C142_run.

(** A house with a glass roof that is not drawn, and one with walls of glass that are. *)
Example C142_example : exists c c' text text' d d' nodes nodes', file_text (cf_map c) text /\ file_text (cf_map c') text' /\ text_document (polar true) text d /\ text_document (polar true) text' d'
  /\ Forall2 (renamed_entity (polar true) swap) d d' /\ carries swap (texture_name (polar true) d) c c'
  /\ run (polar true) given 4 c = Ok nodes /\ drawn_textures nodes = [Some (lit "brick")] /\ run (polar true) given 4 c' = Ok nodes' /\ drawn_textures nodes' = [Some (lit "glass")].
Proof. exact pavilion_swapped. Qed.
