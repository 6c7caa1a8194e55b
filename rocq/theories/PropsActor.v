(** The tree of actors of a run (C111). *)
From Coq Require Import Permutation.
From Verif Require Import Prelude F32 Text MapModel GeoModel LayerModel GameDataModel SceneModel RunModel
  GameDataSpec MapSpec Utf8Spec TreeSpec PropertySpec RunSpec PlaceSpec ActorSpec ActorProofs
  Witness SceneWitness GeoWitness RunWitness PropertyWitness ActorWitness.

(** C111: the tree of a run is a tree of the written map: every actor has the name, type, properties and place its entity asks for,
    and below it are its geometry and the actors of the entities in its group, in the order of the file. *)
Theorem C111_tree : forall p order, (forall m, Permutation (order m) m) -> forall fuel c text d nodes,
  file_text (cf_map c) text -> text_document p text d -> run p order fuel c = Ok nodes ->
  map_tree p (cf_game c) (cf_forge c) (cf_textures c) d nodes.
Proof. exact run_tree. Qed.
Print Assumptions C111_tree.

(** That leaves no choice but for positions and shapes: all trees of a map have the same actors in the same order. *)
Theorem C111_unique : forall p gd fd tx d nodes nodes', map_tree p gd fd tx d nodes -> map_tree p gd fd tx d nodes' ->
  exists world layers rest world' layers' rest', nodes = world :: layers ++ rest /\ nodes' = world' :: layers' ++ rest'
    /\ Forall (layer_actor gd) layers /\ Forall (layer_actor gd) layers' /\ alike world world' /\ Forall2 alike rest rest'.
Proof. exact map_alike. Qed.
Print Assumptions C111_unique.

Example C111_example : let d := source_doc (polar true) porch in exists text world door o lamp ch, file_text (cf_map porch_config) text /\ text_document (polar true) text d
  /\ run (polar true) given 4 porch_config = Ok [world; door] /\ In (NActor o lamp ch) (children door) /\ In porch_lamp d
  /\ class_declaration lamp_fd porch_lamp lamp_class /\ a_name lamp = lit "lamp"
  /\ hget (a_properties lamp) (lit "power") = Some (PrInteger 7) /\ hget (a_properties lamp) (lit "range") = Some (PrFloat f2)
  /\ hget (a_properties lamp) (lit "bits") = Some (PrChoices 6) /\ hget (a_properties lamp) (lit "hue") = None
  /\ hget (a_properties lamp) (lit "_tb_group") = Some (PrInteger 7).
Proof. exact porch_built. Qed.
