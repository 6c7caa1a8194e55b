(** The names of classes are only names (C146). *)
From Verif Require Import Prelude F32 Text MapModel GeoModel LayerModel GameDataModel SceneModel RunModel
  TextSpec PropertySpec MapSpec Utf8Spec RunSpec ReclassSpec ReclassProofs Witness SceneWitness GeoWitness RunWitness PropertyWitness ActorWitness ReclassWitness.

(** C146: if classes get other names in the map, the game data and the declarations alike, different names stay different and the world keeps its name, the same tree is
    built, with the new names for the actors of entities. *)
Theorem C146_run : forall p order fuel c c' r text text' d d', file_text (cf_map c) text -> file_text (cf_map c') text' ->
  text_document p text d -> text_document p text' d' -> renaming c d r -> discreet c -> reclassed_config r c c' -> Forall2 (reclassed r) d d' ->
  (forall nodes, run p order fuel c = Ok nodes -> exists nodes', run p order fuel c' = Ok nodes' /\ recalled_tree r nodes nodes')
  /\ (forall nodes', run p order fuel c' = Ok nodes' -> exists nodes, run p order fuel c = Ok nodes /\ recalled_tree r nodes nodes').
Proof. exact run_reclassed. Qed.
Print Assumptions C146_run.

(** Lamps called doors and doors called lamps. *)
Example C146_example : exists text text' d d' nodes nodes', file_text (cf_map porch_config) text /\ file_text (cf_map swapped_config) text'
  /\ text_document (polar true) text d /\ text_document (polar true) text' d' /\ renaming porch_config d exchange /\ discreet porch_config /\ reclassed_config exchange porch_config swapped_config
  /\ Forall2 (reclassed exchange) d d' /\ run (polar true) given 4 porch_config = Ok nodes /\ actor_names nodes = Some (lit "worldspawn", lit "door", lit "lamp")
  /\ run (polar true) given 4 swapped_config = Ok nodes' /\ actor_names nodes' = Some (lit "worldspawn", lit "lamp", lit "door").
Proof. exact porch_swapped. Qed.

(** A class that declares its own name as a property shows it: the condition is needed. *)
Example C146_told : exists text text' d d' nodes nodes', file_text (cf_map telling_config) text /\ file_text (cf_map told_config) text'
  /\ text_document (polar true) text d /\ text_document (polar true) text' d' /\ renaming telling_config d exchange /\ reclassed_config exchange telling_config told_config
  /\ Forall2 (reclassed exchange) d d' /\ run (polar true) given 4 telling_config = Ok nodes /\ lamp_told nodes = Some (Some (PrString (lit "lamp")))
  /\ run (polar true) given 4 told_config = Ok nodes' /\ lamp_told nodes' = Some (Some (PrString (lit "door"))).
Proof. exact porch_told. Qed.
