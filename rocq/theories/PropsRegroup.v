(** The numbers of groups are only names (C141). *)
From Verif Require Import Prelude F32 Text MapModel GeoModel LayerModel GameDataModel SceneModel RunModel
  TextSpec PropertySpec MapSpec Utf8Spec RunSpec InvarianceSpec RegroupSpec ReworkProofs RegroupProofs Witness SceneWitness GeoWitness RunWitness RegroupWitness.

(** C141: if the same entities are in the groups of the same entities, the values of [_tb_id] and [_tb_group] only show in the properties of these names. *)
Theorem C141_links : forall p order fuel c c' text text' d d', same_but_map c c' -> file_text (cf_map c) text -> file_text (cf_map c') text' ->
  text_document p text d -> text_document p text' d' -> regrouped d d' ->
  (forall nodes, run p order fuel c = Ok nodes -> exists nodes', run p order fuel c' = Ok nodes' /\ Forall2 relabelled nodes nodes')
  /\ (forall nodes', run p order fuel c' = Ok nodes' -> exists nodes, run p order fuel c = Ok nodes /\ Forall2 relabelled nodes nodes').
Proof. exact run_regrouped. Qed.
Print Assumptions C141_links.

(** So it is for an injective change of names that keeps integers integers. *)
Theorem C141_renamed : forall f d d', Forall2 (renamed f) d d' ->
  (forall s t, group_name d s -> group_name d t -> f s = f t -> s = t) ->
  (forall s, group_name d s -> ((exists z, integer_text s z) <-> (exists z, integer_text (f s) z))) -> regrouped d d'.
Proof. exact renamed_regrouped. Qed.
Print Assumptions C141_renamed.

(** A lamp on a door, with another number for the door. *)
Example C141_example : exists c c' text text' d d' nodes nodes', same_but_map c c' /\ file_text (cf_map c) text /\ file_text (cf_map c') text'
  /\ text_document (polar true) text d /\ text_document (polar true) text' d' /\ Forall2 (renamed to_twelve) d d'
  /\ (forall s t, group_name d s -> group_name d t -> to_twelve s = to_twelve t -> s = t)
  /\ (forall s, group_name d s -> ((exists z, integer_text s z) <-> (exists z, integer_text (to_twelve s) z)))
  /\ run (polar true) given 4 c = Ok nodes /\ lamp_group nodes = Some (Some (PrInteger 7))
  /\ run (polar true) given 4 c' = Ok nodes' /\ lamp_group nodes' = Some (Some (PrInteger 12)).
Proof. exact porch_regrouped. Qed.

(** The names are texts: [7] and [+7] are the same property value but not the same group. *)
Theorem C141_numbers_refuted : exists c c' text text' d d' nodes nodes', same_but_map c c' /\ file_text (cf_map c) text /\ file_text (cf_map c') text'
  /\ text_document (polar true) text d /\ text_document (polar true) text' d' /\ Forall2 renumbered d d'
  /\ Forall2 (fun e e' => forall k s, internal_integer k -> doc_value e k = Some s -> exists s' z, doc_value e' k = Some s' /\ integer_text s z /\ integer_text s' z) d d'
  /\ run (polar true) given 4 c = Ok nodes /\ run (polar true) given 4 c' = Ok nodes' /\ ~ Forall2 relabelled nodes nodes'.
Proof. exact porch_signed. Qed.
Print Assumptions C141_numbers_refuted.
