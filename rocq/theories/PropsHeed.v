(** Which keys of an entity a run looks at (C143). *)
From Verif Require Import Prelude F32 Text MapModel GeoModel LayerModel GameDataModel SceneModel RunModel
  TextSpec PropertySpec MapSpec Utf8Spec RunSpec InvarianceSpec ActorSpec HeedSpec HeedProofs Witness SceneWitness GeoWitness RunWitness PropertyWitness ActorWitness HeedWitness.

(** C143: entities with the same brushes and the same values of the heeded keys give the same run, whatever else they say. *)
Theorem C143_run : forall p order fuel c c' text text' d d', same_but_map c c' -> file_text (cf_map c) text -> file_text (cf_map c') text' ->
  text_document p text d -> text_document p text' d' -> (forall e l, In e d -> In l (doc_planes e) -> plane_readable p l) ->
  Forall2 (heard_alike (cf_forge c)) d d' -> run p order fuel c = run p order fuel c'.
Proof. exact run_heard. Qed.
Print Assumptions C143_run.

(** A lamp, a door and the world with values that differ. *)
Example C143_example : exists text text' d d' nodes, same_but_map porch_config chatty_config /\ file_text (cf_map porch_config) text /\ file_text (cf_map chatty_config) text'
  /\ text_document (polar true) text d /\ text_document (polar true) text' d' /\ (forall e l, In e d -> In l (doc_planes e) -> plane_readable (polar true) l)
  /\ Forall2 (heard_alike lamp_fd) d d' /\ ~ Forall2 doc_alike d d' /\ run (polar true) given 4 porch_config = Ok nodes.
Proof. exact porch_chatty. Qed.

(** Of the keys of a lamp without brushes that are heeded, each matters to some run. *)
Example C143_matter : forall k v,
  In (k, v) [(lit "classname", lit "door"); (lit "origin", lit "1 2 3"); (lit "_tb_id", lit "4"); (lit "_tb_group", lit "4"); (lit "_tb_type", lit "x"); (lit "power", lit "9")] ->
  run (polar true) given 4 (shout_config k v) <> run (polar true) given 4 (shout_config (lit "remark") v).
Proof. exact shouts_matter. Qed.
