(** Maps with further entities (C114). *)
From Coq Require Import Permutation.
From Verif Require Import Prelude F32 Text MapModel GeoModel LayerModel GameDataModel SceneModel RunModel
  MapSpec Utf8Spec RunSpec InvarianceSpec GrowSpec GrowProofs Witness SceneWitness GeoWitness RunWitness GrowWitness.

(** C114: further entities add nodes of their own and change no others: ungrouped ones at the top level, grouped ones below. *)
Theorem C114_grows : forall p order, (forall m, Permutation (order m) m) -> forall New fuel c c' text text' d d' nodes', same_but_map c c' ->
  file_text (cf_map c) text -> file_text (cf_map c') text' -> text_document p text d -> text_document p text' d' ->
  extended New d d' -> run p order fuel c' = Ok nodes' ->
  exists world layers rest world' rest', nodes' = world' :: layers ++ rest' /\ run p order fuel c = Ok (world :: layers ++ rest)
    /\ grown New world world' /\ merged (grown New) (fun n => exists e, New e /\ doc_value e (lit "_tb_group") = None /\ stands_for e n) rest rest'.
Proof. exact run_grown. Qed.
Print Assumptions C114_grows.

(** Ungrouped ones leave all other nodes as they are. *)
Theorem C114_ungrouped : forall p order, (forall m, Permutation (order m) m) -> forall New fuel c c' text text' d d' nodes', same_but_map c c' ->
  file_text (cf_map c) text -> file_text (cf_map c') text' -> text_document p text d -> text_document p text' d' ->
  extended New d d' -> (forall e, New e -> doc_value e (lit "_tb_group") = None) -> run p order fuel c' = Ok nodes' ->
  exists world layers rest rest', nodes' = world :: layers ++ rest' /\ run p order fuel c = Ok (world :: layers ++ rest)
    /\ merged eq (fun n => exists e, New e /\ stands_for e n) rest rest'.
Proof. exact run_ungrouped. Qed.
Print Assumptions C114_ungrouped.

Example C114_example : exists text text' d d' nodes nodes', same_but_map bare_config castle_config
  /\ file_text (cf_map bare_config) text /\ file_text (cf_map castle_config) text'
  /\ text_document (polar true) text d /\ text_document (polar true) text' d' /\ extended fitting d d'
  /\ run (polar true) given 4 bare_config = Ok nodes /\ below nodes = [(lit "worldspawn", 2); (lit "door", 0)]
  /\ run (polar true) given 4 castle_config = Ok nodes' /\ below nodes' = [(lit "worldspawn", 2); (lit "lamp", 0); (lit "door", 1)].
Proof. exact castle_grown. Qed.
