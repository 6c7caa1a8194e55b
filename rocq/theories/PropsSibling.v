(** The order of entities (C112). *)
From Coq Require Import Permutation.
From Verif Require Import Prelude F32 Text MapModel GeoModel LayerModel GameDataModel SceneModel RunModel
  MapSpec Utf8Spec RunSpec InvarianceSpec SiblingSpec SiblingProofs Witness SceneWitness GeoWitness RunWitness SiblingWitness.

(** C112: the order in which entities are written decides the order of sibling nodes and nothing else. *)
Theorem C112_order : forall p order, (forall m, Permutation (order m) m) -> forall fuel c c' text text' d d' nodes, same_but_map c c' ->
  file_text (cf_map c) text -> file_text (cf_map c') text' -> text_document p text d -> text_document p text' d' ->
  reordered d d' -> run p order fuel c = Ok nodes ->
  exists world layers rest world' rest', nodes = world :: layers ++ rest /\ run p order fuel c' = Ok (world' :: layers ++ rest')
    /\ rearranged world world' /\ rearranged_all rest rest'.
Proof. exact run_moved. Qed.
Print Assumptions C112_order.

(** In particular not whether there is a tree, *)
Theorem C112_success : forall p order, (forall m, Permutation (order m) m) -> forall fuel c c' text text' d d', same_but_map c c' ->
  file_text (cf_map c) text -> file_text (cf_map c') text' -> text_document p text d -> text_document p text' d' -> reordered d d' ->
  (exists nodes, run p order fuel c = Ok nodes) <-> (exists nodes, run p order fuel c' = Ok nodes).
Proof. exact run_success_moved. Qed.
Print Assumptions C112_success.

(** and no node at any depth is lost. *)
Theorem C112_nodes : forall m m', rearranged m m' -> forall n, within n m -> exists n', within n' m' /\ rearranged n n'.
Proof. exact rearranged_within. Qed.
Print Assumptions C112_nodes.

Example C112_example : exists text text' d d' nodes, same_but_map castle_config moved_config
  /\ file_text (cf_map castle_config) text /\ file_text (cf_map moved_config) text'
  /\ text_document (polar true) text d /\ text_document (polar true) text' d' /\ reordered d d' /\ d <> d'
  /\ run (polar true) given 4 castle_config = Ok nodes.
Proof. exact moved_castle_reordered. Qed.
