(** Two map files joined into one (C147). *)
From Coq Require Import Permutation.
From Verif Require Import Prelude F32 Text MapModel GeoModel LayerModel GameDataModel SceneModel RunModel
  MapSpec Utf8Spec RunSpec InvarianceSpec GrowSpec JoinSpec JoinProofs Witness SceneWitness GeoWitness RunWitness GrowWitness JoinWitness.

(** C147: joining two complete map files joins their lists of entities ... *)
Theorem C147_document : forall p f f1 f2 t1 t2 d1 d2, joined f f1 f2 -> file_text f1 t1 -> file_text f2 t2 -> ~ ends_with_cr t1 -> text_document p t1 d1 -> text_document p t2 d2 ->
  exists t, file_text f t /\ text_document p t (d1 ++ d2).
Proof. exact joined_document. Qed.
Print Assumptions C147_document.

(** ... a file without a world, before or after, only adds nodes ... *)
Theorem C147_run : forall p order, (forall m, Permutation (order m) m) -> forall fuel c c' extra text text2 d d2 nodes', same_but_map c c' ->
  joined (cf_map c') (cf_map c) extra /\ ~ ends_with_cr text \/ joined (cf_map c') extra (cf_map c) /\ ~ ends_with_cr text2 ->
  file_text (cf_map c) text -> file_text extra text2 -> text_document p text d -> text_document p text2 d2 -> ~ has_world d2 -> run p order fuel c' = Ok nodes' ->
  exists world layers rest world' rest', nodes' = world' :: layers ++ rest' /\ run p order fuel c = Ok (world :: layers ++ rest)
    /\ grown (fun e => In e d2) world world'
    /\ merged (grown (fun e => In e d2)) (fun n => exists e, In e d2 /\ doc_value e (lit "_tb_group") = None /\ stands_for e n) rest rest'.
Proof. exact run_joined. Qed.
Print Assumptions C147_run.

(** ... and of two worlds nothing is built. *)
Theorem C147_worlds : forall p order fuel c f1 f2 t1 t2 d1 d2 nodes, joined (cf_map c) f1 f2 -> file_text f1 t1 -> file_text f2 t2 -> ~ ends_with_cr t1 ->
  text_document p t1 d1 -> text_document p t2 d2 -> has_world d1 -> has_world d2 -> run p order fuel c <> Ok nodes.
Proof. exact worlds_clash. Qed.
Print Assumptions C147_worlds.

Example C147_example : exists text text2 d d2 nodes nodes', same_but_map bare_config fitted_config /\ joined (cf_map fitted_config) (cf_map bare_config) fittings_file /\ ~ ends_with_cr text
  /\ file_text (cf_map bare_config) text /\ file_text fittings_file text2 /\ text_document (polar true) text d /\ text_document (polar true) text2 d2 /\ ~ has_world d2
  /\ run (polar true) given 4 bare_config = Ok nodes /\ below nodes = [(lit "worldspawn", 2); (lit "door", 0)]
  /\ run (polar true) given 4 fitted_config = Ok nodes' /\ below nodes' = [(lit "worldspawn", 2); (lit "door", 1); (lit "lamp", 0)].
Proof. exact castle_joined. Qed.

Example C147_worlds_example : exists text d, joined (cf_map twice_config) (cf_map bare_config) (cf_map bare_config) /\ file_text (cf_map bare_config) text /\ ~ ends_with_cr text
  /\ text_document (polar true) text d /\ has_world d.
Proof. exact castle_twice. Qed.
