(** C118: exactly which maps are built. *)
From Coq Require Import Permutation.
From Verif Require Import Prelude F32 Text MapModel GeoModel LayerModel GameDataModel SceneModel RunModel SceneWitness MapSpec Utf8Spec RunSpec TreeSpec PropertySpec ActorSpec ValidSpec
  GeoWitness RunWitness ValidProofs ValidWitness.

(** A run ends well exactly if the map file is the text of a document that can be built, up to closing braces missing at the end. *)
Theorem C118_success : forall p order, (forall m, Permutation (order m) m) -> forall c,
  (exists nodes n, forall fuel, n <= fuel -> run p order fuel c = Ok nodes)
  <-> exists text d, file_text (cf_map c) text /\ open_document p text d /\ buildable p (cf_forge c) d.
Proof. exact run_buildable. Qed.
Print Assumptions C118_success.
Example C118_success_example : file_text (cf_map (plain_config short_text)) short_text /\ open_document (polar true) short_text short_doc
  /\ buildable (polar true) no_fd short_doc /\ ~ (exists d, text_document (polar true) short_text d).
Proof. exact short. Qed.

(** If an entity of the tree is in its own group, the run never ends. *)
Theorem C118_endless : forall p order, (forall m, Permutation (order m) m) -> forall c text d,
  file_text (cf_map c) text -> open_document p text d -> sound_planes p d -> usable_document (cf_forge c) d -> circular d ->
  forall fuel, run p order fuel c = OutOfFuel.
Proof. exact run_endless. Qed.
Print Assumptions C118_endless.
Example C118_endless_example : file_text (cf_map (plain_config loop_text)) loop_text /\ open_document (polar true) loop_text loop_doc
  /\ sound_planes (polar true) loop_doc /\ usable_document no_fd loop_doc /\ circular loop_doc.
Proof. exact loops. Qed.

(** No other run goes on for ever. *)
Theorem C118_circular : forall p order, (forall m, Permutation (order m) m) -> forall c, (forall fuel, run p order fuel c = OutOfFuel) ->
  exists text d, file_text (cf_map c) text /\ open_document p text d /\ sound_planes p d /\ circular d.
Proof. exact endless_circular. Qed.
Print Assumptions C118_circular.
Example C118_circular_example : forall fuel, run (polar true) (fun m => m) fuel (plain_config loop_text) = OutOfFuel.
Proof.
  destruct loops as (F & O & S & U & C). apply (C118_endless (polar true) (fun m => m) (fun m => Permutation_refl m) (plain_config loop_text) loop_text loop_doc F O S U C).
Qed.

(** A map that is read but neither built nor circular panics. *)
Theorem C118_panics : forall p order, (forall m, Permutation (order m) m) -> forall c text,
  file_text (cf_map c) text -> ~ map_rejected p text ->
  (forall d, open_document p text d -> ~ buildable p (cf_forge c) d /\ ~ circular d) ->
  exists w n, forall fuel, n <= fuel -> run p order fuel c = Panic w.
Proof. exact run_panics. Qed.
Print Assumptions C118_panics.
Example C118_panics_example : file_text (cf_map (plain_config [])) [] /\ ~ map_rejected (polar true) []
  /\ forall d, open_document (polar true) [] d -> ~ buildable (polar true) no_fd d /\ ~ circular d.
Proof. exact void. Qed.
