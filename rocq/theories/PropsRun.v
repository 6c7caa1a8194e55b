(** Properties of whole runs (C58, C59, C67 to C70).
    Statements use the vocabulary of [RunSpec]. *)
From Coq Require Import Permutation SpecFloat.
From Verif Require Import Prelude F32 Text MapModel DiffModel GeoModel LayerModel GameDataModel SceneModel RunModel
  Witness GatherSpec GeoSpec LayerSpec SurfaceSpec TreeSpec GameDataSpec PropertySpec SceneWitness GeoWitness MapSpec Utf8Spec RunSpec
  TreeProofs FuelProofs OutcomeProofs RunProofs DocumentProofs PrintProofs RunWitness DiffSpec RunDiffProofs.

(** C58: errors come from the file or the parser only, whatever the iteration order of the layers ... *)
Theorem C58_errors : forall p order fuel c, (exists e, run p order fuel c = Err e) <->
  cf_map c = Unreadable
  \/ exists bs, cf_map c = Contents bs
     /\ ((forall text, ~ encodes bs text) \/ exists text, encodes bs text /\ map_rejected p text).
Proof. exact run_errors. Qed.
Print Assumptions C58_errors.

(** ... and otherwise, once there is enough stack, the outcome is a tree or a panic that more stack does not change, or no
    amount of stack is enough. *)
Theorem C58_outcomes : forall p order c,
  (exists e, forall fuel, run p order fuel c = Err e)
  \/ (exists nodes n, forall fuel, n <= fuel -> run p order fuel c = Ok nodes)
  \/ (exists w n, forall fuel, n <= fuel -> run p order fuel c = Panic w)
  \/ (forall fuel, run p order fuel c = OutOfFuel).
Proof. exact run_outcomes. Qed.
Print Assumptions C58_outcomes.

Example C58_example :
  map (fun f => outcome (run (polar true) given 10 (on_file f)))
    [ Contents (map_bytes (polar true) castle); Unreadable; Contents [255]%N; Contents (lit "}");
      Contents (map_bytes (polar true) gate); Contents (map_bytes (polar true) tangle) ] = [0; 1; 1; 1; 2; 3].
Proof. vm_compute. reflexivity. Qed.

(** C59 as stated is false: an id that is no integer panics when the class is declared. *)
Theorem C59_refuted : forall p order fuel, exists c m w others why, cf_map c = Contents (map_bytes p m) /\ printable p m
  /\ source_normals p m /\ doc_world (source_doc p m) others w /\ doc_classes (source_doc p m) /\ doc_distinct (source_doc p m)
  /\ run p order (S fuel) c = Panic why.
Proof. exact gate_panics. Qed.
Print Assumptions C59_refuted.

(** C59 for documents whose declared classes have integer ids and whose planes are readable and not degenerate: *)
Theorem C59_partial : forall p order, (forall m, Permutation (order m) m) ->
  forall c bs text d w others, cf_map c = Contents bs -> encodes bs text -> text_document p text d ->
  doc_world d others w -> doc_classes d -> doc_distinct d -> doc_integral (cf_forge c) d -> sound_planes p d ->
  exists world layers rest, (forall fuel, length d <= fuel -> run p order fuel c = Ok (world :: layers ++ rest))
    /\ actor_named world (Some (lit "worldspawn")) /\ Forall (layer_actor (cf_game c)) layers /\ length layers <= 2
    /\ Forall2 actor_named rest (ungrouped_classes others).
Proof. exact document_tree. Qed.
Print Assumptions C59_partial.

(** ... in particular for printed maps. *)
Theorem C59_printed_partial : forall p order, (forall m, Permutation (order m) m) ->
  forall c m w others, cf_map c = Contents (map_bytes p m) -> printable p m -> source_normals p m ->
  doc_world (source_doc p m) others w -> doc_classes (source_doc p m) -> doc_distinct (source_doc p m) ->
  doc_integral (cf_forge c) (source_doc p m) ->
  exists world layers rest, (forall fuel, length m <= fuel -> run p order fuel c = Ok (world :: layers ++ rest))
    /\ actor_named world (Some (lit "worldspawn")) /\ Forall (layer_actor (cf_game c)) layers /\ length layers <= 2
    /\ Forall2 actor_named rest (ungrouped_classes others).
Proof. exact printed_tree. Qed.
Print Assumptions C59_printed_partial.

Example C59_example : let p := polar true in
  cf_map castle_config = Contents (map_bytes p castle) /\ printable p castle /\ source_normals p castle
  /\ (exists others w, doc_world (source_doc p castle) others w /\ ungrouped_classes others = [Some (lit "lamp"); Some (lit "door")])
  /\ doc_classes (source_doc p castle) /\ doc_distinct (source_doc p castle) /\ doc_integral (cf_forge castle_config) (source_doc p castle).
Proof.
  exact (conj eq_refl (conj castle_printable (conj castle_normals (conj castle_world
    (conj castle_classes (conj castle_distinct castle_integral)))))).
Qed.
Example C59_example_run : exists world rest, run (polar true) given 4 castle_config = Ok (world :: rest)
  /\ map actor_names (world :: rest)
     = [[lit "worldspawn"]; [lit "lamp"]; [lit "door"; lit "handle"]].
Proof. do 2 eexists. split; vm_compute; reflexivity. Qed.

(** C67: if building does not finish with a stack as deep as the map has entities, it never does ... *)
Theorem C67_stuck : forall T (O : num T) gd fd bl data layers, build_scene O (length data) gd fd bl data layers = OutOfFuel ->
  forall fuel, build_scene O fuel gd fd bl data layers = OutOfFuel.
Proof. exact @scene_stuck. Qed.
Print Assumptions C67_stuck.

(** ... and that happens exactly if some entity of the tree is in its own group, directly or through others. *)
Theorem C67_cyclic : forall p gd fd bl data, (forall e g, In (e, g) data -> geometry_in_bounds g) ->
  forall layers, (forall t bs, In (t, bs) layers -> geometry_in_bounds (EntityGeo (v3_zero (f32_num p)) bs)) ->
  all_usable fd data ->
  (cyclic data -> forall fuel, build_scene (f32_num p) fuel gd fd bl data layers = OutOfFuel)
  /\ (~ cyclic data -> exists nodes, forall fuel, length data <= fuel -> build_scene (f32_num p) fuel gd fd bl data layers = Ok nodes).
Proof. exact scene_cyclic. Qed.
Print Assumptions C67_cyclic.

Example C67_example : (forall e g, In (e, g) loop_data -> geometry_in_bounds g) /\ all_usable no_fd loop_data /\ cyclic loop_data.
Proof. exact (conj loop_bounds (conj loop_usable loop_cyclic)). Qed.

(** C68: when it finishes, building succeeds exactly if every entity of the tree has a class, and integer ids if its
    class is declared; otherwise it panics. *)
Theorem C68_usable : forall p gd fd bl data, (forall e g, In (e, g) data -> geometry_in_bounds g) ->
  forall layers, (forall t bs, In (t, bs) layers -> geometry_in_bounds (EntityGeo (v3_zero (f32_num p)) bs)) ->
  forall fuel, build_scene (f32_num p) fuel gd fd bl data layers <> OutOfFuel ->
  ((exists nodes, build_scene (f32_num p) fuel gd fd bl data layers = Ok nodes) <-> all_usable fd data)
  /\ ((exists w, build_scene (f32_num p) fuel gd fd bl data layers = Panic w) <-> ~ all_usable fd data).
Proof. exact scene_outcome. Qed.
Print Assumptions C68_usable.

Example C68_example :
  let data := [ent [(lit "classname", lit "worldspawn")]; ent [(lit "light", lit "300")]] in
  ~ all_usable no_fd data /\ build_scene (f32_num demo) 2 yard_gd no_fd (Blacklist [] []) data [] <> OutOfFuel.
Proof. split; [exact nameless|vm_compute; discriminate]. Qed.

(** C69: a run succeeds exactly if the file is a map that loads, has exactly one worldspawn, finite normals where they are
    needed, usable entities and no cycle of groups. *)
Theorem C69_success : forall p order, (forall m, Permutation (order m) m) -> forall c,
  (exists nodes n, forall fuel, n <= fuel -> run p order fuel c = Ok nodes) <->
  exists bs text ps es arr, cf_map c = Contents bs /\ encodes bs text /\ load p text = Ok (ps, es)
    /\ finite_normals p es /\ world_first es arr /\ all_usable (cf_forge c) (bare arr) /\ ~ cyclic (bare arr).
Proof. exact run_success. Qed.
Print Assumptions C69_success.

Example C69_example : exists nodes, run (polar true) given 4 castle_config = Ok nodes.
Proof. eexists. vm_compute. reflexivity. Qed.

(** C70: comparing two files fails exactly if one of them is not readable UTF-8 ... *)
Theorem C70_errors : forall p a b, (exists e, run_diff p a b = Err e) <->
  (forall text, ~ file_text a text) \/ (forall text, ~ file_text b text).
Proof. exact diff_errors. Qed.
Print Assumptions C70_errors.

(** ... panics exactly if both are, and one of them is empty or has a bad line ... *)
Theorem C70_panics : forall p a b, (exists w, run_diff p a b = Panic w) <->
  exists s t, file_text a s /\ file_text b t /\ (s = [] \/ t = [] \/ has_bad_line p s \/ has_bad_line p t).
Proof. exact diff_panics. Qed.
Print Assumptions C70_panics.

(** ... and otherwise reports the tokens of the lines that are not among a longest common subsequence of those before the
    last lines ... *)
Theorem C70_result : forall p a b s t, file_text a s -> file_text b t ->
  ~ (s = [] \/ t = [] \/ has_bad_line p s \/ has_bad_line p t) ->
  exists x y d kept, text_tokens p s x /\ text_tokens p t y /\ run_diff p a b = Ok d
    /\ longest_common kept (removelast x) (removelast y)
    /\ selected (fun k => ~ In k kept) x (d_removed d) /\ selected (fun k => ~ In k kept) y (d_added d).
Proof. exact diff_result. Qed.
Print Assumptions C70_result.

(** ... among which are all those with no equal in the other file. *)
Theorem C70_mentions : forall p a b s t d x y, file_text a s -> file_text b t -> text_tokens p s x -> text_tokens p t y ->
  run_diff p a b = Ok d ->
  (forall k, In k x -> ~ In k y -> In k (d_removed d)) /\ (forall k, In k y -> ~ In k x -> In k (d_added d))
  /\ (forall k, In k (d_removed d) -> In k x) /\ (forall k, In k (d_added d) -> In k y).
Proof. exact diff_mentions. Qed.
Print Assumptions C70_mentions.

Definition file_a : file := Contents (lit "{" ++ [13; 10]%N ++ lit "// old" ++ [10%N] ++ lit "}" ++ [10%N]).
Definition file_b : file := Contents (lit "{" ++ [10%N] ++ lit "// new" ++ [10%N] ++ lit "}" ++ [10%N] ++ lit "// end").
Example C70_example :
  run_diff demo file_a file_b = Ok (Diff [TComment (lit "// new"); TClose; TComment (lit "// end")] [TComment (lit "// old"); TClose])
  /\ map outcome [run_diff demo Unreadable file_a; run_diff demo file_a (Contents [255%N]); run_diff demo file_a (Contents []);
      run_diff demo file_a (Contents (34%N :: lit "x")); run_diff demo file_b file_a] = [1; 1; 2; 2; 0].
Proof. vm_compute. split; reflexivity. Qed.
