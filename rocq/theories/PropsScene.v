(** Scene tree properties: C25 to C29, C38 to C40. *)
From Coq Require Import Permutation.
From Verif Require Import Prelude F32 Text MapModel GeoModel LayerModel GameDataModel SceneModel
  GatherSpec SurfaceSpec TreeSpec GatherProofs SurfaceWitness TreeProofs NodeProofs SceneWitness.

(** C25: with distinct ids a recursion depth of the number of entities suffices, and deeper limits change nothing. *)
Theorem C25_terminates : forall p gd fd bl data layers fuel, distinct_ids data -> length data <= fuel ->
  build_scene (f32_num p) fuel gd fd bl data layers <> OutOfFuel.
Proof. exact (fun p gd fd bl data layers fuel D => build_scene_terminates (f32_num p) gd fd bl data D fuel layers). Qed.
Print Assumptions C25_terminates.

Theorem C25_stable : forall p gd fd bl data layers fuel, distinct_ids data -> length data <= fuel ->
  build_scene (f32_num p) fuel gd fd bl data layers = build_scene (f32_num p) (length data) gd fd bl data layers.
Proof.
  exact (fun p gd fd bl data layers fuel D L => build_scene_mono (f32_num p) gd fd bl data (length data) fuel layers L
    (build_scene_terminates (f32_num p) gd fd bl data D (length data) layers (le_n _))).
Qed.
Print Assumptions C25_stable.

(** Distinct ids with a cycle, a self reference and a group member. *)
Example C25_ex : let data := yard ++ [at_x 1 [(lit "classname", lit "a"); (lit "_tb_id", lit "1"); (lit "_tb_group", lit "2")];
     at_x 1 [(lit "classname", lit "b"); (lit "_tb_id", lit "2"); (lit "_tb_group", lit "1")];
     at_x 1 [(lit "classname", lit "c"); (lit "_tb_id", lit "3"); (lit "_tb_group", lit "3")]] in
  distinct_ids data /\ in_group data 5 6 /\ in_group data 6 5 /\ in_group data 7 7 /\ in_group data 2 1.
Proof.
  split.
  - intros i j x. unfold id_of, prop_of, yard. cbn [app].
    do 8 (destruct i as [|i]; [do 8 (destruct j as [|j]; [cbn; congruence|]); cbn; destruct j; discriminate|]).
    cbn. destruct i; discriminate.
  - split; [|split; [|split]]; (split; [cbn; lia|]).
    + exists (lit "1"). split; reflexivity.
    + exists (lit "2"). split; reflexivity.
    + exists (lit "3"). split; reflexivity.
    + exists (lit "7"). split; reflexivity.
Qed.

(** C26: without distinct ids no depth may suffice. *)
Theorem C26_diverges : forall p, exists gd fd bl data, length data = 3 /\ forall fuel,
  build_scene (f32_num p) fuel gd fd bl data [] = OutOfFuel.
Proof.
  exact (fun p => ex_intro _ (GameData [] []) (ex_intro _ (ForgeData [] [] []) (ex_intro _ (Blacklist [] [])
    (ex_intro _ loop_data (conj eq_refl (loop_diverges p)))))).
Qed.
Print Assumptions C26_diverges.

(** C27: the actors other than layers form the forest of the group links; every entity connected to a root
    occurs once, the others not at all. *)
Theorem C27_forest : forall p fuel gd fd bl data layers nodes, distinct_ids data ->
  build_scene (f32_num p) fuel gd fd bl data layers = Ok nodes ->
  exists ts world between others, nodes = world ++ between ++ others
    /\ map root_of ts = roots data /\ Forall (group_tree data) ts
    /\ Forall2 (shows data None) ts (world ++ others)
    /\ NoDup (flat_map flatten ts)
    /\ (forall i, In i (flat_map flatten ts) <-> reaches data i)
    /\ map Some (flat_map actor_names (world ++ others))
       = map (fun i => prop_of data i (lit "classname")) (flat_map flatten ts).
Proof. exact scene_forest. Qed.
Print Assumptions C27_forest.

Example C27_ex : forall p : platform, exists nodes, distinct_ids yard
  /\ build_scene (f32_num p) 5 yard_gd no_fd (Blacklist [] []) yard yard_layers = Ok nodes
  /\ flat_map actor_names nodes
     = [lit "worldspawn"; lit "Slime"; lit "Water"; lit "door"; lit "handle"; lit "hinge"; lit "lamp"].
Proof.
  intros p. destruct (shown _ _ (flat_map actor_names) (build_scene (f32_num p) 5 yard_gd no_fd (Blacklist [] []) yard yard_layers)
    [lit "worldspawn"; lit "Slime"; lit "Water"; lit "door"; lit "handle"; lit "hinge"; lit "lamp"]) as (nodes & E); [vm_compute; reflexivity|].
  exists nodes. split; [exact yard_distinct|exact E].
Qed.

(** C28 is false: an entity whose group is missing is lost. *)
Theorem C28_refuted : forall p, exists gd fd bl data layers e g c nodes, distinct_ids data
  /\ In (e, g) data /\ hget (e_props e) (lit "classname") = Some c
  /\ build_scene (f32_num p) (length data) gd fd bl data layers = Ok nodes
  /\ ~ In c (flat_map actor_names nodes).
Proof. exact lost_entity. Qed.
Print Assumptions C28_refuted.

(** It holds when group links from every entity lead to a root. *)
Theorem C28_partial : forall p fuel gd fd bl data layers nodes, distinct_ids data ->
  (forall i, i < length data -> reaches data i) ->
  build_scene (f32_num p) fuel gd fd bl data layers = Ok nodes ->
  exists ts world between others, nodes = world ++ between ++ others
    /\ Forall2 (shows data None) ts (world ++ others)
    /\ Permutation (flat_map flatten ts) (seq 0 (length data))
    /\ Permutation (map Some (flat_map actor_names (world ++ others)))
         (map (fun d => hget (e_props (fst d)) (lit "classname")) data).
Proof. exact scene_complete. Qed.
Print Assumptions C28_partial.

Example C28_ex : distinct_ids yard /\ forall i, i < length yard -> reaches yard i.
Proof. split; [exact yard_distinct|exact yard_reaches]. Qed.

(** C29 *)
Theorem C29_top_level : forall p fuel gd fd bl data layers nodes,
  build_scene (f32_num p) fuel gd fd bl data layers = Ok nodes ->
  exists ts ls world others, nodes = world ++ filter_map (fun o => o) ls ++ others
    /\ Forall2 (fun l o => build_layer (f32_num p) gd l = Ok o) layers ls
    /\ Forall2 (shows data None) ts (world ++ others) /\ map root_of ts = roots data
    /\ length world = Nat.min 1 (length data).
Proof. exact scene_top. Qed.
Print Assumptions C29_top_level.

Theorem C29_layer_order : forall p fuel gd fd bl data layers layers' nodes, Permutation layers layers' ->
  build_scene (f32_num p) fuel gd fd bl data layers = Ok nodes ->
  exists nodes' world l l' others, build_scene (f32_num p) fuel gd fd bl data layers' = Ok nodes'
    /\ nodes = world ++ l ++ others /\ nodes' = world ++ l' ++ others /\ Permutation l l'
    /\ length l <= length layers.
Proof. exact (fun p => scene_order f32 (f32_num p)). Qed.
Print Assumptions C29_layer_order.

Example C29_ex : forall p : platform, exists nodes,
  build_scene (f32_num p) 5 yard_gd no_fd (Blacklist [] []) yard (rev yard_layers) = Ok nodes
  /\ flat_map actor_names nodes
     = [lit "worldspawn"; lit "Water"; lit "Slime"; lit "door"; lit "handle"; lit "hinge"; lit "lamp"].
Proof. intros p. apply shown. vm_compute. reflexivity. Qed.

(** C38 *)
Theorem C38_definition : forall p gd fd bl data fuel origin e g n,
  build_entity (f32_num p) fuel gd fd bl data origin (e, g) = Ok n ->
  exists o a children, n = NActor o a children
    /\ hget (e_props e) (lit "classname") = Some (a_name a)
    /\ (forall d, defined_by gd e d -> a_type a = pd_type (point_part d)
          /\ a_component a = component_name (pd_component (point_part d))
          /\ a_application a = pd_application (point_part d))
    /\ (undefined gd e -> a_type a = EPlaceholder /\ a_component a = None /\ a_application a = AProperties).
Proof. exact (fun p => actor_definition (f32_num p)). Qed.
Print Assumptions C38_definition.

Theorem C38_geometry : forall p gd fd bl data fuel origin e g n,
  build_entity (f32_num p) fuel gd fd bl data origin (e, g) = Ok n ->
  exists o a geometry actors, n = NActor o a (geometry ++ actors) /\ Forall is_actor actors
    /\ (undefined gd e -> geometry = [])
    /\ (forall d, defined_by gd e d ->
          match ed_data d with
          | DPoint _ => geometry = []
          | DBrush _ bd => exists v k, brush_visual (f32_num p) e g bd bl = Ok v
              /\ collision_of (f32_num p) (bd_collision bd) g = Ok k
              /\ geometry_nodes_of (eg_center g) v k geometry
          end).
Proof. exact (fun p => actor_geometry (f32_num p)). Qed.
Print Assumptions C38_geometry.

Theorem C38_no_class : forall p gd fd bl data fuel origin e g, hget (e_props e) (lit "classname") = None ->
  exists w, build_entity (f32_num p) (S fuel) gd fd bl data origin (e, g) = Panic w.
Proof. exact (fun p => actor_no_class (f32_num p)). Qed.
Print Assumptions C38_no_class.

(** The first of two definitions of the door, a brush definition, and no definition. *)
Example C38_ex : forall p : platform, exists o a ch, defined_by yard_gd (fst (nth 2 yard (at_x 0 []))) door_def
  /\ build_entity (f32_num p) 2 yard_gd no_fd (Blacklist [] []) yard (V3 w0 w0 w0) (nth 2 yard (at_x 0 [])) = Ok (NActor o a ch)
  /\ a_type a = EClass (lit "Door3D") /\ a_component a = Some (lit "Door.gd") /\ a_application a = AMetadata /\ length ch = 2.
Proof.
  intros p. destruct (shown _ _ (fun n => match n with NActor _ a ch => (a_type a, a_component a, a_application a, length ch) | _ => (EPlaceholder, None, AMetadata, 0) end)
    (build_entity (f32_num p) 2 yard_gd no_fd (Blacklist [] []) yard (V3 w0 w0 w0) (nth 2 yard (at_x 0 [])))
    (EClass (lit "Door3D"), Some (lit "Door.gd"), AMetadata, 2)) as (n & E & N); [vm_compute; reflexivity|].
  destruct n as [o a ch| |]; try discriminate. injection N as N1 N2 N3 N4. exists o, a, ch. split.
  - exists (lit "door"). split; [reflexivity|]. exists [wall_def], [shadowed_def]. split; [reflexivity|]. split; [reflexivity|].
    intros y [<-|[]]. discriminate.
  - exact (conj E (conj N1 (conj N2 (conj N3 N4)))).
Qed.
Example C38_brush_ex : forall p : platform, exists o a ch, defined_by yard_gd (fst (nth 0 yard (at_x 0 []))) wall_def
  /\ build_entity (f32_num p) 2 yard_gd no_fd (Blacklist [] []) yard (V3 w0 w0 w0) (fst (nth 0 yard (at_x 0 [])), plain)
     = Ok (NActor o a ch)
  /\ a_type a = EClass (lit "Static") /\ length ch = 1.
Proof.
  intros p. do 3 eexists. split.
  - exists (lit "worldspawn"). split; [reflexivity|]. exists [], [door_def; shadowed_def]. split; [reflexivity|]. split; [reflexivity|].
    intros y [].
  - split; [vm_compute; reflexivity|]. repeat split.
Qed.
Example C38_none_ex : forall p : platform, exists o a ch, undefined yard_gd (fst (nth 3 yard (at_x 0 [])))
  /\ build_entity (f32_num p) 2 yard_gd no_fd (Blacklist [] []) yard (V3 w0 w0 w0) (nth 3 yard (at_x 0 [])) = Ok (NActor o a ch)
  /\ a_type a = EPlaceholder.
Proof.
  intros p. do 3 eexists. split; [|split; vm_compute; reflexivity].
  intros d c Hd Hc. vm_compute in Hc. injection Hc as <-. simpl in Hd. destruct Hd as [<-|[<-|[<-|[]]]]; discriminate.
Qed.

(** C39 *)
Theorem C39_node : forall p gd t bs n, build_layer (f32_num p) gd (t, bs) = Ok (Some n) ->
  exists l children, only_one (fun l => wl_texture l = t) (gd_layers gd) l
    /\ children <> [] /\ Forall geometry_node children
    /\ n = NActor (v3_zero (f32_num p))
             (Actor (wl_name l) (wl_type l) (component_name (wl_component l)) AProperties []) children.
Proof. exact (fun p => layer_node (f32_num p)). Qed.
Print Assumptions C39_node.

Theorem C39_geometry : forall p gd t bs n, build_layer (f32_num p) gd (t, bs) = Ok (Some n) ->
  exists l v k children, only_one (fun l => wl_texture l = t) (gd_layers gd) l
    /\ collision_of (f32_num p) (wl_collision l) (EntityGeo (v3_zero (f32_num p)) bs) = Ok k
    /\ match wl_visual l with
       | VNone => v = VisNone
       | VMesh => exists os, texture_surface (f32_num p) (EntityGeo (v3_zero (f32_num p)) bs) (Blacklist [] []) (Some t) = Ok os
                    /\ v = match os with Some s => VisMesh [s] | None => VisNone end
       end
    /\ geometry_nodes_of (v3_zero (f32_num p)) v k children
    /\ exists a, n = NActor (v3_zero (f32_num p)) a children.
Proof. exact (fun p => layer_geometry (f32_num p)). Qed.
Print Assumptions C39_geometry.

Theorem C39_present : forall p gd t bs, geometry_in_bounds (EntityGeo (v3_zero (f32_num p)) bs) ->
  exists r, build_layer (f32_num p) gd (t, bs) = Ok r
    /\ (r <> None <-> exists l, only_one (fun l => wl_texture l = t) (gd_layers gd) l /\ layer_draws l bs).
Proof. exact (fun p gd => layer_present (f32_num p) gd (f32_eq_laws p)). Qed.
Print Assumptions C39_present.

Example C39_ex : forall p : platform, exists n l,
  build_layer (f32_num p) yard_gd (lit "*water", eg_brushes plain) = Ok (Some n)
  /\ actor_names n = [lit "Water"] /\ only_one (fun l => wl_texture l = lit "*water") (gd_layers yard_gd) l
  /\ geometry_in_bounds (EntityGeo (v3_zero (f32_num p)) (eg_brushes plain)).
Proof.
  intros p. do 2 eexists. split; [vm_compute; reflexivity|]. split; [reflexivity|]. split; [|exact plain_in_bounds].
  exists []. eexists. split; [reflexivity|]. split; [reflexivity|]. split; [intros y []|].
  intros y [<-|[<-|[]]]; discriminate.
Qed.

(** C40 *)
Theorem C40_origins : forall p fuel gd fd bl data layers nodes,
  build_scene (f32_num p) fuel gd fd bl data layers = Ok nodes ->
  exists ts world between others, nodes = world ++ between ++ others
    /\ map root_of ts = roots data /\ Forall (group_tree data) ts
    /\ Forall2 (positioned data None) ts (world ++ others).
Proof. exact scene_positions. Qed.
Print Assumptions C40_origins.

(** The hinge, at 4, is at -6 from its door, at 10. *)
Example C40_ex : placed yard (Some 2) 4 (V3 (f32_neg (f32_of_N 6)) w0 w0).
Proof. do 2 eexists. split; [reflexivity|]. do 2 eexists. split; [reflexivity|]. repeat split; left; vm_compute; reflexivity. Qed.
