(** Where the actors of a run stand (C109). *)
From Coq Require Import Reals Permutation ZArith.
From Verif Require Import Prelude F32 Text MapModel GeoModel LayerModel GameDataModel SceneModel RunModel
  MapSpec Utf8Spec RunSpec RealSpec WindSpec ErrorSpec PointsSpec PlaceSpec Witness SceneWitness RunWitness GeoWitness PointsWitness PlaceFinal PlaceWitness NumberSpec.
Local Open Scope R_scope.

(** C109: an actor of the tree of a run is that of a layer, at the origin, or those down to it are those of written entities, each in
    the group of the next; the sum of their origins is its entity's centre up to 2^-24 of the way between their centres. *)
Theorem C109_actors : forall p order, (forall m, Permutation (order m) m) -> forall fuel c text d nodes,
  file_text (cf_map c) text -> text_document p text d -> run p order fuel c = Ok nodes ->
  forall path x, stands nodes path x ->
  (exists n, path = [n] /\ layer_actor (cf_game c) n /\ x = V3 0 0 0)
  \/ exists es cs, lineage d es /\ family p (cf_textures c) es cs path x.
Proof. exact actors_stand. Qed.
Print Assumptions C109_actors.

(** Every written entity that is connected to a top one has such an actor. *)
Theorem C109_entities : forall p order, (forall m, Permutation (order m) m) -> forall fuel c text d nodes,
  file_text (cf_map c) text -> text_document p text d -> run p order fuel c = Ok nodes ->
  forall es, lineage d es -> exists path x cs, stands nodes path x /\ family p (cf_textures c) es cs path x.
Proof. exact (fun p order _ => entities_stand p order). Qed.
Print Assumptions C109_entities.

(** The centre is the "origin" if there is one, *)
Theorem C109_origin : forall p tx e c c', centre_of p tx e c -> origin_at p e c' -> c = c'.
Proof. exact origin_centre. Qed.
Print Assumptions C109_origin.

(** otherwise it is not far out if planes go through whole points. *)
Theorem C109_mean : forall p d tx e c, grid_document p d -> In e d -> doc_value e (lit "origin") = None -> (Z.of_nat (length (doc_brushes e)) < 2 ^ 24)%Z ->
  centre_of p tx e c -> tame c.
Proof. exact mean_tame. Qed.
Print Assumptions C109_mean.

(** With whole origins all the way down there is no rounding. *)
Theorem C109_exact : forall p order, (forall m, Permutation (order m) m) -> forall fuel c text d nodes,
  file_text (cf_map c) text -> text_document p text d -> run p order fuel c = Ok nodes ->
  forall e es o cs, lineage d (e :: es) -> Forall2 (origin_at p) (e :: es) (o :: cs) -> Forall whole_point (o :: cs) ->
  exists n path, stands nodes (n :: path) (point_of o) /\ actor_for e o n.
Proof. exact origins_exact. Qed.
Print Assumptions C109_exact.

(** In general there is. *)
Theorem C109_rounding : forall p, exists a b, tame a /\ tame b
  /\ shift (point_of a) (point_of (v3_add (f32_num p) (v3_neg (f32_num p) a) b)) <> point_of b.
Proof. exact (fun p => ex_intro _ _ (ex_intro _ _ (far_child p))). Qed.
Print Assumptions C109_rounding.

Example C109_example : let d := source_doc (polar true) hall in exists text nodes, file_text (cf_map hall_config) text /\ text_document (polar true) text d
  /\ run (polar true) given 4 hall_config = Ok nodes /\ lineage d [item 0; item 1; item 3]
  /\ Forall2 (origin_at (polar true)) [item 0; item 1; item 3] [knob_at; handle_at; door_at] /\ Forall whole_point [knob_at; handle_at; door_at]
  /\ exists path x, stands nodes path x /\ length path = 3%nat.
Proof. exact hall_placed. Qed.

Example C109_mean_example : let d := source_doc (polar true) castle in grid_document (polar true) d
  /\ exists e, In e d /\ doc_value e (lit "origin") = None /\ length (doc_brushes e) = 1%nat.
Proof. split; [exact castle_grid|]. eexists. split; [right; left; reflexivity|]. split; reflexivity. Qed.
