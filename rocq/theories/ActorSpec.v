(** The tree of actors a map stands for (C111). *)
From Verif Require Import Prelude F32 Text MapModel GeoModel GameDataModel SceneModel MapSpec DiffSpec TreeSpec PropertySpec RunSpec PointsSpec PlaceSpec.

(** ** One actor *)
Section Actor.
  Context (p : platform) (gd : game_data f32) (fd : forge_data f32) (tx : texture_info).

  (** The first definition of the class of a written entity, in the game data and in the FGD. *)
  Definition class_definition (e : doc_entity) (df : entity_def f32) : Prop :=
    exists c, doc_class e = Some c /\ first_with (fun x => ed_classname x = c) (gd_entities gd) df.
  Definition no_definition (e : doc_entity) : Prop := forall df, In df (gd_entities gd) -> doc_class e <> Some (ed_classname df).
  Definition class_declaration (e : doc_entity) (fe : forge_entity f32) : Prop :=
    exists c, doc_class e = Some c /\ first_with (fun x => fe_name x = c) (fd_definitions fd) fe.
  Definition no_declaration (e : doc_entity) : Prop := forall fe, In fe (fd_definitions fd) -> doc_class e <> Some (fe_name fe).

  (** A declared property of an actor: what [delivered] says, but flags arrive as choices (C37). *)
  Definition arrives (d : property_data f32) (raw : option str) (v : property f32) : Prop :=
    (~ is_flags d /\ delivered p d raw v) \/ (exists fs df z, d = FFlags fs df /\ v = PrChoices z /\ read_or integer_text raw df z).

  (** The properties of the actor of a written entity. *)
  Definition carries (e : doc_entity) (m : properties f32) : Prop :=
    (forall fe, class_declaration e fe ->
       (forall k fp, last_named k (fe_properties fe) fp -> exists v, hget m k = Some v /\ arrives (fp_data fp) (doc_value e k) v)
       /\ (forall k, ~ declares fe k -> undeclared_value (doc_value e k) k (hget m k)))
    /\ (no_declaration e -> forall k, hget m k = None).

  (** What an actor says about its entity. *)
  Definition describes (e : doc_entity) (a : actor f32) : Prop :=
    doc_class e = Some (a_name a) /\ carries e (a_properties a)
    /\ (forall df, class_definition e df -> a_type a = pd_type (point_part df)
          /\ a_component a = component_name (pd_component (point_part df)) /\ a_application a = pd_application (point_part df))
    /\ (no_definition e -> a_type a = EPlaceholder /\ a_component a = None /\ a_application a = AProperties).

  (** The kinds of geometry an entity may have: what its definition asks for, if that is a brush definition. *)
  Definition kinds (e : doc_entity) (v : visual f32) (k : collision f32) : Prop :=
    (no_definition e -> v = VisNone /\ k = ColNone)
    /\ forall df, class_definition e df ->
       match ed_data df with
       | DPoint _ => v = VisNone /\ k = ColNone
       | GameDataModel.DBrush _ bd => (bd_visual bd = VNone -> v = VisNone)
           /\ match bd_collision bd with
              | CNone => k = ColNone
              | CConvex => exists l, k = ColConvex l
              | CConcave => k = ColNone \/ exists x, k = ColConcave [x]
              end
       end.

  (** At its centre, seen from the centre of its parent if it has one. *)
  Definition offset (up : option (vec3 f32)) (c o : vec3 f32) : Prop :=
    match up with None => same_vec3 o c | Some u => same_vec3 o (minus c u) end.

  (** ** Trees *)
  Definition member (e e' : doc_entity) : Prop := exists g, doc_value e' (lit "_tb_group") = Some g /\ doc_value e (lit "_tb_id") = Some g.

  (** The tree of a written entity: its actor, its geometry, the trees of the entities in its group in the order of the file. *)
  Inductive entity_tree (others : doc) : option (vec3 f32) -> doc_entity -> node f32 -> Prop :=
  | EntityTree up e c o a v k geometry es actors :
      centre_of p tx e c -> offset up c o -> describes e a -> kinds e v k -> geometry_nodes_of c v k geometry ->
      selected (member e) others es -> Forall2 (entity_tree others (Some c)) es actors ->
      entity_tree others up e (NActor o a (geometry ++ actors)).

  (** The tree of a map: the worldspawn, the layers, the other entities without group in the order of the file. *)
  Definition map_tree (d : doc) (nodes : list (node f32)) : Prop :=
    exists w others world layers tops rest, doc_world d others w /\ nodes = world :: layers ++ rest
      /\ entity_tree others None w world
      /\ Forall (layer_actor gd) layers /\ length layers <= 2
      /\ selected (fun e => doc_value e (lit "_tb_group") = None) others tops /\ Forall2 (entity_tree others None) tops rest.
End Actor.

(** ** Equal actors *)
Definition like (a b : actor f32) : Prop :=
  a_name a = a_name b /\ a_type a = a_type b /\ a_component a = a_component b /\ a_application a = a_application b
  /\ forall k, hget (a_properties a) k = hget (a_properties b) k.
(** Equal but for positions and shapes. *)
Inductive alike : node f32 -> node f32 -> Prop :=
| Alike o o' a b g h l l' : like a b -> Forall geometry_node g -> Forall geometry_node h -> Forall2 alike l l' ->
    alike (NActor o a (g ++ l)) (NActor o' b (h ++ l')).
