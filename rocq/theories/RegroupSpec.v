(** Other numbers for the groups (C141). *)
From Verif Require Import Prelude F32 Text MapModel GeoModel SceneModel GatherSpec TextSpec PropertySpec MapSpec RunSpec.

(** The first entity is in the group of the second one. *)
Definition linked (e h : doc_entity) : Prop := exists g, doc_value e (lit "_tb_group") = Some g /\ doc_value h (lit "_tb_id") = Some g.

(** Both absent, both integers or both something else. *)
Definition same_form (v v' : option str) : Prop :=
  (v = None <-> v' = None) /\ forall s s', v = Some s -> v' = Some s' -> ((exists z, integer_text s z) <-> (exists z, integer_text s' z)).

(** The same entity with other values for [_tb_id] and [_tb_group]. *)
Definition renumbered (e e' : doc_entity) : Prop :=
  doc_brushes e = doc_brushes e' /\ (forall k, ~ internal_integer k -> doc_value e k = doc_value e' k)
  /\ (forall k, internal_integer k -> same_form (doc_value e k) (doc_value e' k)).

(** The same entities in the same order, with the same ones in the groups of the same ones. *)
Definition regrouped (d d' : doc) : Prop :=
  Forall2 renumbered d d' /\ forall i j e e' h h', nth_error d i = Some e -> nth_error d' i = Some e' -> nth_error d j = Some h -> nth_error d' j = Some h' -> (linked e h <-> linked e' h').

(** The values of [_tb_id] and [_tb_group] replaced by a function. *)
Definition renamed (f : str -> str) (e e' : doc_entity) : Prop :=
  doc_brushes e = doc_brushes e' /\ (forall k, ~ internal_integer k -> doc_value e k = doc_value e' k)
  /\ (forall k, internal_integer k -> doc_value e' k = option_map f (doc_value e k)).
Definition group_name (d : doc) (s : str) : Prop := exists e k, In e d /\ internal_integer k /\ doc_value e k = Some s.

(** The same node up to the values of these two properties. *)
Inductive relabelled {T} : node T -> node T -> Prop :=
| RlVisual o v : relabelled (NVisual o v) (NVisual o v)
| RlCollision o k : relabelled (NCollision o k) (NCollision o k)
| RlActor o a a' ch ch' : a_name a = a_name a' -> a_type a = a_type a' -> a_component a = a_component a' -> a_application a = a_application a' ->
    (forall k, ~ internal_integer k -> hget (a_properties a) k = hget (a_properties a') k) ->
    (forall k, internal_integer k -> (hget (a_properties a) k = None <-> hget (a_properties a') k = None)) ->
    Forall2 relabelled ch ch' -> relabelled (NActor o a ch) (NActor o a' ch').
