(** Other names for the classes (C146). *)
From Verif Require Import Prelude F32 Text MapModel GeoModel GameDataModel SceneModel RunModel TextSpec MapSpec RunSpec.

(** The names of classes that occur, and the one that is special. *)
Inductive class_name (c : config) (d : doc) : str -> Prop :=
| NameWorld : class_name c d (lit "worldspawn")
| NameEntity e s : In e d -> doc_class e = Some s -> class_name c d s
| NameGame k : In k (gd_entities (cf_game c)) -> class_name c d (ed_classname k)
| NameForge k : In k (fd_definitions (cf_forge c)) -> class_name c d (fe_name k).

(** A change of names that keeps different names different and the world the world. *)
Definition renaming (c : config) (d : doc) (r : str -> str) : Prop :=
  r (lit "worldspawn") = lit "worldspawn" /\ forall s t, class_name c d s -> class_name c d t -> r s = r t -> s = t.

(** The same entity of a class with another name. *)
Definition reclassed (r : str -> str) (e e' : doc_entity) : Prop :=
  doc_brushes e = doc_brushes e' /\ doc_class e' = option_map r (doc_class e) /\ forall k, k <> lit "classname" -> doc_value e k = doc_value e' k.
(** The same definitions under the new names. *)
Definition reclassed_config (r : str -> str) (c c' : config) : Prop :=
  cf_textures c = cf_textures c' /\ cf_blacklist c = cf_blacklist c' /\ gd_layers (cf_game c) = gd_layers (cf_game c')
  /\ Forall2 (fun k k' => ed_classname k' = r (ed_classname k) /\ ed_data k = ed_data k') (gd_entities (cf_game c)) (gd_entities (cf_game c'))
  /\ Forall2 (fun k k' => fe_name k' = r (fe_name k) /\ fe_properties k = fe_properties k') (fd_definitions (cf_forge c)) (fd_definitions (cf_forge c')).
(** No class declares a property that would show its name. *)
Definition discreet (c : config) : Prop :=
  forall k q, In k (fd_definitions (cf_forge c)) -> In q (fe_properties k) -> fp_name q <> lit "classname".

(** The same node under another name, and so the nodes below. *)
Inductive recalled (r : str -> str) {T} : node T -> node T -> Prop :=
| RcVisual o v : recalled r (NVisual o v) (NVisual o v)
| RcCollision o k : recalled r (NCollision o k) (NCollision o k)
| RcActor o n t k a ps ch ch' : Forall2 (recalled r) ch ch' -> recalled r (NActor o (Actor n t k a ps) ch) (NActor o (Actor (r n) t k a ps) ch').
(** Layers have names of their own. *)
Definition recalled_tree (r : str -> str) {T} (nodes nodes' : list (node T)) : Prop :=
  exists world layers others world' others', nodes = world ++ layers ++ others /\ nodes' = world' ++ layers ++ others'
    /\ Forall2 (recalled r) world world' /\ Forall2 (recalled r) others others' /\ length world <= 1.
