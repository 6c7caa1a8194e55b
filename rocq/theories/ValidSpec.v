(** The maps that can be built (C118). *)
From Verif Require Import Prelude F32 Text MapModel GeoModel GameDataModel MapSpec PropertySpec RunSpec TreeSpec ActorSpec.

(** The document of a text that may lack closing braces at its end. *)
Definition open_document (p : platform) (text : str) (d : doc) : Prop :=
  exists ls ts missing, lines_spec (p_keep_bare_cr p) text ls /\ Forall2 token_spec ls ts /\ significant ts ++ repeat TClose missing = doc_tokens d.

Section Valid.
  Context (others : doc).
  (** The entities of the tree: the world, those without group, those in the group of an entity of the tree. *)
  Inductive placed (w : doc_entity) : doc_entity -> Prop :=
  | PlacedWorld : placed w w
  | PlacedTop e : In e others -> doc_value e (lit "_tb_group") = None -> placed w e
  | PlacedMember e e' : placed w e -> In e' others -> member e e' -> placed w e'.
  (** In the group of an entity, directly or through others. *)
  Inductive below : doc_entity -> doc_entity -> Prop :=
  | BelowHere e e' : In e' others -> member e e' -> below e e'
  | BelowDeep e e' e'' : In e' others -> member e e' -> below e' e'' -> below e e''.
End Valid.

(** It has a class, and integer ids if the class is declared. *)
Definition usable_entity (fd : forge_data f32) (e : doc_entity) : Prop :=
  doc_class e <> None /\ forall fe k s, class_declaration fd e fe -> internal_integer k -> doc_value e k = Some s -> exists z, integer_text s z.

Definition buildable (p : platform) (fd : forge_data f32) (d : doc) : Prop :=
  sound_planes p d /\ exists w others, doc_world d others w /\ (forall e, placed others w e -> usable_entity fd e)
    /\ forall e, placed others w e -> ~ below others e e.

(** Some entity of the tree is in its own group, directly or through others. *)
Definition circular (d : doc) : Prop := exists w others e, doc_world d others w /\ placed others w e /\ below others e e.
(** All entities of the tree can be turned into actors. *)
Definition usable_document (fd : forge_data f32) (d : doc) : Prop := forall w others e, doc_world d others w -> placed others w e -> usable_entity fd e.
