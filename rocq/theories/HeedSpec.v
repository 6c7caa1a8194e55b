(** Which keys of an entity a run looks at (C143). *)
From Verif Require Import Prelude F32 Text MapModel GeoModel GameDataModel SceneModel TextSpec TreeSpec PropertySpec MapSpec RunSpec ActorSpec.

(** Its class, its origin and its groups always; smoothing only if it has brushes, and the angle of it only if it is switched on; anything else only if the class is declared,
    and then the type and name of a group and what the declaration lists. *)
Inductive heeded (fd : forge_data f32) (e : doc_entity) : str -> Prop :=
| HeedClass : heeded fd e (lit "classname")
| HeedOrigin : heeded fd e (lit "origin")
| HeedId : heeded fd e (lit "_tb_id")
| HeedGroup : heeded fd e (lit "_tb_group")
| HeedSmooth : doc_brushes e <> [] -> heeded fd e (lit "_phong")
| HeedAngle : doc_brushes e <> [] -> doc_value e (lit "_phong") = Some (lit "1") -> heeded fd e (lit "_phong_angle")
| HeedText : forall fe k, class_declaration fd e fe -> internal_string k -> heeded fd e k
| HeedDeclared : forall fe fp, class_declaration fd e fe -> In fp (fe_properties fe) -> heeded fd e (fp_name fp).

(** The same entity to such a reader. *)
Definition heard_alike (fd : forge_data f32) (e e' : doc_entity) : Prop :=
  doc_brushes e = doc_brushes e' /\ forall k, heeded fd e k -> doc_value e k = doc_value e' k.
