(** What a run may depend on (C76 to C78). *)
From Verif Require Import Prelude F32 Text MapModel GeoModel GameDataModel SceneModel RunModel GatherSpec LayerSpec TreeSpec PropertySpec MapSpec.

(** A texture named on some plane. *)
Definition named (es : list (entity f32)) (t : str) : Prop :=
  exists e b pl, In e es /\ In b (e_brushes e) /\ In pl b /\ bp_texture pl = t.

(** Two configurations that agree on everything the entities [es] mention: sizes and blacklisting of the textures named on
    planes, the definitions used for their classes, and the layer definitions for water and slime. *)
Record agree_on (es : list (entity f32)) (c c' : config) : Prop := AgreeOn {
  agree_sizes : forall t, named es t -> hget (cf_textures c) t = hget (cf_textures c') t;
  agree_brush : forall t, named es t -> (In t (bl_brush (cf_blacklist c)) <-> In t (bl_brush (cf_blacklist c')));
  agree_plane : forall t, named es t -> (In t (bl_plane (cf_blacklist c)) <-> In t (bl_plane (cf_blacklist c')));
  agree_forge : forall e fe, In e es -> (forge_by (cf_forge c) e fe <-> forge_by (cf_forge c') e fe);
  agree_game : forall e d, In e es -> (defined_by (cf_game c) e d <-> defined_by (cf_game c') e d);
  agree_layers : forall t l, t = water \/ t = slime ->
    (only_one (fun l => wl_texture l = t) (gd_layers (cf_game c)) l <-> only_one (fun l => wl_texture l = t) (gd_layers (cf_game c')) l)
}.

(** Entities with the same brushes and the same value for every key. *)
Definition alike {T} (e e' : entity T) : Prop := e_brushes e = e_brushes e' /\ forall k, hget (e_props e) k = hget (e_props e') k.

(** Everything but the map file. *)
Definition same_but_map (c c' : config) : Prop :=
  cf_textures c = cf_textures c' /\ cf_blacklist c = cf_blacklist c' /\ cf_forge c = cf_forge c' /\ cf_game c = cf_game c'.

(** Document entities with the same brushes and the same value for every key. *)
Definition doc_alike (d d' : doc_entity) : Prop := doc_brushes d = doc_brushes d' /\ forall k, doc_value d k = doc_value d' k.

(** ** Meshes of whole runs (C79) *)

(** A node is another one or somewhere below it. *)
Inductive within {T} (n : node T) : node T -> Prop :=
| Within : within n n
| WithinChild : forall o a children c, In c children -> within n c -> within n (NActor o a children).

(** Whole triangles, with corners among the points. *)
Definition triangles {P} (points : list P) (indices : list nat) : Prop :=
  (exists k, length indices = 3 * k) /\ Forall (fun i => i < length points) indices.

Definition sound_surface {T} (s : surface T) : Prop :=
  s_vertices s <> [] /\ triangles (s_vertices s) (s_indices s)
  /\ length (s_normals s) = length (s_vertices s) /\ length (s_tangents s) = length (s_vertices s)
  /\ (s_texture s = None <-> s_uvs s = None)
  /\ (forall uvs, s_uvs s = Some uvs -> length uvs = length (s_vertices s))
  /\ (forall cs, s_colors s = Some cs -> length cs = length (s_vertices s)).

Definition sound_node (p : platform) (n : node f32) : Prop :=
  match n with
  | NActor _ _ _ => True
  | NVisual _ VisNone => False
  | NVisual _ (VisMesh ss) => ss <> [] /\ NoDup (map s_texture ss) /\ Forall sound_surface ss
  | NCollision _ ColNone => False
  | NCollision _ (ColConvex shapes) => Forall (fun c => pairwise_not (pos_eq (f32_num p)) (cx_points c)) shapes
  | NCollision _ (ColConcave shapes) =>
    exists c, shapes = [c] /\ cc_vertices c <> [] /\ triangles (cc_vertices c) (cc_indices c)
  end.
