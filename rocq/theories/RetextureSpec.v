(** Other names for the textures (C142). *)
From Coq Require Import Permutation.
From Verif Require Import Prelude F32 Text MapModel GeoModel SceneModel RunModel GatherSpec MapSpec PointsSpec.

Section Names.
  Context {T : Type} (f : str -> str).

  (** The same side with the texture renamed by [f]. *)
  Definition recover (pl : brush_plane T) : brush_plane T :=
    BrushPlane (bp_v0 pl) (bp_v1 pl) (bp_v2 pl) (f (bp_texture pl)) (bp_uv pl) (bp_rotation pl) (bp_scale pl) (bp_extra pl).

  (** The same node with the textures of its surfaces renamed by [f]. *)
  Definition rename_surface (s : surface T) : surface T :=
    Surface (option_map f (s_texture s)) (s_vertices s) (s_normals s) (s_tangents s) (s_uvs s) (s_colors s) (s_indices s).
  Definition rename_visual (v : visual T) : visual T := match v with VisNone => VisNone | VisMesh l => VisMesh (map rename_surface l) end.
  Fixpoint rename_node (n : node T) : node T :=
    match n with
    | NActor o a ch => NActor o a (map rename_node ch)
    | NVisual o v => NVisual o (rename_visual v)
    | NCollision o k => NCollision o k
    end.
End Names.

(** The names written on sides of the document, and those of the two layers. *)
Definition texture_name (p : platform) (d : doc) (t : str) : Prop :=
  t = lit "*water0" \/ t = lit "*slime0" \/ exists e b l pl, In e d /\ In b (doc_brushes e) /\ In l b /\ reads_as p l pl /\ bp_texture pl = t.

Definition renamed_line (p : platform) (f : str -> str) (l l' : str) : Prop := exists pl, reads_as p l pl /\ reads_as p l' (recover f pl).
Definition renamed_entity (p : platform) (f : str -> str) (e e' : doc_entity) : Prop :=
  (forall k, doc_value e k = doc_value e' k) /\ Forall2 (Forall2 (renamed_line p f)) (doc_brushes e) (doc_brushes e').

(** [f] keeps the textures of the document apart and the layers as they are, and carries the sizes and lists of [c] to those of [c']. *)
Record carries (f : str -> str) (U : str -> Prop) (c c' : config) : Prop := {
  carries_apart : forall s t, U s -> U t -> f s = f t -> s = t;
  carries_water : f (lit "*water0") = lit "*water0";
  carries_slime : f (lit "*slime0") = lit "*slime0";
  carries_sizes : forall t, U t -> hget (cf_textures c') (f t) = hget (cf_textures c) t;
  carries_brushes : forall t, U t -> (In (f t) (bl_brush (cf_blacklist c')) <-> In t (bl_brush (cf_blacklist c)));
  carries_planes : forall t, U t -> (In (f t) (bl_plane (cf_blacklist c')) <-> In t (bl_plane (cf_blacklist c)));
  carries_forge : cf_forge c = cf_forge c';
  carries_game : cf_game c = cf_game c' }.

(** World, layers in some order, and other entities, all renamed. *)
Definition renamed_run (f : str -> str) (nodes nodes' : list (node f32)) : Prop :=
  exists world layers layers' rest, nodes = world :: layers ++ rest /\ nodes' = rename_node f world :: layers' ++ map (rename_node f) rest
    /\ Permutation (map (rename_node f) layers) layers'.
