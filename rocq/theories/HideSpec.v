(** What a wider blacklist changes (C113). *)
From Verif Require Import Prelude F32 Text MapModel GeoModel GameDataModel SceneModel RunModel GatherSpec SurfaceSpec DiffSpec TreeSpec.

Definition wider (bl bl' : blacklist) : Prop := incl (bl_brush bl) (bl_brush bl') /\ incl (bl_plane bl) (bl_plane bl').
(** Everything but the blacklist. *)
Definition same_but_blacklist (c c' : config) : Prop :=
  cf_map c = cf_map c' /\ cf_textures c = cf_textures c' /\ cf_forge c = cf_forge c' /\ cf_game c = cf_game c'.

(** The corners of the triangles of a surface, three for each triangle, with all their attributes. *)
Definition surface_corners (s : surface f32) (cs : list (vertex f32)) : Prop :=
  exists vs, describes s vs /\ map (nth_error vs) (s_indices s) = map Some cs.

(** [s'] is [s] without some pieces; pieces consist of whole triangles. *)
Definition thinned (s s' : surface f32) : Prop :=
  s_texture s' = s_texture s /\ exists pieces kept, surface_corners s (concat pieces) /\ surface_corners s' (concat kept)
    /\ subseq kept pieces /\ Forall (fun l => exists k, length l = 3 * k) pieces.

Definition surfaces (v : visual f32) : list (surface f32) := match v with VisNone => [] | VisMesh l => l end.
Definition listed_texture (bl : blacklist) (s : surface f32) : Prop := exists t, s_texture s = Some t /\ In t (bl_plane bl).

(** [v'] is [v] with less to see: surfaces of listed textures are gone, others thinner or gone; if no more brushes are listed, these
    are the same. *)
Definition dimmed (bl bl' : blacklist) (v v' : visual f32) : Prop :=
  (exists kept, subseq kept (surfaces v) /\ Forall2 thinned kept (surfaces v') /\ Forall (fun s => ~ listed_texture bl' s) kept)
  /\ (incl (bl_brush bl') (bl_brush bl) -> selected (fun s => ~ listed_texture bl' s) (surfaces v) (surfaces v')).

(** The same nodes with other visuals. *)
Inductive redrawn (V : visual f32 -> visual f32 -> Prop) : node f32 -> node f32 -> Prop :=
| Redrawn o a c v v' k g g' l l' : V v v' -> geometry_nodes_of c v k g -> geometry_nodes_of c v' k g' ->
    Forall2 (redrawn V) l l' -> redrawn V (NActor o a (g ++ l)) (NActor o a (g' ++ l')).
