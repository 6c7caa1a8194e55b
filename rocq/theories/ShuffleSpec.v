(** The order of brushes (C117). *)
From Coq Require Import Permutation.
From Verif Require Import Prelude F32 Text MapModel GeoModel SceneModel MapSpec SurfaceSpec HideSpec.

(** The same entity with its brushes in another order. *)
Definition reshuffled (d d' : doc_entity) : Prop := (forall k, doc_value d k = doc_value d' k) /\ Permutation (doc_brushes d) (doc_brushes d').

(** The same triangles with all their attributes; those of a brush stay together. *)
Definition whole_triangles {A} (l : list A) : Prop := exists k, length l = 3 * k.
Definition shuffled_surface (s s' : surface f32) : Prop :=
  s_texture s = s_texture s' /\ exists pieces pieces', surface_corners s (concat pieces) /\ surface_corners s' (concat pieces')
    /\ Permutation pieces pieces' /\ Forall whole_triangles pieces.
Inductive shuffled_visual : visual f32 -> visual f32 -> Prop :=
| ShuffledNone : shuffled_visual VisNone VisNone
| ShuffledMesh l mid l' : Permutation l mid -> Forall2 shuffled_surface mid l' -> shuffled_visual (VisMesh l) (VisMesh l').

(** The same convex shapes; the same triangles of a concave shape. *)
Definition shape_corners (k : concave f32) (cs : list (vec3 f32)) : Prop := map (nth_error (cc_vertices k)) (cc_indices k) = map Some cs.
Inductive shuffled_shape (fixed : Prop) : collision f32 -> collision f32 -> Prop :=
| ShuffledGone : shuffled_shape fixed ColNone ColNone
| ShuffledConvex l l' : Permutation l l' -> shuffled_shape fixed (ColConvex l) (ColConvex l')
| ShuffledConcave k k' pieces pieces' : (fixed -> cc_center k = cc_center k') -> shape_corners k (concat pieces) -> shape_corners k' (concat pieces') ->
    Permutation pieces pieces' -> Forall whole_triangles pieces -> shuffled_shape fixed (ColConcave [k]) (ColConcave [k']).
