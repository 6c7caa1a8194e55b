(** Planes that cut nothing off their brush (C115). *)
From Coq Require Import Permutation.
From Verif Require Import Prelude F32 Text MapModel GeoModel SceneModel GeoSpec MapSpec PointsSpec GrowSpec ReworkSpec.

Section Idle.
  Context {T : Type} (O : num T).

  (** All meeting points of the brush are behind the plane, and it takes part in none itself. *)
  Definition idle (b : list (brush_plane T)) (q : brush_plane T) : Prop :=
    (forall p0 p1 p2 x, In p0 b -> meets O b p0 p1 p2 x -> behind O x q)
    /\ forall p0 p1 p2 x, In p0 (q :: b) -> meets O (q :: b) p0 p1 p2 x -> p0 <> q /\ p1 <> q /\ p2 <> q.

  (** [b'] is [b] with idle planes, each with a texture [b] has anyway. *)
  Inductive padded (b : list (brush_plane T)) : list (brush_plane T) -> Prop :=
  | PaddedNone : padded b b
  | PaddedIdle l m q : padded b (l ++ m) -> idle (l ++ m) q -> In (bp_texture q) (map bp_texture b) -> padded b (l ++ q :: m).

  (** A face without corners, with a texture among those of the others. *)
  Definition empty_face (faces : list (face T)) (f : face T) : Prop :=
    f_vertices f = [] /\ f_indices f = [] /\ In (f_texture f) (map f_texture faces).
End Idle.

(** Brushes and entities of map files. *)
Definition padded_lines (p : platform) (b b' : list str) : Prop :=
  exists pls pls', Forall2 (reads_as p) b pls /\ Forall2 (reads_as p) b' pls' /\ padded (f32_num p) pls pls'.
Definition padded_entity (p : platform) (d d' : doc_entity) : Prop :=
  (forall k, doc_value d k = doc_value d' k) /\ Forall2 (padded_lines p) (doc_brushes d) (doc_brushes d').
(** Centres do not depend on the changed brushes. *)
Definition anchored (d d' : doc_entity) : Prop := doc_brushes d = doc_brushes d' \/ doc_value d (lit "origin") <> None.

(** The same surfaces, in some order. *)
Inductive same_picture : visual f32 -> visual f32 -> Prop :=
| SameNone : same_picture VisNone VisNone
| SameMesh l l' : Permutation l l' -> same_picture (VisMesh l) (VisMesh l').
(** The same points and triangles. *)
Inductive same_shape (fixed : Prop) : collision f32 -> collision f32 -> Prop :=
| ShapeNone : same_shape fixed ColNone ColNone
| ShapeConvex l l' : map cx_points l = map cx_points l' -> same_shape fixed (ColConvex l) (ColConvex l')
| ShapeConcave l l' : map cc_vertices l = map cc_vertices l' -> map cc_indices l = map cc_indices l' ->
    (fixed -> map cc_center l = map cc_center l') -> same_shape fixed (ColConcave l) (ColConcave l').
