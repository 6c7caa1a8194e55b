(** Convex collision shapes in single precision against the solids they stand for (C108). *)
From Coq Require Import Reals.
From Verif Require Import Prelude F32 Text MapModel GeoModel SceneModel MapSpec RealSpec WindSpec ErrorSpec PointsSpec CornerSpec SolidSpec WoundSpec.
Local Open Scope R_scope.

(** The solid is finite and no meeting point of its planes is a close call; [b] bounds how far rounding may move a corner. *)
Definition plain_brush (planes : list (brush_plane f32)) (b : R) : Prop :=
  bounded (solid (map plane_of planes)) /\ forall pl, In pl planes -> clear planes pl /\ blurred b planes pl.

(** The convex hull of the points is the set, up to [h] on either side. *)
Definition fills (h : R) (l : list (vec3 f32)) (P : vec3 R -> Prop) : Prop :=
  (forall x, P x -> exists y, in_hull (map point_of l) y /\ norm (minus y x) <= h)
  /\ (forall y, in_hull (map point_of l) y -> exists x, P x /\ norm (minus y x) <= h).

(** A brush written in the document. *)
Definition brush_of (p : platform) (d : doc) (e : doc_entity) (planes : list (brush_plane f32)) : Prop :=
  exists b, In e d /\ In b (doc_brushes e) /\ Forall2 (reads_as p) b planes.
