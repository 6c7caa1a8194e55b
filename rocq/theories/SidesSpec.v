(** The sides of a brush in another order (C121). *)
From Coq Require Import Reals Permutation.
From Verif Require Import Prelude F32 Text MapModel GeoModel SceneModel RealSpec WindSpec GeoSpec RestateSpec.
Local Open Scope R_scope.

(** At no corner of the brush do more than three of its planes meet. *)
Definition trihedral (planes : list (brush_plane R)) : Prop := forall p0 p1 p2 p3 x,
  In p0 planes -> In p1 planes -> In p2 planes -> In p3 planes -> spans p0 p1 p2 ->
  on_plane p0 x -> on_plane p1 x -> on_plane p2 x -> on_plane p3 x -> (forall q, In q planes -> within (/ 1000) q x) ->
  p3 = p0 \/ p3 = p1 \/ p3 = p2.
(** Normals are not smoothed, or there is only one way to smooth them. *)
Definition settled (e : entity R) (planes : list (brush_plane R)) : Prop := ~ phong e \/ trihedral planes.

Definition resided_brush (b b' : brush_geo R) : Prop :=
  bg_center b' = bg_center b /\ exists fs, Permutation (bg_faces b) fs /\ Forall2 restated_face fs (bg_faces b').
Definition resided_entity (e e' : entity R) : Prop :=
  e_props e' = e_props e /\ Forall2 (@Permutation (brush_plane R)) (e_brushes e) (e_brushes e') /\ forall b, In b (e_brushes e) -> settled e b.
