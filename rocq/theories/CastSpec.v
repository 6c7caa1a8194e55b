(** Convex shapes and solids in exact arithmetic: specification of C149. *)
From Coq Require Import Reals.
From Verif Require Import Prelude F32 Text MapModel GeoModel SceneModel RealSpec WindSpec SolidSpec.
Local Open Scope R_scope.

(** A bounded brush none of whose corners is too flat to be found or cut off within the tolerance. *)
Definition fair_brush (O : num R) (tx : texture_info) (e : entity R) (planes : list (brush_plane R)) : Prop :=
  (forall plane f, In plane planes -> build_face O tx e planes plane = Ok f -> proper plane /\ crisp planes f /\ sharp planes plane)
  /\ bounded (solid planes).

(** The convex hull of the points is the solid. *)
Definition casts (planes : list (brush_plane R)) (l : list (vec3 R)) : Prop := forall x, in_hull l x <-> solid planes x.
