(** No superfluous points in convex shapes: specification of C150. *)
From Coq Require Import Reals.
From Verif Require Import Prelude F32 Text MapModel GeoModel RealSpec WindSpec SolidSpec CastSpec.
Local Open Scope R_scope.

(** The points span the solid, none occurs twice, and every list of points that spans it contains them all. *)
Definition fewest (planes : list (brush_plane R)) (l : list (vec3 R)) : Prop :=
  casts planes l /\ NoDup l /\ forall l', casts planes l' -> incl l l' /\ (length l <= length l')%nat.
