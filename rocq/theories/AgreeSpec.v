(** Concave against convex collision shapes: specification of C156. *)
From Coq Require Import Reals.
From Verif Require Import Prelude F32 Text MapModel GeoModel SceneModel WindSpec RaySpec.
Local Open Scope R_scope.

(** On the skin of the convex hull: in it, while some direction leads out of it at once. *)
Definition skin (l : list (vec3 R)) (x : vec3 R) : Prop := in_hull l x /\ exists w, forall t, 0 < t -> ~ in_hull l (onwards x w t).
(** In the hull, but not on its skin. *)
Definition core (l : list (vec3 R)) (x : vec3 R) : Prop := in_hull l x /\ forall w, exists t, 0 < t /\ in_hull l (onwards x w t).
