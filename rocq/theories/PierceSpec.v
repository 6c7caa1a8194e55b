(** Lines through a brush: specification of C152. *)
From Coq Require Import Reals.
From Verif Require Import Prelude F32 Text MapModel GeoModel RealSpec WindSpec RaySpec.
Local Open Scope R_scope.

(** The ray from [o] in the direction [w] passes the triangles of the brush at exactly [n] points. *)
Definition passes (b : brush_geo R) (o w : vec3 R) (n : nat) : Prop :=
  exists l, NoDup l /\ length l = n /\ forall t, In t l <-> 0 < t /\ on_mesh b (onwards o w t).
