(** Cutting a brush in two (C145). *)
From Coq Require Import Reals Permutation.
From Verif Require Import Prelude F32 Text MapModel GeoModel SceneModel RealSpec WindSpec SolidSpec RestateSpec.
Local Open Scope R_scope.

(** The same plane seen from the other side. *)
Definition backs (c c' : brush_plane R) : Prop :=
  on_plane c (bp_v0 c') /\ exists k, 0 < k /\ facing c' = V3 (- k * vx (facing c)) (- k * vy (facing c)) (- k * vz (facing c)).
(** A brush with one more plane, anywhere. *)
Definition adds {A} (c : A) (planes more : list A) : Prop := forall q, In q more <-> q = c \/ In q planes.

(** The two faces along a cut: the same corners in opposite orders, the same centre, as many triangles. *)
Definition touching (f f' : face R) : Prop :=
  Permutation (map vt_pos (f_vertices f)) (map vt_pos (f_vertices f')) /\ f_center f' = f_center f /\ f_indices f' = f_indices f.
