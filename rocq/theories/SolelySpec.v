(** What is built depends only on the solid: specification of C151. *)
From Coq Require Import Reals Permutation.
From Verif Require Import Prelude F32 Text MapModel GeoModel RealSpec WindSpec SolidSpec.
Local Open Scope R_scope.

(** The planes enclose the same points, whatever planes there are and how they are stated. *)
Definition same_solid (planes planes' : list (brush_plane R)) : Prop := forall x, solid planes x <-> solid planes' x.
Definition same_side (planes : list (brush_plane R)) (pl : brush_plane R) (planes' : list (brush_plane R)) (pl' : brush_plane R) : Prop :=
  forall x, side planes pl x <-> side planes' pl' x.
Definition same_way (pl pl' : brush_plane R) : Prop :=
  exists k, 0 < k /\ facing pl' = V3 (k * vx (facing pl)) (k * vy (facing pl)) (k * vz (facing pl)).

(** Faces with the same corners, centre and numbers of triangles. *)
Definition same_face (f f' : face R) : Prop :=
  Permutation (map vt_pos (f_vertices f)) (map vt_pos (f_vertices f')) /\ f_center f' = f_center f /\ f_indices f' = f_indices f.
