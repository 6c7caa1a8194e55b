(** The same planes stated by other points (C120). *)
From Coq Require Import Reals Permutation.
From Verif Require Import Prelude F32 Text MapModel GeoModel SceneModel RealSpec WindSpec.
Local Open Scope R_scope.

(** The three points of [pl'] lie on the plane of [pl] and turn the same way; all else is equal. *)
Definition restated (pl pl' : brush_plane R) : Prop :=
  on_plane pl (bp_v0 pl') /\ (exists k, 0 < k /\ facing pl' = V3 (k * vx (facing pl)) (k * vy (facing pl)) (k * vz (facing pl))) /\
  bp_texture pl' = bp_texture pl /\ bp_uv pl' = bp_uv pl /\ bp_rotation pl' = bp_rotation pl /\ bp_scale pl' = bp_scale pl /\ bp_extra pl' = bp_extra pl.

(** The list begun at another element. *)
Definition begun_elsewhere {A} (l l' : list A) : Prop := exists a b, l = a ++ b /\ l' = b ++ a.

Definition restated_face (f f' : face R) : Prop :=
  f_center f' = f_center f /\ Permutation (f_vertices f) (f_vertices f') /\ f_indices f' = f_indices f /\ f_texture f' = f_texture f.

Definition restated_brush (b b' : brush_geo R) : Prop := bg_center b' = bg_center b /\ Forall2 restated_face (bg_faces b) (bg_faces b').
Definition restated_entity (e e' : entity R) : Prop := e_props e' = e_props e /\ Forall2 (Forall2 restated) (e_brushes e) (e_brushes e').
Definition restated_convex (c c' : convex R) : Prop := cx_center c' = cx_center c /\ Permutation (cx_points c) (cx_points c').
