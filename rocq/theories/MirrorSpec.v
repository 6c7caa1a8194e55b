(** Mirror images (C144). *)
From Coq Require Import Reals Permutation.
From Verif Require Import Prelude F32 Text MapModel GeoModel SceneModel GeoSpec RealSpec WindSpec RigidSpec RestateSpec.
Local Open Scope R_scope.

(** A reflection, or a rotation and a reflection: a linear map that keeps inner products but takes the outer product of two vectors to the opposite of
    that of their images. *)
Definition opposite (a : vec3 R) : vec3 R := V3 (- vx a) (- vy a) (- vz a).
Definition reflection (M : vec3 R -> vec3 R) : Prop :=
  (forall a b, M (along b a) = along (M b) (M a)) /\
  (forall k a, M (V3 (k * vx a) (k * vy a) (k * vz a)) = V3 (k * vx (M a)) (k * vy (M a)) (k * vz (M a))) /\
  (forall a b, inner (M a) (M b) = inner a b) /\
  (forall a b, outer (M a) (M b) = opposite (M (outer a b))).

(** The mirror image of a plane: two of the three points change places, so that it still faces outwards.  How the texture lies on it is left open. *)
Definition mirrored (M : vec3 R -> vec3 R) (t : vec3 R) (pl pl' : brush_plane R) : Prop :=
  bp_v0 pl' = carry M t (bp_v0 pl) /\ bp_v1 pl' = carry M t (bp_v2 pl) /\ bp_v2 pl' = carry M t (bp_v1 pl) /\ bp_texture pl' = bp_texture pl.

Definition mirrored_face (M : vec3 R -> vec3 R) (t : vec3 R) (f f' : face R) : Prop :=
  Permutation (map (carry M t) (map vt_pos (f_vertices f))) (map vt_pos (f_vertices f')) /\ (f_vertices f <> [] -> f_center f' = carry M t (f_center f)) /\
  f_indices f' = f_indices f /\ f_texture f' = f_texture f.
Definition mirrored_brush (M : vec3 R -> vec3 R) (t : vec3 R) (b b' : brush_geo R) : Prop :=
  (full b -> bg_center b' = carry M t (bg_center b)) /\ Forall2 (mirrored_face M t) (bg_faces b) (bg_faces b').
Definition mirrored_entity (M : vec3 R -> vec3 R) (t : vec3 R) (e e' : entity R) : Prop :=
  e_props e' = e_props e /\ Forall2 (Forall2 (mirrored M t)) (e_brushes e) (e_brushes e').
Definition mirrored_convex (M : vec3 R -> vec3 R) (t : vec3 R) (c c' : convex R) : Prop := Permutation (map (carry M t) (cx_points c)) (cx_points c').
